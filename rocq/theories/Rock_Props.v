(** C22, C70: ROCK. *)
From Verif Require Import Base Aggl_Model Aggl_Proofs Rock_Model Rock_Proofs.
From Coq Require Import Reals Lra.

(** C22 *)
Theorem C22_rock data eps threshold number : (0 <= threshold < 1)%R -> data <> [] -> (0 <= eps)%Q -> 1 <= number ->
  let D a b := sqdist (nth a data []) (nth b data []) in
  exists cl, rock data eps threshold number = Ok cl /\ partitions (length data) cl /\ no_empty cl /\
    Nat.min number (length data) <= length cl /\
    (forall c x y, In c cl -> In x c -> In y c -> chain D (eps * eps) (fun z => In z c) x y) /\
    (number < length cl -> forall a b x y, a < b -> b < length cl -> In x (nth a cl []) -> In y (nth b cl []) -> (eps * eps < D x y)%Q) /\
    rock_run data eps threshold (map (fun i => [i]) (seq 0 (length data))) cl.
Proof. intros [H0 H1]. exact (rock_spec data eps threshold H0 H1 number). Qed.
Print Assumptions C22_rock.

(** three points on a line, two of them within eps, asked for one cluster: two clusters remain *)
Example C22_nonvacuous : let data := [[0];[1];[5]]%Q in
  exists cl, rock data 2 (1 / 2) 1 = Ok cl /\ length cl = 2.
Proof.
  intros data. destruct (C22_rock data 2 (1 / 2)%R 1) as (cl & E & P & N & L & Hchain & Hap & _); try lra; try discriminate; try lia.
  exists cl. split; auto.
  assert (Hin : forall i, i < 3 -> exists k, k < length cl /\ In i (nth k cl [])).
  { intros i Hi. assert (H : In i (concat cl)) by (apply (Permutation_in _ (Permutation_sym P)), in_seq; simpl; lia).
    apply in_concat in H as [c [Hc H]]. apply (In_nth _ _ []) in Hc as [k [Hk <-]]. eauto. }
  assert (Hall : forall c x, In c cl -> In x c -> x < 3).
  { intros c x Hc Hx. assert (H : In x (concat cl)) by (apply in_concat; eauto). apply (Permutation_in _ P), in_seq in H. simpl in H. lia. }
  destruct (Hin 0 ltac:(lia)) as (k0 & L0 & I0). destruct (Hin 1 ltac:(lia)) as (k1 & L1 & I1). destruct (Hin 2 ltac:(lia)) as (k2 & L2 & I2).
  assert (Hne : k2 <> k0).
  { intros ->. pose proof (Hchain (nth k0 cl []) 0 2 ltac:(apply nth_In; auto) I0 I2) as H.
    assert (G : forall z t, chain (fun a b => sqdist (nth a data []) (nth b data [])) (2 * 2) (fun z => In z (nth k0 cl [])) z t -> z < 2 -> t < 2).
    { intros z t Hc. induction Hc as [z|z y t Hc IH Hal Hd]; auto. intros Hz. specialize (IH Hz).
      pose proof (Hall _ _ (nth_In cl [] L0) Hal) as Ht. destruct t as [|[|[|t]]]; try lia. destruct y as [|[|y]]; [| |lia]; vm_compute in Hd; congruence. }
    specialize (G _ _ H ltac:(lia)). lia. }
  assert (Hge : 2 <= length cl) by lia. destruct (Nat.eq_dec (length cl) 2) as [|Hn]; auto. exfalso.
  assert (Hk : k0 = k1).
  { specialize (Hap ltac:(lia)). destruct (Nat.lt_trichotomy k0 k1) as [Hlt|[|Hlt]]; auto.
    - specialize (Hap k0 k1 0 1 Hlt L1 I0 I1). vm_compute in Hap. discriminate.
    - specialize (Hap k1 k0 1 0 Hlt L0 I1 I0). vm_compute in Hap. discriminate. }
  (* a third cluster would be empty *)
  assert (Hex : exists k, k < length cl /\ k <> k0 /\ k <> k2).
  { destruct (Nat.eq_dec 0 k0), (Nat.eq_dec 0 k2), (Nat.eq_dec 1 k0), (Nat.eq_dec 1 k2); try lia;
    try (exists 0; lia); try (exists 1; lia); try (exists 2; lia). }
  destruct Hex as (k & Lk & N0 & N2). pose proof (proj1 (Forall_forall _ _) N (nth k cl []) ltac:(apply nth_In; auto)) as Hnon.
  destruct (nth k cl []) as [|x c] eqn:Ec; [congruence|].
  assert (Hx : In x (nth k cl [])) by (rewrite Ec; left; auto). assert (Hx3 : x < 3) by (eapply Hall; [apply (nth_In cl [] Lk)|eauto]).
  assert (Hnd : NoDup (concat cl)) by (apply (Permutation_NoDup (Permutation_sym P)), seq_NoDup).
  pose proof (Bsas_Proofs.concat_nodup_inj cl Hnd) as Hinj.
  destruct x as [|[|[|x]]]; [apply N0; eapply Hinj; eauto|apply N0; subst k1; eapply Hinj; eauto|apply N2; eapply Hinj; eauto|lia].
Qed.

(** C70: the constructor accepts threshold = 1, process() then divides by zero *)
Theorem C70_rock_threshold_one_fails data eps number : (0 <= eps)%Q -> 1 <= number -> number < length data ->
  rock data eps 1 number = Raise ZeroDivisionError.
Proof.
  intros He Hn Hl. unfold rock. destruct data as [|p t] eqn:Ed; [simpl in Hl; lia|]. rewrite <- Ed in *. clear Ed.
  destruct (Qltb eps 0) eqn:E1; [apply Qltb_true in E1; apply Qlt_not_le in E1; contradiction|].
  destruct (Rlt_dec 1 0); [lra|]. destruct (Rlt_dec 1 1); [lra|]. destruct (Nat.eqb_spec number 0); [lia|].
  assert (Hlen : length (map (fun i => [i]) (seq 0 (length data))) = length data) by now rewrite map_length, seq_length.
  destruct (length data) as [|[|m]] eqn:Em; [lia|lia|]. cbn [rock_loop]. rewrite Hlen. destruct (Nat.ltb_spec number (S (S m))); [|lia].
  unfold find_pair_clusters. rewrite Hlen. unfold pairs. cbn [seq flat_map map Nat.sub app]. cbn [find_loop nth map seq].
  unfold calculate_goodness. cbn [length].
  assert (Ez : devider 1 1 1 = 0%R).
  { unfold devider, degree_normalization. replace (1 + 2 * ((1 - 1) / (1 + 1)))%R with 1%R by field. rewrite !Rpower_1; simpl; lra. }
  rewrite Ez. destruct (Req_EM_T 0 0); [reflexivity|lra].
Qed.
Print Assumptions C70_rock_threshold_one_fails.

(** ... so that accepted arguments are not enough for process() to succeed *)
Theorem C70_rock_threshold_refuted : exists data eps threshold number,
  data <> [] /\ (0 <= eps)%Q /\ (0 <= threshold <= 1)%R /\ 1 <= number /\ rock data eps threshold number = Raise ZeroDivisionError.
Proof.
  exists [[0];[1]]%Q, 1%Q, 1%R, 1. split; [discriminate|]. split; [unfold Qle; simpl; lia|]. split; [lra|]. split; auto.
  apply C70_rock_threshold_one_fails; simpl; try lia. unfold Qle. simpl. lia.
Qed.
Print Assumptions C70_rock_threshold_refuted.
