(** C268: k-medians with zero tolerance and the Manhattan metric ends by itself in a local
    optimum; with the default squared Euclidean metric it may end elsewhere. *)
From Verif Require Import Base Kmeans_Model Kmeans_Proofs Kmedians_Proofs Birch_Total Reorder_Props.

Lemma argmin_from_first l : forall best bv i all,
  best < i -> (nth best all 0 == bv)%Q -> length all = i + length l ->
  (forall k, k < length l -> nth (i + k) all 0%Q = nth k l 0%Q) ->
  (forall k, k < i -> (bv <= nth k all 0)%Q) -> (forall k, k < best -> (bv < nth k all 0)%Q) ->
  forall k, k < argmin_from best bv i l -> (nth (argmin_from best bv i l) all 0 < nth k all 0)%Q.
Proof.
  induction l as [|v t IH]; intros best bv i all Hb Hbv Hlen Hsuf Hmin Hf; cbn [argmin_from].
  - intros k Hk. rewrite Hbv. auto.
  - assert (Ev : nth i all 0%Q = v) by (specialize (Hsuf 0 ltac:(simpl; lia)); rewrite Nat.add_0_r in Hsuf; exact Hsuf).
    assert (Hs' : forall k, k < length t -> nth (S i + k) all 0%Q = nth k t 0%Q).
    { intros k Hk. replace (S i + k) with (i + S k) by lia. rewrite Hsuf by (simpl; lia). reflexivity. }
    cbn [length] in Hlen. destruct (Qltb v bv) eqn:E.
    + apply Qltb_true in E. apply IH; try lia; auto.
      * rewrite Ev. reflexivity.
      * intros k Hk. destruct (Nat.eq_dec k i) as [->|]; [rewrite Ev; lra|]. specialize (Hmin k ltac:(lia)). lra.
      * intros k Hk. specialize (Hmin k Hk). lra.
    + apply Qltb_false in E. apply IH; try lia; auto.
      intros k Hk. destruct (Nat.eq_dec k i) as [->|]; [rewrite Ev; lra|]. apply Hmin. lia.
Qed.
Lemma argmin_first l k : k < argmin l -> (nth (argmin l) l 0 < nth k l 0)%Q.
Proof.
  destruct l as [|v t]; [simpl; lia|]. unfold argmin. intros Hk. apply argmin_from_first; auto; try reflexivity; try lia.
  intros j Hj. assert (j = 0) as -> by lia. simpl. lra.
Qed.

Section Conv.
Variable data : list point.
Hypothesis data_ne : data <> [].
Hypothesis data_dim : uniform (dimension data) data.
Variable initial : list point.
Hypothesis init_ne : initial <> [].
Hypothesis init_dim : uniform (dimension data) initial.

Fixpoint mrun (t : nat) : list point :=
  match t with 0 => initial | S t' => map (median_of data) (assign manhattan data (mrun t')) end.
Definition mgrp (t : nat) : list (list nat) := match t with 0 => [] | S t' => assign manhattan data (mrun t') end.
Definition mchg (t : nat) : option Q := match t with 0 => None | S t' => Some (kmedians_changes manhattan (mrun t') (mrun t)) end.

Lemma mrun_ok t : kmedians_ok data (length initial) (mgrp (S t)) (mrun (S t)) /\ mrun t <> [] /\ length (mrun t) <= length initial /\ uniform (dimension data) (mrun t).
Proof.
  assert (St : forall c, c <> [] -> length c <= length initial -> kmedians_ok data (length initial) (assign manhattan data c) (map (median_of data) (assign manhattan data c))).
  { intros c Hc Hl. pose proof (kmedians_step_ok manhattan data (length initial) c Hc Hl) as W. rewrite kmedians_assign in W by exact Hc. exact W. }
  induction t as [|t (IH & _)].
  - split; [apply St; auto|]. repeat split; auto.
  - destruct (kmedians_ok_uniform data _ _ _ data_ne IH) as [Hne Hu].
    assert (Hl : length (mrun (S t)) <= length initial) by (destruct IH as (_ & _ & H3 & H4 & _); lia).
    split; [|split; [|split]]; auto. apply St; auto.
Qed.

Lemma mloop_run tol left : forall t,
  ((forall u, t <= u < t + left -> exceeds (mchg u) tol = true) /\
   kmedians_loop manhattan data tol left (mchg t) (mgrp t) (mrun t) = (mgrp (t + left), mrun (t + left))) \/
  (exists u, t <= u < t + left /\ exceeds (mchg u) tol = false /\ (forall v, t <= v < u -> exceeds (mchg v) tol = true) /\
   kmedians_loop manhattan data tol left (mchg t) (mgrp t) (mrun t) = (mgrp u, mrun u)).
Proof.
  induction left as [|left IH]; intros t.
  - left. split; [intros; lia|]. rewrite Nat.add_0_r. reflexivity.
  - cbn [kmedians_loop]. destruct (exceeds (mchg t) tol) eqn:E.
    + rewrite kmedians_assign by apply mrun_ok. change (kmedians_update_medians data) with (map (median_of data)).
      destruct (IH (S t)) as [[H1 H2]|(u & H1 & H2 & H3 & H4)].
      * left. split.
        -- intros u Hu. destruct (Nat.eq_dec u t) as [->|]; auto. apply H1. lia.
        -- replace (t + S left) with (S t + left) by lia. exact H2.
      * right. exists u. split; [lia|]. split; auto. split; [|exact H4].
        intros v Hv. destruct (Nat.eq_dec v t) as [->|]; auto. apply H3. lia.
    + right. exists t. split; [lia|]. split; auto. split; [intros; lia|reflexivity].
Qed.

Lemma mrun_length_le t s : t <= s -> length (mrun s) <= length (mrun t).
Proof.
  induction 1 as [|s H IH]; auto. etransitivity; [|exact IH]. cbn [mrun]. rewrite map_length. apply assign_length.
Qed.

Lemma sum_groups (f : nat -> Q) (cl : list (list nat)) : partitions (length data) cl ->
  (qsum (map f (seq 0 (length data))) == qsum (map (fun k => qsum (map f (nth k cl []))) (seq 0 (length cl))))%Q.
Proof.
  intros Hp. assert (Ep : (qsum (map f (concat cl)) == qsum (map f (seq 0 (length data))))%Q) by (apply qsum_perm, Permutation_map; exact Hp).
  rewrite <- Ep, concat_map, qsum_concat, map_map, <- (map_map (fun k => nth k cl []) (fun g => qsum (map f g))).
  replace (map (fun k => nth k cl []) (seq 0 (length cl))) with cl; [reflexivity|].
  apply nth_ext with (d := []) (d' := []); [now rewrite map_length, seq_length|]. intros j Hj. now rewrite nth_map_seq0.
Qed.

(** a cost not above a lower bound of every term meets that bound in every term *)
Lemma tight_cost (b : nat -> Q) cl ce : partitions (length data) cl -> length cl = length ce ->
  (forall k i, k < length cl -> In i (nth k cl []) -> (b i <= manhattan (nth i data []) (nth k ce []))%Q) ->
  (cost manhattan data cl ce <= qsum (map b (seq 0 (length data))))%Q ->
  forall k i, k < length cl -> In i (nth k cl []) -> (manhattan (nth i data []) (nth k ce []) == b i)%Q.
Proof.
  intros Hp Hl Hb Hc k i Hk Hi. apply Qle_antisym; [|apply Hb; auto]. apply Qnot_lt_le. intros Hlt.
  rewrite cost_nth in Hc by exact Hl. rewrite (sum_groups b cl Hp) in Hc. apply (Qle_not_lt _ _ Hc).
  apply (qsum_lt _ _ _ k); [apply in_seq; lia| |].
  - intros j Hj. apply in_seq in Hj. apply qsum_le. intros x Hx. apply Hb; auto. lia.
  - apply (qsum_lt _ _ _ i); auto.
Qed.

Lemma mstep t : (cost manhattan data (mgrp (S t)) (mrun (S t)) <= qsum (map (best manhattan data (mrun t)) (seq 0 (length data))))%Q.
Proof.
  destruct (mrun_ok t) as (_ & Hne & _ & Hu). apply (step_cost_best manhattan data (median_of data) (fun c => length c = dimension data)); auto.
  - apply kmedians_update_opt; auto.
  - apply Forall_forall. auto.
Qed.
Lemma mlower t : (qsum (map (best manhattan data (mrun (S t))) (seq 0 (length data))) <= cost manhattan data (mgrp (S t)) (mrun (S t)))%Q.
Proof. destruct (mrun_ok t) as ((H1 & _ & H3 & _) & _). apply cost_ge_best; auto. Qed.
Lemma mcost_le s t : s <= t -> (cost manhattan data (mgrp (S t)) (mrun (S t)) <= cost manhattan data (mgrp (S s)) (mrun (S s)))%Q.
Proof.
  induction 1 as [|t H IH]; [apply Qle_refl|]. eapply Qle_trans; [apply mstep|]. eapply Qle_trans; [apply mlower|exact IH].
Qed.

(** the label of a point at iteration [S t] *)
Definition mlab (t i : nat) : nat := argmin (map (manhattan (nth i data [])) (mrun t)).
Lemma mfull t : length (mrun (S t)) = length (mrun t) -> mgrp (S t) = groups_of (mlab t) (length data) (length (mrun t)).
Proof. intros H. cbn [mrun] in H. rewrite map_length in H. cbn [mgrp]. apply (assign_full data manhattan). exact H. Qed.
Lemma mlab_lt t i : mlab t i < length (mrun t).
Proof. apply argmin_nearest. apply mrun_ok. Qed.
Lemma in_groups label n k j i : j < k -> (In i (nth j (groups_of label n k) []) <-> i < n /\ label i = j).
Proof.
  intros Hj. unfold groups_of. rewrite nth_map_seq0 by exact Hj. rewrite filter_In, in_seq, Nat.eqb_eq. split; intros [H1 H2]; split; auto; lia.
Qed.

(** without a fall of the cost no point moves to a later cluster *)
Lemma mlab_down t : length (mrun (S t)) = length (mrun t) ->
  (cost manhattan data (mgrp (S (S t))) (mrun (S (S t))) == cost manhattan data (mgrp (S t)) (mrun (S t)))%Q ->
  forall i, i < length data -> mlab (S t) i <= mlab t i.
Proof.
  intros Hl Hc i Hi. destruct (mrun_ok t) as ((H1 & _ & H3 & _) & _).
  assert (Hlab : mlab t i < length (mgrp (S t))) by (rewrite <- H3, Hl; apply mlab_lt).
  assert (Hin : In i (nth (mlab t i) (mgrp (S t)) [])) by (rewrite (mfull t Hl); apply in_groups; [apply mlab_lt|auto]).
  assert (W : (manhattan (nth i data []) (nth (mlab t i) (mrun (S t)) []) == best manhattan data (mrun (S t)) i)%Q).
  { apply (tight_cost (best manhattan data (mrun (S t))) (mgrp (S t)) (mrun (S t))); auto.
    - intros k x Hk Hx. unfold best. apply argmin_nearest; [apply mrun_ok|]. rewrite H3. exact Hk.
    - rewrite <- Hc. apply mstep. }
  destruct (le_lt_dec (mlab (S t) i) (mlab t i)) as [|Hlt]; auto. exfalso.
  pose proof (argmin_first _ _ Hlt) as F. fold (mlab (S t) i) in F.
  rewrite !nth_map_metric in F by (try apply mlab_lt; rewrite H3; exact Hlab).
  unfold best in W. fold (mlab (S t) i) in W. rewrite W in F. exact (Qlt_irrefl _ F).
Qed.

Lemma manhattan_self p : (manhattan p p == 0)%Q.
Proof. apply manhattan_eq0; auto. intros; reflexivity. Qed.
Lemma same_stops t : mgrp (S (S t)) = mgrp (S t) -> exceeds (mchg (S (S t))) 0 = false.
Proof.
  intros E. assert (Er : mrun (S (S t)) = mrun (S t)).
  { change (mrun (S (S t))) with (map (median_of data) (mgrp (S (S t)))). rewrite E. reflexivity. }
  cbn [mchg exceeds]. rewrite Er. apply Qltb_false. unfold kmedians_changes.
  destruct (mrun_ok (S t)) as (_ & Hne & _).
  assert (Hin : In (maxQ (map (fun k => manhattan (nth k (mrun (S t)) []) (nth k (mrun (S t)) [])) (seq 0 (length (mrun (S t)))))) (map (fun k => manhattan (nth k (mrun (S t)) []) (nth k (mrun (S t)) [])) (seq 0 (length (mrun (S t)))))).
  { apply maxQ_in. destruct (mrun (S t)); [congruence|discriminate]. }
  apply in_map_iff in Hin as (k & <- & _). rewrite manhattan_self. apply Qle_refl.
Qed.

Lemma mgrp_distinct T : (forall u, u < T -> exceeds (mchg u) 0 = true) ->
  forall s t, s < t -> S (S (S t)) < T -> mgrp (S s) <> mgrp (S t).
Proof.
  intros Hex s t Hst Ht E.
  assert (Er : mrun (S s) = mrun (S t)).
  { change (mrun (S s)) with (map (median_of data) (mgrp (S s))). rewrite E. reflexivity. }
  assert (E2 : mgrp (S (S s)) = mgrp (S (S t))) by (cbn [mgrp]; f_equal; exact Er).
  assert (Er2 : mrun (S (S s)) = mrun (S (S t))).
  { change (mrun (S (S s))) with (map (median_of data) (mgrp (S (S s)))). rewrite E2. reflexivity. }
  assert (HL : forall v, S s <= v <= S (S t) -> length (mrun v) = length (mrun (S s))).
  { intros v Hv. pose proof (mrun_length_le (S s) v ltac:(lia)). pose proof (mrun_length_le v (S (S t)) ltac:(lia)).
    pose proof (mrun_length_le (S (S s)) (S t) ltac:(lia)). rewrite <- Er2 in *. rewrite <- Er in *. lia. }
  assert (HL2 : forall v v', S s <= v <= S (S t) -> S s <= v' <= S (S t) -> length (mrun v) = length (mrun v')).
  { intros v v' Hv Hv'. rewrite (HL v Hv), (HL v' Hv'). reflexivity. }
  assert (HC : forall v, S s <= v <= S t -> (cost manhattan data (mgrp (S v)) (mrun (S v)) == cost manhattan data (mgrp (S (S s))) (mrun (S (S s))))%Q).
  { intros v Hv. apply Qle_antisym; [apply mcost_le; lia|]. rewrite E2, Er2. apply mcost_le. lia. }
  assert (HD : forall v, S s <= v <= S t -> forall i, i < length data -> mlab (S t) i <= mlab v i).
  { intros v Hv i Hi. remember (S t - v) as d eqn:Ed. revert v Hv Ed. induction d as [|d IHd]; intros v Hv Ed.
    - replace v with (S t) by lia. apply le_n.
    - etransitivity; [apply (IHd (S v)); lia|]. apply mlab_down; auto; [apply HL2; lia|]. rewrite (HC (S v)), (HC v) by lia. reflexivity. }
  assert (HE : forall i, i < length data -> mlab (S t) i = mlab (S s) i).
  { intros i Hi. assert (W : In i (nth (mlab (S s) i) (mgrp (S (S s))) [])).
    { rewrite mfull by (apply HL2; lia). apply in_groups; [apply mlab_lt|auto]. }
    rewrite E2, mfull in W by (apply HL2; lia). apply in_groups in W as [_ W]; [exact W|]. rewrite <- Er. apply mlab_lt. }
  assert (HS : mgrp (S (S (S s))) = mgrp (S (S s))).
  { rewrite (mfull (S (S s))), (mfull (S s)) by (apply HL2; lia). rewrite (HL2 (S (S s)) (S s)) by lia. apply groups_of_ext. intros i Hi. apply Nat.le_antisymm.
    - apply mlab_down; auto; [apply HL2; lia|]. apply (HC (S (S s))). lia.
    - rewrite <- HE by exact Hi. apply HD; [lia|exact Hi]. }
  apply same_stops in HS. rewrite Hex in HS by lia. discriminate.
Qed.

Theorem kmedians_stops : exists u, exceeds (mchg u) 0 = false.
Proof.
  set (all := all_assignments (length data) (length initial)).
  destruct (mloop_run 0 (length all + 5) 0) as [[H _]|(u & H1 & H2 & _)].
  2:{ exists u. exact H2. }
  exfalso.
  assert (Hnd : NoDup (map (fun s => mgrp (S s)) (seq 0 (length all + 1)))).
  { assert (Hg : forall m, m <= length all + 1 -> NoDup (map (fun s => mgrp (S s)) (seq 0 m))).
    { induction m as [|m IHm]; intros Hm; [constructor|]. rewrite seq_S, map_app. simpl. apply NoDup_app_snoc; [apply IHm; lia|].
      intros Hin. apply in_map_iff in Hin as [s [E Hs]]. apply in_seq in Hs. revert E. apply (mgrp_distinct (length all + 5)); try lia.
      intros v Hv. apply H. lia. }
    apply Hg; auto. }
  assert (Hincl : incl (map (fun s => mgrp (S s)) (seq 0 (length all + 1))) all).
  { intros g Hg. apply in_map_iff in Hg as [s [<- _]]. destruct (mrun_ok s) as (_ & Hne & Hl & _).
    cbn [mgrp]. apply assign_in_all; auto. }
  pose proof (NoDup_incl_length Hnd Hincl) as Hl. rewrite map_length, seq_length in Hl. lia.
Qed.

Lemma peq_zero a b : length a = length b -> (manhattan a b <= 0)%Q -> peq a b.
Proof.
  revert b. induction a as [|x a IH]; intros [|y b] Hl H; cbn [length] in Hl; try lia; constructor.
  - assert (Hl' : length (x :: a) = length (y :: b)) by (cbn [length]; lia). exact (manhattan_zero (x :: a) (y :: b) Hl' H 0).
  - apply IH; [lia|]. cbn [manhattan] in H. pose proof (Qabs_nonneg (x - y)). lra.
Qed.

Lemma mstop_optimal u : exceeds (mchg u) 0 = false ->
  forall k i, k < length (mgrp u) -> In i (nth k (mgrp u) []) -> nearest manhattan (mrun u) (nth i data []) k.
Proof.
  intros Hex. destruct u as [|t]; [discriminate|].
  destruct (mrun_ok t) as ((H1 & H2 & H3 & _) & Hne & _ & Hu). destruct (mrun_ok (S t)) as (_ & _ & _ & Hu').
  cbn [mchg exceeds] in Hex. apply Qltb_false in Hex. pose proof (mrun_length_le t (S t) ltac:(lia)) as Hle.
  assert (Hpe : forall k, k < length (mrun (S t)) -> peq (nth k (mrun t) []) (nth k (mrun (S t)) [])).
  { intros k Hk. apply peq_zero.
    - rewrite Hu by (apply nth_In; lia). symmetry. apply Hu'. apply nth_In. exact Hk.
    - eapply Qle_trans; [|exact Hex]. apply maxQ_ge. apply in_map_iff. exists k. split; [reflexivity|]. apply in_seq. lia. }
  assert (Hsame : forall p k, k < length (mrun (S t)) -> (manhattan p (nth k (mrun (S t)) []) == manhattan p (nth k (mrun t) []))%Q).
  { intros p k Hk. apply manhattan_same; [apply peq_refl|]. apply Hpe. exact Hk. }
  intros k i Hk Hi.
  assert (W : (manhattan (nth i data []) (nth k (mrun (S t)) []) == best manhattan data (mrun t) i)%Q).
  { apply (tight_cost (best manhattan data (mrun t)) (mgrp (S t)) (mrun (S t))); auto.
    - intros j x Hj Hx. rewrite Hsame by (rewrite H3; exact Hj). unfold best. apply argmin_nearest; [exact Hne|]. lia.
    - apply mstep. }
  split; [rewrite H3; exact Hk|]. intros j Hj. rewrite W, Hsame by exact Hj. unfold best. apply argmin_nearest; [exact Hne|]. lia.
Qed.

Theorem kmedians_converges : exists B, forall m, B <= m ->
  let r := kmedians_loop manhattan data 0 m None [] initial in
  r = kmedians_loop manhattan data 0 B None [] initial /\
  forall k i, k < length (fst r) -> In i (nth k (fst r) []) -> nearest manhattan (snd r) (nth i data []) k.
Proof.
  destruct kmedians_stops as (u0 & Hu0). exists (S u0).
  assert (H : forall m, S u0 <= m -> exists u, exceeds (mchg u) 0 = false /\ (forall v, v < u -> exceeds (mchg v) 0 = true) /\
    kmedians_loop manhattan data 0 m None [] initial = (mgrp u, mrun u)).
  { intros m Hm. destruct (mloop_run 0 m 0) as [[H _]|(u & H1 & H2 & H3 & H4)].
    { rewrite H in Hu0 by lia. discriminate. }
    exists u. split; [exact H2|]. split; [intros v Hv; apply H3; lia|exact H4]. }
  intros m Hm. destruct (H m Hm) as (u & U1 & U2 & U3). destruct (H (S u0) (le_n _)) as (v & V1 & V2 & V3).
  cbn zeta. rewrite U3, V3. cbn [fst snd]. split; [|apply mstop_optimal; exact U1].
  destruct (lt_eq_lt_dec u v) as [[Hlt| ->]|Hlt]; auto.
  - rewrite V2 in U1 by exact Hlt. discriminate.
  - rewrite U2 in V1 by exact Hlt. discriminate.
Qed.
End Conv.

(** C268: zero tolerance, Manhattan metric: from some iteration limit on the answer does not
    change any more, and in it every point is nearest to the median of its own cluster *)
Theorem C268_manhattan data initial : data <> [] -> (forall p, In p data -> length p = length (nth 0 data [])) ->
  initial <> [] -> (forall p, In p initial -> length p = length (nth 0 data [])) ->
  exists limit, forall itermax, limit <= itermax -> exists clusters medians wce,
    kmedians_process manhattan data initial 0 itermax = Ok (clusters, medians, wce) /\
    kmedians_process manhattan data initial 0 limit = Ok (clusters, medians, wce) /\
    forall k i j, k < length clusters -> In i (nth k clusters []) -> j < length medians ->
      (manhattan (nth i data []) (nth k medians []) <= manhattan (nth i data []) (nth j medians []))%Q.
Proof.
  intros Hd Hu Hi Hui. destruct (kmedians_converges data Hd Hu initial Hi Hui) as [B HB]. exists B. intros m Hm.
  destruct (HB m Hm) as [H1 H2].
  assert (Hp : forall j, kmedians_process manhattan data initial 0 j =
    Ok (fst (kmedians_loop manhattan data 0 j None [] initial), snd (kmedians_loop manhattan data 0 j None [] initial),
        total_wce manhattan data (fst (kmedians_loop manhattan data 0 j None [] initial)) (snd (kmedians_loop manhattan data 0 j None [] initial)))).
  { intros j. unfold kmedians_process. destruct data as [|p0 t]; [congruence|]. destruct initial as [|c0 ct]; [congruence|].
    change (Qltb 0 0) with false. cbn match. rewrite (Hui c0) by (left; reflexivity). cbn [nth]. rewrite Nat.eqb_refl.
    destruct (kmedians_loop manhattan (p0 :: t) 0 j None [] (c0 :: ct)). reflexivity. }
  do 3 eexists. rewrite (Hp m), (Hp B), <- H1. split; [reflexivity|]. split; [reflexivity|].
  intros k i j Hk Hki Hj. destruct (H2 k i Hk Hki) as [_ W]. apply W. exact Hj.
Qed.
Print Assumptions C268_manhattan.

(** once the change is within the tolerance more iterations are not made *)
Fixpoint ended (metric : point -> point -> Q) (data : list point) (tol : Q) (left : nat) (change : option Q) (medians : list point) : bool :=
  if exceeds change tol then
    match left with
    | 0 => false
    | S left' =>
        let updated := kmedians_update_medians data (kmedians_update_clusters metric data medians) in
        ended metric data tol left' (Some (kmedians_changes metric medians updated)) updated
    end
  else true.
Lemma loop_ended metric data tol left more : forall change clusters medians, ended metric data tol left change medians = true ->
  kmedians_loop metric data tol (left + more) change clusters medians = kmedians_loop metric data tol left change clusters medians.
Proof.
  induction left as [|left IH]; intros change clusters medians H; cbn [ended] in H; cbn [Nat.add kmedians_loop].
  - destruct more; cbn [kmedians_loop]; [reflexivity|]. destruct (exceeds change tol); [discriminate|reflexivity].
  - destruct (exceeds change tol); [|reflexivity]. apply IH. exact H.
Qed.

(** C268, default metric: the run ends although three points are nearer to the median of
    the other cluster; the dropped first cluster shifts the medians that are compared *)
Theorem C268_euclid_refuted : exists data initial clusters medians wce i,
  (forall itermax, 3 <= itermax -> kmedians_process sqdist data initial 0 itermax = Ok (clusters, medians, wce)) /\
  In i (nth 0 clusters []) /\
  (sqdist (nth i data []) (nth 1 medians []) < sqdist (nth i data []) (nth 0 medians []))%Q.
Proof.
  set (data := [[9; 0; 0]; [0; 9; 0]; [0; 0; 9]; [12; 3; 3]; [3; 12; 3]; [3; 3; 12]]%Q).
  set (initial := [[0; 0; 0]; [3; 3; 3]; [6; 6; 6]]%Q).
  destruct (kmedians_process sqdist data initial 0 3) as [[[cl ce] w]|] eqn:E; [|vm_compute in E; discriminate].
  exists data, initial, cl, ce, w, 0. split; [|vm_compute in E; injection E as <- <- <-; split; [left; reflexivity|vm_compute; reflexivity]].
  intros itermax Hm. rewrite <- E. destruct itermax as [|[|[|m]]]; try lia. clear.
  unfold data, initial, kmedians_process. cbn [length Nat.eqb]. change (Qltb 0 0) with false. cbn match.
  rewrite (loop_ended sqdist _ _ 2 (S m)); [reflexivity|]. vm_compute. reflexivity.
Qed.
Print Assumptions C268_euclid_refuted.

(** the hypotheses of [C268_manhattan] are met, and the run takes two steps of change *)
Example C268_example :
  let data := [[0; 0]; [1; 0]; [2; 1]; [9; 8]; [10; 9]]%Q in let initial := [[0; 0]; [1; 0]]%Q in
  (data <> [] /\ (forall p, In p data -> length p = length (nth 0 data []))) /\
  (initial <> [] /\ (forall p, In p initial -> length p = length (nth 0 data []))) /\
  match kmedians_process manhattan data initial 0 1, kmedians_process manhattan data initial 0 5, kmedians_process manhattan data initial 0 9 with
  | Ok (a, _, _), Ok (b, _, _), Ok (c, _, _) => a = [[0]; [1; 2; 3; 4]] /\ b = [[0; 1; 2]; [3; 4]] /\ c = b
  | _, _, _ => False
  end.
Proof.
  cbn zeta. split; [split; [discriminate|]|split; [split; [discriminate|]|]].
  - intros p H. repeat (destruct H as [<- | H]; [reflexivity|]). destruct H.
  - intros p H. repeat (destruct H as [<- | H]; [reflexivity|]). destruct H.
  - vm_compute. repeat split; reflexivity.
Qed.
