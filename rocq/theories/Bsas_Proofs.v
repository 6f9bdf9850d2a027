(** Sequential schemes: specification and proofs. *)
From Verif Require Import Base Kmeans_Model Kmeans_Proofs Bsas_Model.

(** the centres are the arithmetic means of the clusters *)
Definition are_means (dim : nat) (pt : nat -> point) (cl : list (list nat)) (centers : list point) : Prop :=
  length centers = length cl /\ forall k, k < length cl -> is_mean dim (map pt (nth k cl [])) (nth k centers []).

(** the first nearest centre *)
Definition first_nearest (metric : point -> point -> Q) (centers : list point) (p : point) (k : nat) : Prop :=
  nearest metric centers p k /\ forall j, j < k -> (metric p (nth k centers []) < metric p (nth j centers []))%Q.

(** textbook sequential scheme: objects are presented one after the other; an object opens a
    cluster only if it is farther than the threshold from all means and there is room, otherwise
    it joins the cluster of the nearest mean *)
Inductive scheme (metric : point -> point -> Q) (dim : nat) (pt : nat -> point) (thr : Q) (full : nat -> Prop)
  : list nat -> list (list nat) -> Prop :=
| scheme_start : scheme metric dim pt thr full [] []
| scheme_open seen cl i centers : scheme metric dim pt thr full seen cl ->
    are_means dim pt cl centers -> (forall c, In c centers -> (thr < metric (pt i) c)%Q) -> (cl <> [] -> ~ full (length cl)) ->
    scheme metric dim pt thr full (seen ++ [i]) (cl ++ [[i]])
| scheme_join seen cl i k centers : scheme metric dim pt thr full seen cl ->
    are_means dim pt cl centers -> first_nearest metric centers (pt i) k ->
    ((metric (pt i) (nth k centers []) <= thr)%Q \/ full (length cl)) ->
    scheme metric dim pt thr full (seen ++ [i]) (push cl k i).

Lemma min_by_first_from {A} (key : A -> Q) l : forall best pre,
  (forall y, In y pre -> (key best < key y)%Q) ->
  exists l1 l2, pre ++ best :: l = l1 ++ min_by_from key best l :: l2 /\ forall y, In y l1 -> (key (min_by_from key best l) < key y)%Q.
Proof.
  induction l as [|x t IH]; intros best pre Hpre; cbn [min_by_from].
  - exists pre, []. auto.
  - destruct (Qltb (key x) (key best)) eqn:E.
    + apply Qltb_true in E. destruct (IH x (pre ++ [best])) as (l1 & l2 & E1 & E2).
      { intros y Hy. apply in_app_iff in Hy as [Hy|[<-|[]]]; auto. specialize (Hpre y Hy). lra. }
      exists l1, l2. split; auto. rewrite <- E1, <- app_assoc. reflexivity.
    + destruct (IH best pre Hpre) as (l1 & l2 & E1 & E2).
      (* x is skipped: insert it after best's place *)
      destruct (min_by_from_spec key t best) as (Hin & Hle & _).
      apply Qltb_false in E.
      (* position of the minimum in pre ++ best :: t *)
      assert (Hcase : (l1 = pre /\ l2 = t /\ min_by_from key best t = best) \/ exists l1', l1 = pre ++ best :: l1' /\ t = l1' ++ min_by_from key best t :: l2).
      { clear - E1 E2 Hpre Hle. revert l1 E1 E2. induction pre as [|a pre IH]; intros l1 E1 E2.
        - destruct l1 as [|b l1]; simpl in E1; injection E1 as E1 E3.
          + left. repeat split; congruence.
          + right. exists l1. subst b. split; auto.
        - destruct l1 as [|b l1]; simpl in E1; injection E1 as E1 E3.
          + exfalso. subst a. specialize (Hpre (min_by_from key best t) (or_introl eq_refl)). lra.
          + subst b. destruct (IH ltac:(intros; apply Hpre; simpl; auto) l1 E3 ltac:(intros; apply E2; simpl; auto)) as [(-> & -> & H)|[l1' [-> H]]].
            * left. auto.
            * right. exists l1'. auto. }
      destruct Hcase as [(-> & -> & Em)|[l1' [-> Et]]].
      * exists pre, (x :: t). rewrite Em. split; auto.
      * exists (pre ++ best :: x :: l1'), l2. split.
        -- rewrite Et at 1. rewrite <- app_assoc. reflexivity.
        -- intros y Hy. apply in_app_iff in Hy as [Hy|[<-|[<-|Hy]]].
           ++ apply E2. apply in_app_iff. auto.
           ++ apply E2. apply in_app_iff. right. left. auto.
           ++ specialize (E2 best ltac:(apply in_app_iff; right; left; auto)). lra.
           ++ apply E2. apply in_app_iff. right. right. auto.
Qed.

Lemma min_by_seq (key : nat -> Q) n k : min_by key (seq 0 n) = Some k ->
  k < n /\ (forall j, j < n -> (key k <= key j)%Q) /\ forall j, j < k -> (key k < key j)%Q.
Proof.
  intros H. pose proof (min_by_spec key _ _ H) as [H1 H2]. apply in_seq in H1.
  split; [lia|]. split; [intros j Hj; apply H2, in_seq; lia|].
  destruct n as [|n]; [discriminate|]. cbn [seq min_by] in H. injection H as H.
  destruct (min_by_first_from key (seq 1 n) 0 [] ltac:(intros y [])) as (l1 & l2 & E1 & E2). rewrite H in E1, E2.
  change ([] ++ 0 :: seq 1 n) with (seq 0 (S n)) in E1.
  assert (El : nth (length l1) (seq 0 (S n)) 0 = k) by (rewrite E1, app_nth2, Nat.sub_diag by lia; reflexivity).
  assert (Hl : length l1 < S n). { rewrite <- (seq_length (S n) 0), E1, app_length. simpl. lia. }
  rewrite seq_nth in El by auto. simpl in El. intros j Hj. apply E2.
  assert (Ej : nth j l1 0 = j). { assert (Ej' : nth j (seq 0 (S n)) 0 = j) by (rewrite seq_nth by lia; auto). rewrite E1, app_nth1 in Ej' by lia. auto. }
  rewrite <- Ej. apply nth_In. lia.
Qed.

Section Seq.
Variable metric : point -> point -> Q.
Variable data : list nat.
Variable h0 : list point.
Variable dim : nat.
Hypothesis data_nodup : NoDup data.
Hypothesis data_valid : forall r, In r data -> r < length h0.
Hypothesis data_dim : forall r, In r data -> length (nth r h0 []) = dim.

Notation n := (length data).
Definition orig (i : nat) : point := nth (nth i data 0) h0 [].

Record inv (s : sst) (seen : list nat) : Prop := {
  i_perm : Permutation (concat (clusters s)) seen;
  i_seen : forall i, In i seen -> i < n;
  i_nd : NoDup seen;
  i_len : length (reps s) = length (clusters s);
  i_ne : no_empty (clusters s);
  i_rep : forall k, k < length (clusters s) -> nth k (reps s) 0 = ref data (hd 0 (nth k (clusters s) []));
  i_heap : length (heap s) = length h0;
  i_same : forall r, ~ In r (reps s) -> deref (heap s) r = deref h0 r;
  i_mean : forall k, k < length (clusters s) -> is_mean dim (map orig (nth k (clusters s) [])) (deref (heap s) (nth k (reps s) 0)) }.

Lemma nth_in_concat (cl : list (list nat)) k x : In x (nth k cl []) -> In x (concat cl).
Proof.
  revert k. induction cl as [|c t IH]; intros [|k] H; simpl in *; try contradiction; apply in_app_iff; eauto.
Qed.

Lemma hd_in (l : list nat) d : l <> [] -> In (hd d l) l.
Proof. destruct l; [congruence|left; reflexivity]. Qed.

Lemma no_empty_nth (cl : list (list nat)) k : no_empty cl -> k < length cl -> nth k cl [] <> [].
Proof. intros H Hk. unfold no_empty in H. rewrite Forall_forall in H. apply H, nth_In, Hk. Qed.

Lemma concat_nodup_inj (cl : list (list nat)) : NoDup (concat cl) -> forall k j x, In x (nth k cl []) -> In x (nth j cl []) -> k = j.
Proof.
  induction cl as [|c t IH]; intros Hnd k j x Hk Hj.
  - destruct k; simpl in Hk; contradiction.
  - simpl in Hnd. apply NoDup_app_inv in Hnd as (H1 & H2 & H3). destruct k as [|k], j as [|j]; simpl in *; auto.
    + exfalso. apply (H3 x Hk). apply nth_in_concat with j. auto.
    + exfalso. apply (H3 x Hj). apply nth_in_concat with k. auto.
    + f_equal. eauto.
Qed.

Lemma ref_inj i j : i < n -> j < n -> ref data i = ref data j -> i = j.
Proof. intros Hi Hj E. unfold ref in E. revert E. apply NoDup_nth; auto. Qed.

Lemma founder_in s seen k : inv s seen -> k < length (clusters s) -> In (hd 0 (nth k (clusters s) [])) seen.
Proof.
  intros H Hk. apply (Permutation_in _ (i_perm _ _ H)), nth_in_concat with k, hd_in, no_empty_nth; auto. apply (i_ne _ _ H).
Qed.

Lemma reps_inj s seen : inv s seen -> forall j k, j < length (clusters s) -> k < length (clusters s) -> nth j (reps s) 0 = nth k (reps s) 0 -> j = k.
Proof.
  intros H j k Hj Hk E. rewrite !(i_rep _ _ H) in E by auto.
  apply ref_inj in E; [|apply (i_seen _ _ H), (founder_in s seen); auto|apply (i_seen _ _ H), (founder_in s seen); auto].
  apply (concat_nodup_inj (clusters s)) with (hd 0 (nth j (clusters s) [])).
  - apply (Permutation_NoDup (Permutation_sym (i_perm _ _ H))), (i_nd _ _ H).
  - apply hd_in, no_empty_nth; auto. apply (i_ne _ _ H).
  - rewrite E. apply hd_in, no_empty_nth; auto. apply (i_ne _ _ H).
Qed.

Lemma reps_in s seen r : inv s seen -> In r (reps s) -> exists i, In i seen /\ r = ref data i.
Proof.
  intros H Hr. apply (In_nth _ _ 0) in Hr as [k [Hk <-]]. rewrite (i_len _ _ H) in Hk.
  exists (hd 0 (nth k (clusters s) [])). split; [apply (founder_in s seen); auto|apply (i_rep _ _ H); auto].
Qed.

Lemma fresh_ref s seen i : inv s seen -> i < n -> ~ In i seen -> ~ In (ref data i) (reps s).
Proof.
  intros H Hi Hn Hr. apply (reps_in s seen) in Hr as [j [Hj E]]; auto. apply ref_inj in E; auto; [congruence|]. apply (i_seen _ _ H); auto.
Qed.

Lemma fresh_point s seen i : inv s seen -> i < n -> ~ In i seen -> deref (heap s) (ref data i) = orig i.
Proof. intros H Hi Hn. rewrite (i_same _ _ H) by (apply (fresh_ref s seen); auto). reflexivity. Qed.

Lemma orig_dim i : i < n -> length (orig i) = dim.
Proof. intros Hi. apply data_dim, nth_In, Hi. Qed.

Lemma nth_snoc {A} (l : list A) x k d : nth k (l ++ [x]) d = if k =? length l then x else nth k l d.
Proof.
  destruct (Nat.eqb_spec k (length l)) as [->|]; [rewrite app_nth2, Nat.sub_diag by lia; auto|].
  destruct (Nat.lt_ge_cases k (length l)); [apply app_nth1; auto|]. rewrite !nth_overflow; auto. rewrite app_length. simpl. lia.
Qed.

Lemma open_inv s seen i : inv s seen -> i < n -> ~ In i seen -> inv (open_cluster data s i) (seen ++ [i]).
Proof.
  intros H Hi Hn. constructor; cbn [open_cluster clusters reps heap].
  - rewrite concat_app. simpl. apply Permutation_app; [apply (i_perm _ _ H)|]. apply Permutation_refl.
  - intros j Hj. apply in_app_iff in Hj as [Hj|[<-|[]]]; auto. apply (i_seen _ _ H); auto.
  - apply NoDup_app_snoc; auto. apply (i_nd _ _ H).
  - rewrite !app_length, (i_len _ _ H). reflexivity.
  - apply Forall_app. split; [apply (i_ne _ _ H)|]. constructor; [discriminate|constructor].
  - intros k Hk. rewrite app_length in Hk. simpl in Hk. rewrite !nth_snoc, (i_len _ _ H).
    destruct (Nat.eqb_spec k (length (clusters s))); [reflexivity|]. apply (i_rep _ _ H). lia.
  - apply (i_heap _ _ H).
  - intros r Hr. apply (i_same _ _ H). intro Hin. apply Hr, in_app_iff. auto.
  - intros k Hk. rewrite app_length in Hk. simpl in Hk. rewrite !nth_snoc, (i_len _ _ H).
    destruct (Nat.eqb_spec k (length (clusters s))); [|apply (i_mean _ _ H); lia].
    rewrite (fresh_point s seen) by auto. split; [apply orig_dim; auto|]. intros d Hd. simpl. ring.
Qed.

Lemma push_concat cl k i : k < length cl -> Permutation (concat (push cl k i)) (concat cl ++ [i]).
Proof.
  unfold push. intros Hk. destruct (upd_split cl k (nth k cl [] ++ [i]) [] Hk) as [E1 E2]. rewrite E2. rewrite E1 at 4.
  rewrite !concat_app. simpl. rewrite <- !app_assoc. apply Permutation_app_head. apply Permutation_app_head.
  apply Permutation_app_comm.
Qed.

Lemma nth_push cl k i j : k < length cl -> nth j (push cl k i) [] = if k =? j then nth k cl [] ++ [i] else nth j cl [].
Proof.
  intros Hk. unfold push. rewrite upd_nth. destruct (Nat.eqb_spec k j); cbn [andb]; auto. destruct (Nat.ltb_spec k (length cl)); [auto|lia].
Qed.

Lemma inject_S m : (inject_Z (Z.of_nat (S m) - 1) == inject_Z (Z.of_nat m))%Q /\ (inject_Z (Z.of_nat (S m)) == inject_Z (Z.of_nat m) + 1)%Q /\ ~ (inject_Z (Z.of_nat (S m)) == 0)%Q.
Proof.
  split; [replace (Z.of_nat (S m) - 1)%Z with (Z.of_nat m) by lia; reflexivity|]. split.
  - rewrite Nat2Z.inj_succ, <- Z.add_1_r, inject_Z_plus. reflexivity.
  - unfold Qeq. simpl. lia.
Qed.

Lemma join_inv s seen k i : inv s seen -> k < length (clusters s) -> i < n -> ~ In i seen -> inv (join_cluster data s k i) (seen ++ [i]).
Proof.
  intros H Hk Hi Hn. constructor; cbn [join_cluster clusters reps heap].
  - rewrite push_concat by auto. apply Permutation_app; [apply (i_perm _ _ H)|apply Permutation_refl].
  - intros j Hj. apply in_app_iff in Hj as [Hj|[<-|[]]]; auto. apply (i_seen _ _ H); auto.
  - apply NoDup_app_snoc; auto. apply (i_nd _ _ H).
  - rewrite push_length. apply (i_len _ _ H).
  - unfold no_empty. rewrite Forall_forall. intros g Hg. apply (In_nth _ _ []) in Hg as [j [Hj <-]]. rewrite push_length in Hj.
    rewrite nth_push by auto. destruct (k =? j); [destruct (nth k (clusters s) []); discriminate|]. apply no_empty_nth; auto. apply (i_ne _ _ H).
  - intros j Hj. rewrite push_length in Hj. rewrite nth_push by auto. rewrite (i_rep _ _ H) by auto.
    destruct (Nat.eqb_spec k j) as [->|]; auto.
    pose proof (no_empty_nth _ j (i_ne _ _ H) Hj). destruct (nth j (clusters s) []); [congruence|reflexivity].
  - rewrite upd_length. apply (i_heap _ _ H).
  - intros r Hr. unfold deref. rewrite upd_nth_neq; [apply (i_same _ _ H); auto|]. intro E. apply Hr. rewrite <- E. apply nth_In. rewrite (i_len _ _ H). auto.
  - intros j Hj. rewrite push_length in Hj. rewrite !nth_push by auto. destruct (Nat.eqb_spec k j) as [->|Hkj].
    + rewrite Nat.eqb_refl. unfold deref at 1. rewrite upd_nth_eq.
      2:{ rewrite (i_heap _ _ H), (i_rep _ _ H) by auto. apply data_valid, nth_In, (i_seen _ _ H), (founder_in s seen); auto. }
      rewrite (fresh_point s seen) by auto. destruct (i_mean _ _ H j Hj) as [M1 M2].
      set (c := nth j (clusters s) []) in *. set (rep := deref (heap s) (nth j (reps s) 0)) in *.
      rewrite app_length. simpl (length [i]). rewrite Nat.add_1_r. destruct (inject_S (length c)) as (E1 & E2 & E3).
      unfold updated_representative. split; [rewrite map_length, seq_length; auto|]. intros d Hd.
      unfold coord at 1. rewrite nth_map_seq0 by lia. specialize (M2 d Hd). rewrite map_length in M2.
      assert (El : length (map orig (c ++ [i])) = S (length c)) by (rewrite map_length, app_length; simpl; lia). rewrite El.
      rewrite !map_app, qsum_app, <- M2. cbn [map qsum].
      rewrite E1. field. exact E3.
    + unfold deref. rewrite upd_nth_neq; [apply (i_mean _ _ H); auto|]. intro E. apply Hkj. apply (reps_inj s seen); auto.
Qed.

Lemma start_inv : inv (mkS h0 [] []) [].
Proof.
  constructor; simpl; auto; try lia; try constructor; intros; try contradiction; lia.
Qed.

Definition centers_of (s : sst) : list point := map (fun r => deref (heap s) r) (reps s).

Lemma centers_means s seen : inv s seen -> are_means dim orig (clusters s) (centers_of s).
Proof.
  intros H. unfold centers_of. split; [rewrite map_length; apply (i_len _ _ H)|]. intros k Hk.
  rewrite (nth_indep _ [] (deref (heap s) 0)) by (rewrite map_length, (i_len _ _ H); auto).
  rewrite (map_nth (fun r => deref (heap s) r)). apply (i_mean _ _ H); auto.
Qed.

Lemma nth_centers s k : k < length (reps s) -> nth k (centers_of s) [] = deref (heap s) (nth k (reps s) 0).
Proof.
  intros Hk. unfold centers_of. rewrite (nth_indep _ [] (deref (heap s) 0)) by (rewrite map_length; auto). apply (map_nth (fun r => deref (heap s) r)).
Qed.

Lemma find_nearest_spec s p k d : reps s <> [] -> find_nearest_cluster metric s p = (k, d) ->
  first_nearest metric (centers_of s) p k /\ k < length (reps s) /\ d = metric p (nth k (centers_of s) []).
Proof.
  intros Hne. unfold find_nearest_cluster.
  destruct (min_by _ (seq 0 (length (reps s)))) as [m|] eqn:E.
  - intros [= <- <-]. apply min_by_seq in E as (H1 & H2 & H3). rewrite nth_centers by auto. split; [|split; auto].
    assert (Hl : length (centers_of s) = length (reps s)) by apply map_length.
    split; [split|].
    + rewrite Hl. exact H1.
    + intros j Hj. rewrite Hl in Hj. rewrite !nth_centers by auto. auto.
    + intros j Hj. rewrite !nth_centers by lia. auto.
  - apply min_by_none in E. destruct (reps s); [congruence|discriminate].
Qed.

Lemma all_far s p k d thr : reps s <> [] -> find_nearest_cluster metric s p = (k, d) -> (thr < d)%Q -> forall c, In c (centers_of s) -> (thr < metric p c)%Q.
Proof.
  intros Hne E Hd c Hc. apply find_nearest_spec in E as ([[_ H] _] & _ & ->); auto. apply (In_nth _ _ []) in Hc as [j [Hj <-]].
  specialize (H j Hj). eapply Qlt_le_trans; [exact Hd|exact H].
Qed.

(** * BSAS *)
Section B.
Variable amount : nat.
Variable thr : Q.
Hypothesis amount_pos : 1 <= amount.

Notation full := (fun m => amount <= m).

Definition binv (s : sst) (seen : list nat) : Prop :=
  inv s seen /\ length (clusters s) <= amount /\ scheme metric dim orig thr full seen (clusters s) /\ (seen <> [] -> clusters s <> []).

Lemma bsas_open s seen i : binv s seen -> i < n -> ~ In i seen ->
  (forall c, In c (centers_of s) -> (thr < metric (orig i) c)%Q) -> length (clusters s) < amount -> binv (open_cluster data s i) (seen ++ [i]).
Proof.
  intros (H1 & H2 & H3 & H4) Hi Hn Hf Hl. split; [apply open_inv; auto|]. cbn [open_cluster clusters]. split; [rewrite app_length; simpl; lia|].
  split; [|intros _ E; destruct (clusters s); discriminate].
  apply scheme_open with (centers_of s); auto. apply centers_means with seen; auto. intros _. lia.
Qed.

Lemma reps_ne s seen : inv s seen -> clusters s <> [] -> reps s <> [].
Proof. intros H Hne E. pose proof (i_len _ _ H) as El. rewrite E in El. destruct (clusters s); [congruence|discriminate]. Qed.

Lemma bsas_join s seen k d i : binv s seen -> i < n -> ~ In i seen -> clusters s <> [] ->
  find_nearest_cluster metric s (orig i) = (k, d) -> ((d <= thr)%Q \/ amount <= length (clusters s)) -> binv (join_cluster data s k i) (seen ++ [i]).
Proof.
  intros (H1 & H2 & H3 & H4) Hi Hn Hne E Hc. pose proof (reps_ne s seen H1 Hne) as Hr.
  destruct (find_nearest_spec _ _ _ _ Hr E) as (F1 & F2 & F3). rewrite (i_len _ _ H1) in F2.
  split; [apply join_inv; auto|]. cbn [join_cluster clusters]. split; [rewrite push_length; auto|].
  split; [|intros _ E'; apply (f_equal (@length _)) in E'; rewrite push_length in E'; simpl in E'; lia].
  apply scheme_join with (centers_of s); auto. apply centers_means with seen; auto. rewrite <- F3. auto.
Qed.

Lemma bsas_step_inv s seen i : binv s seen -> seen <> [] -> i < n -> ~ In i seen -> binv (bsas_step metric data amount thr s i) (seen ++ [i]).
Proof.
  intros HB Hs Hi Hn. pose proof HB as (H1 & H2 & H3 & H4). unfold bsas_step. rewrite (fresh_point s seen) by auto.
  destruct (find_nearest_cluster metric s (orig i)) as [k d] eqn:E.
  destruct (Qltb thr d) eqn:Ed; cbn [andb].
  - apply Qltb_true in Ed. destruct (Nat.ltb_spec (length (clusters s)) amount).
    + apply bsas_open; auto. apply (all_far s (orig i) k d thr); auto. apply (reps_ne s seen); auto.
    + apply (bsas_join s seen k d); auto.
  - apply Qltb_false in Ed. apply (bsas_join s seen k d); auto.
Qed.

Lemma binv_start : binv (mkS h0 [] []) [].
Proof. split; [apply start_inv|]. simpl. split; [lia|]. split; [constructor|]. congruence. Qed.

Lemma binv_first : 1 <= n -> binv (open_cluster data (mkS h0 [] []) 0) [0].
Proof. intros Hn. apply (bsas_open (mkS h0 [] []) [] 0); auto; [apply binv_start|intros c []]. Qed.

Lemma bsas_fold l : forall s seen, binv s seen -> seen <> [] -> NoDup l -> (forall i, In i l -> i < n /\ ~ In i seen) ->
  binv (fold_left (bsas_step metric data amount thr) l s) (seen ++ l).
Proof.
  induction l as [|i t IH]; intros s seen HB Hs Hnd Hl; cbn [fold_left]; [rewrite app_nil_r; auto|].
  inversion Hnd as [|? ? Hit Ht]; subst. replace (seen ++ i :: t) with ((seen ++ [i]) ++ t) by (rewrite <- app_assoc; reflexivity).
  apply IH; auto.
  - apply bsas_step_inv; auto; apply Hl; simpl; auto.
  - destruct seen; discriminate.
  - intros j Hj. split; [apply Hl; simpl; auto|]. intro Hc. apply in_app_iff in Hc as [Hc|[<-|[]]]; [|contradiction]. apply (Hl j); simpl; auto.
Qed.

Theorem bsas_process_inv : 1 <= n -> binv (bsas_process metric data amount thr (mkS h0 [] [])) (seq 0 n).
Proof.
  intros Hn. unfold bsas_process. replace (seq 0 n) with ([0] ++ seq 1 (n - 1)) by (destruct n eqn:E; [lia|]; simpl; rewrite Nat.sub_0_r; reflexivity).
  apply bsas_fold; auto; [apply binv_first; auto|discriminate|apply seq_NoDup|].
  intros i Hi. apply in_seq in Hi. split; [lia|]. intros [E|[]]. lia.
Qed.

(** * MBSAS *)
(** first phase: all clusters are single founders, the memory is unchanged *)
Definition founders_ok (fs : list nat) : Prop :=
  forall j k, j < k -> k < length fs -> (thr < metric (orig (nth k fs 0%nat)) (orig (nth j fs 0%nat)))%Q.

Record minv (s : sst) (skipped done : list nat) : Prop := {
  m_fs : exists fs, clusters s = map (fun i => [i]) fs /\ reps s = map (ref data) fs /\ heap s = h0 /\ founders_ok fs /\ fs <> [] /\
     length fs <= amount /\ Permutation (fs ++ skipped) done /\ (forall i, In i fs -> i < n) /\
     (length fs < amount -> forall i, In i skipped -> exists f, In f fs /\ (metric (orig i) (orig f) <= thr)%Q) }.

Lemma mbsas_step_inv s sk done i : minv s sk done -> i < n ->
  minv (fst (mbsas_step metric data amount thr (s, sk) i)) (snd (mbsas_step metric data amount thr (s, sk) i)) (done ++ [i]).
Proof.
  intros [(fs & E1 & E2 & E3 & E4 & E5 & E6 & E7 & E8 & E9)] Hi.
  assert (Hne : reps s <> []) by (rewrite E2; destruct fs; [congruence|discriminate]).
  assert (Hp : deref (heap s) (ref data i) = orig i) by (rewrite E3; reflexivity).
  assert (Hc : forall c, In c (centers_of s) <-> exists f, In f fs /\ c = orig f).
  { intros c. unfold centers_of. rewrite E2, E3, map_map. rewrite in_map_iff. split; [intros [f [<- Hf]]; exists f; auto|intros [f [Hf ->]]; exists f; auto]. }
  unfold mbsas_step. rewrite Hp. destruct (find_nearest_cluster metric s (orig i)) as [k d] eqn:E.
  assert (Hlc : length (clusters s) = length fs) by (rewrite E1; apply map_length).
  destruct (Qltb thr d) eqn:Ed; cbn [andb].
  - destruct (Nat.ltb_spec (length (clusters s)) amount) as [Hlt|Hge]; cbn [fst snd].
    + constructor. exists (fs ++ [i]). cbn [open_cluster clusters reps heap]. rewrite E1, E2, E3, !map_app. cbn [map].
      split; auto. split; auto. split; auto. split.
      { intros j m Hjm Hm. rewrite app_length in Hm. simpl in Hm. rewrite !nth_snoc.
        destruct (Nat.eqb_spec m (length fs)) as [->|]; destruct (Nat.eqb_spec j (length fs)); try lia; [|apply E4; lia].
        apply Qltb_true in Ed. apply (all_far s (orig i) k d thr Hne E Ed). apply Hc. exists (nth j fs 0). split; auto. apply nth_In. lia. }
      split; [destruct fs; discriminate|]. split; [rewrite app_length; simpl; lia|].
      split. { rewrite <- app_assoc. apply Permutation_trans with ((fs ++ sk) ++ [i]); [|apply Permutation_app_tail; auto]. rewrite <- app_assoc. apply Permutation_app_head, Permutation_app_comm. }
      split. { intros j Hj. apply in_app_iff in Hj as [Hj|[<-|[]]]; auto. }
      intros Hl j Hj. rewrite app_length in Hl. simpl in Hl. destruct (E9 ltac:(lia) j Hj) as [f [Hf Hd]]. exists f. split; auto. apply in_app_iff; auto.
    + constructor. exists fs. split; auto. split; auto. split; auto. split; auto. split; auto. split; auto. split.
      { rewrite app_assoc. apply Permutation_app_tail; auto. } split; auto. intros Hl. lia.
  - cbn [fst snd]. apply Qltb_false in Ed. constructor. exists fs. split; auto. split; auto. split; auto. split; auto. split; auto. split; auto. split.
    { rewrite app_assoc. apply Permutation_app_tail; auto. } split; auto. intros Hl j Hj. apply in_app_iff in Hj as [Hj|[<-|[]]]; auto.
    destruct (find_nearest_spec _ _ _ _ Hne E) as (F1 & F2 & F3).
    assert (Hin : In (nth k (centers_of s) []) (centers_of s)) by (apply nth_In; unfold centers_of; rewrite map_length; auto).
    apply Hc in Hin as [f [Hf Ef]]. exists f. split; auto. rewrite <- Ef, <- F3. auto.
Qed.

Lemma mbsas_fold l : forall s sk done, minv s sk done -> (forall i, In i l -> i < n) ->
  let r := fold_left (mbsas_step metric data amount thr) l (s, sk) in minv (fst r) (snd r) (done ++ l).
Proof.
  induction l as [|i t IH]; intros s sk done H Hl; cbn [fold_left]; cbn zeta; [rewrite app_nil_r; auto|].
  pose proof (mbsas_step_inv s sk done i H ltac:(apply Hl; simpl; auto)) as H'.
  destruct (mbsas_step metric data amount thr (s, sk) i) as [s' sk'] eqn:E. cbn [fst snd] in H'.
  replace (done ++ i :: t) with ((done ++ [i]) ++ t) by (rewrite <- app_assoc; reflexivity). apply IH; auto. intros; apply Hl; simpl; auto.
Qed.

Lemma singles_inv s fs : (forall i, In i fs -> i < n) -> NoDup fs -> clusters s = map (fun i => [i]) fs -> reps s = map (ref data) fs -> heap s = h0 -> inv s fs.
Proof.
  intros Hv Hnd E1 E2 E3.
  assert (Hn : forall k, k < length fs -> nth k (map (fun i : nat => [i]) fs) [] = [nth k fs 0]).
  { intros k Hk. rewrite (nth_indep _ [] [0]) by (rewrite map_length; auto). apply (map_nth (fun i => [i])). }
  constructor; rewrite ?E1, ?E2, ?E3, ?map_length; auto.
  - clear. induction fs; simpl; auto.
  - unfold no_empty. rewrite Forall_forall. intros g Hg. apply in_map_iff in Hg as [i [<- _]]. discriminate.
  - intros k Hk. rewrite Hn by auto. cbn [hd]. rewrite (nth_indep _ 0 (ref data 0)) by (rewrite map_length; auto). apply (map_nth (ref data)).
  - intros k Hk. rewrite Hn by auto.
    assert (Er : nth k (map (ref data) fs) 0 = ref data (nth k fs 0)) by (rewrite (nth_indep _ 0 (ref data 0)) by (rewrite map_length; auto); apply (map_nth (ref data))). rewrite Er.
    change (deref h0 (ref data (nth k fs 0))) with (orig (nth k fs 0)). split; [apply orig_dim, Hv, nth_In; auto|]. intros d Hd. simpl. ring.
Qed.

Lemma mbsas_join_fold l : forall s seen, inv s seen -> clusters s <> [] -> NoDup l -> (forall i, In i l -> i < n /\ ~ In i seen) ->
  let r := fold_left (mbsas_join metric data) l s in
  inv r (seen ++ l) /\ length (clusters r) = length (clusters s) /\ (forall k, k < length (clusters s) -> hd 0 (nth k (clusters r) []) = hd 0 (nth k (clusters s) [])).
Proof.
  induction l as [|i t IH]; intros s seen HB Hne Hnd Hl; cbn [fold_left]; cbn zeta; [rewrite app_nil_r; auto|].
  inversion Hnd as [|? ? Hit Ht]; subst. destruct (Hl i (or_introl eq_refl)) as [Hi Hni].
  assert (Hj : exists k, k < length (clusters s) /\ mbsas_join metric data s i = join_cluster data s k i).
  { unfold mbsas_join. destruct (find_nearest_cluster metric s (deref (heap s) (ref data i))) as [k d] eqn:E. exists k. split; auto.
    apply find_nearest_spec in E as (_ & F & _); [|apply (reps_ne s seen); auto]. rewrite <- (i_len _ _ HB). auto. }
  destruct Hj as [k [Hk Ej]]. rewrite Ej. pose proof (join_inv s seen k i HB Hk Hi Hni) as HB'.
  replace (seen ++ i :: t) with ((seen ++ [i]) ++ t) by (rewrite <- app_assoc; reflexivity).
  assert (Hlen : length (clusters (join_cluster data s k i)) = length (clusters s)) by apply push_length.
  destruct (IH (join_cluster data s k i) (seen ++ [i])) as (R1 & R2 & R3); auto.
  - intro E. apply (f_equal (@length _)) in E. rewrite Hlen in E. destruct (clusters s); [congruence|discriminate].
  - intros j Hj. split; [apply Hl; simpl; auto|]. intro Hc. apply in_app_iff in Hc as [Hc|[<-|[]]]; [|contradiction]. apply (Hl j); simpl; auto.
  - split; auto. split; [lia|]. intros m Hm. rewrite R3 by lia. cbn [join_cluster clusters]. rewrite nth_push by auto.
    destruct (Nat.eqb_spec k m) as [->|]; auto. pose proof (no_empty_nth _ m (i_ne _ _ HB) Hm). destruct (nth m (clusters s) []); [congruence|reflexivity].
Qed.

Theorem mbsas_process_inv : 1 <= n -> let s := mbsas_process metric data amount thr (mkS h0 [] []) in
  exists seen, inv s seen /\ Permutation seen (seq 0 n) /\ length (clusters s) <= amount /\ founders_ok (map (hd 0) (clusters s)) /\
    (length (clusters s) < amount -> forall i, i < n -> In i (map (hd 0) (clusters s)) \/ exists f, In f (map (hd 0) (clusters s)) /\ (metric (orig i) (orig f) <= thr)%Q).
Proof.
  intros Hn s. unfold s, mbsas_process.
  assert (H0 : minv (open_cluster data (mkS h0 [] []) 0) [] [0]).
  { constructor. exists [0]. cbn. split; auto. split; auto. split; auto. split; [intros j k Hj Hk; simpl in Hk; lia|]. split; [discriminate|]. split; [lia|]. split; [auto|].
    split; [intros i [<-|[]]; lia|]. intros _ i []. }
  pose proof (mbsas_fold (seq 1 (n - 1)) _ _ _ H0 ltac:(intros i Hi; apply in_seq in Hi; lia)) as H. cbn zeta in H.
  destruct (fold_left (mbsas_step metric data amount thr) (seq 1 (n - 1)) (open_cluster data (mkS h0 [] []) 0, [])) as [s1 sk]. cbn [fst snd] in H.
  destruct H as [(fs & E1 & E2 & E3 & E4 & E5 & E6 & E7 & E8 & E9)].
  assert (Hseq : [0] ++ seq 1 (n - 1) = seq 0 n) by (destruct n eqn:E; [lia|]; simpl; rewrite Nat.sub_0_r; reflexivity). rewrite Hseq in E7.
  assert (Hnd : NoDup (fs ++ sk)) by (apply (Permutation_NoDup (Permutation_sym E7)), seq_NoDup). apply NoDup_app_inv in Hnd as (N1 & N2 & N3).
  pose proof (singles_inv s1 fs E8 N1 E1 E2 E3) as I1.
  destruct (mbsas_join_fold sk s1 fs I1) as (R1 & R2 & R3); auto.
  - rewrite E1. destruct fs; [congruence|discriminate].
  - intros i Hi. split; [|intro Hc; apply (N3 i); auto]. assert (In i (seq 0 n)) by (apply (Permutation_in _ E7), in_app_iff; auto). apply in_seq in H. lia.
  - assert (Hf : map (hd 0) (clusters (fold_left (mbsas_join metric data) sk s1)) = fs).
    { apply nth_ext with (d := 0) (d' := 0); [rewrite map_length, R2, E1, map_length; auto|]. rewrite map_length, R2. intros k Hk.
      rewrite (nth_indep _ 0 (hd 0 [])) by (rewrite map_length, R2; auto). rewrite (map_nth (hd 0)). rewrite R3 by auto. rewrite E1.
      rewrite E1, map_length in Hk. rewrite (nth_indep _ [] [0]) by (rewrite map_length; auto). rewrite (map_nth (fun i => [i])). reflexivity. }
    exists (fs ++ sk). split; auto. split; auto. split; [rewrite R2, E1, map_length; auto|]. rewrite Hf. split; auto.
    rewrite R2, E1, map_length. intros Hl i Hi. assert (Hin : In i (fs ++ sk)) by (apply (Permutation_in _ (Permutation_sym E7)), in_seq; lia).
    apply in_app_iff in Hin as [Hin|Hin]; auto.
Qed.
End B.

(** * TTSAS *)
Section T.
Variables thr thr2 : Q.
Notation never := (fun _ : nat => False).

Record tinv (t : tst) (seen : list nat) : Prop := {
  t_inv : inv (base t) seen;
  t_len : length (skipped t) = n;
  t_skip : forall i, i < n -> (nth i (skipped t) false = true <-> ~ In i seen);
  t_scheme : scheme metric dim orig thr never seen (clusters (base t)) }.

Lemma filter_true_upd (l : list bool) i : nth i l false = true -> S (length (filter (fun b => b) (upd l i false))) = length (filter (fun b => b) l).
Proof.
  revert i. induction l as [|b l IH]; intros [|i] H; simpl in *; try discriminate.
  - subst b. reflexivity.
  - destruct b; simpl; rewrite IH; auto.
Qed.

Lemma open_tinv t seen i : tinv t seen -> i < n -> ~ In i seen -> (forall c, In c (centers_of (base t)) -> (thr < metric (orig i) c)%Q) ->
  tinv (ttsas_allocate data t i) (seen ++ [i]).
Proof.
  intros H Hi Hn Hf. constructor; cbn [ttsas_allocate base skipped].
  - apply open_inv; auto. apply (t_inv _ _ H).
  - rewrite upd_length. apply (t_len _ _ H).
  - intros j Hj. rewrite upd_nth, (t_len _ _ H), in_app_iff. destruct (Nat.eqb_spec i j) as [->|Hij]; cbn [andb].
    + destruct (Nat.ltb_spec j n); [|lia]. split; [discriminate|]. intros Hc. exfalso. apply Hc. right. left. auto.
    + rewrite (t_skip _ _ H) by auto. split; [intros Hc [?|[?|[]]]; auto|]. intros Hc Hs. apply Hc. auto.
  - cbn [open_cluster clusters]. apply scheme_open with (centers_of (base t)); auto. apply (t_scheme _ _ H). apply centers_means with seen, (t_inv _ _ H).
Qed.

Lemma append_tinv t seen k d i : tinv t seen -> i < n -> ~ In i seen -> clusters (base t) <> [] ->
  find_nearest_cluster metric (base t) (orig i) = (k, d) -> (d <= thr)%Q -> tinv (ttsas_append data t k i) (seen ++ [i]).
Proof.
  intros H Hi Hn Hne E Hd. pose proof (t_inv _ _ H) as H1. pose proof (reps_ne _ _ H1 Hne) as Hr.
  destruct (find_nearest_spec _ _ _ _ Hr E) as (F1 & F2 & F3). rewrite (i_len _ _ H1) in F2.
  constructor; cbn [ttsas_append base skipped].
  - apply join_inv; auto.
  - rewrite upd_length. apply (t_len _ _ H).
  - intros j Hj. rewrite upd_nth, (t_len _ _ H), in_app_iff. destruct (Nat.eqb_spec i j) as [->|Hij]; cbn [andb].
    + destruct (Nat.ltb_spec j n); [|lia]. split; [discriminate|]. intros Hc. exfalso. apply Hc. right. left. auto.
    + rewrite (t_skip _ _ H) by auto. split; [intros Hc [?|[?|[]]]; auto|]. intros Hc Hs. apply Hc. auto.
  - cbn [join_cluster clusters]. apply scheme_join with (centers_of (base t)); auto. apply (t_scheme _ _ H). apply centers_means with seen; auto. left. rewrite <- F3. auto.
Qed.

(** one object: the state stays the same and the object is far from all centres (or was not
    skipped), or it is assigned *)
Lemma ttsas_step_inv t seen i : tinv t seen -> clusters (base t) <> [] -> i < n ->
  (ttsas_step metric data thr thr2 t i = t /\ (~ In i seen -> forall c, In c (centers_of (base t)) -> (thr < metric (orig i) c)%Q)) \/
  (tinv (ttsas_step metric data thr thr2 t i) (seen ++ [i]) /\ clusters (base (ttsas_step metric data thr thr2 t i)) <> [] /\
   S (amount_skipped (ttsas_step metric data thr thr2 t i)) = amount_skipped t).
Proof.
  intros H Hne Hi. unfold ttsas_step. destruct (nth i (skipped t) false) eqn:Es.
  - pose proof (proj1 (t_skip _ _ H i Hi) Es) as Hns. rewrite (fresh_point _ seen) by (auto; apply (t_inv _ _ H)).
    destruct (find_nearest_cluster metric (base t) (orig i)) as [k d] eqn:E.
    destruct (Qle_bool d thr) eqn:Ed.
    + right. apply Qle_bool_iff in Ed. split; [apply (append_tinv t seen k d); auto|]. cbn [ttsas_append base join_cluster clusters].
      split; [intro E'; apply (f_equal (@length _)) in E'; rewrite push_length in E'; destruct (clusters (base t)); [congruence|discriminate]|].
      unfold amount_skipped. cbn [skipped]. apply filter_true_upd; auto.
    + apply Qle_bool_false in Ed.
      assert (Hfar : forall c, In c (centers_of (base t)) -> (thr < metric (orig i) c)%Q).
      { apply (all_far (base t) (orig i) k d thr); auto. apply (reps_ne _ seen); auto. apply (t_inv _ _ H). }
      destruct (Qltb thr2 d) eqn:Ed2; [|left; auto]. right. split; [apply open_tinv; auto|]. cbn [ttsas_allocate base open_cluster clusters].
      split; [destruct (clusters (base t)); discriminate|]. unfold amount_skipped. cbn [skipped]. apply filter_true_upd; auto.
  - left. split; auto. intros Hns. apply (t_skip _ _ H) in Hns; auto. congruence.
Qed.

Lemma ttsas_fold l : forall t seen, tinv t seen -> clusters (base t) <> [] -> (forall i, In i l -> i < n) ->
  let t' := fold_left (ttsas_step metric data thr thr2) l t in
  exists seen', tinv t' seen' /\ clusters (base t') <> [] /\ amount_skipped t' <= amount_skipped t /\
    (amount_skipped t' = amount_skipped t -> t' = t /\ forall i, In i l -> ~ In i seen -> forall c, In c (centers_of (base t)) -> (thr < metric (orig i) c)%Q).
Proof.
  induction l as [|i l IH]; intros t seen H Hne Hl; cbn [fold_left]; cbn zeta.
  - exists seen. split; auto. split; auto. split; auto. intros _. split; auto. intros i [].
  - destruct (ttsas_step_inv t seen i H Hne ltac:(apply Hl; simpl; auto)) as [[E Hfar]|(H1 & H2 & H3)].
    + rewrite E. destruct (IH t seen H Hne ltac:(intros; apply Hl; simpl; auto)) as (seen' & R1 & R2 & R3 & R4). exists seen'. split; auto. split; auto. split; auto.
      intros Ea. destruct (R4 Ea) as [R5 R6]. split; auto. intros j [<-|Hj]; auto.
    + destruct (IH _ _ H1 H2 ltac:(intros; apply Hl; simpl; auto)) as (seen' & R1 & R2 & R3 & R4). exists seen'. split; auto. split; auto. split; [lia|]. intros Ea. lia.
Qed.

Lemma index_true_spec l : 0 < length (filter (fun b : bool => b) l) ->
  index_true l < length l /\ nth (index_true l) l false = true /\ forall j, j < index_true l -> nth j l false = false.
Proof.
  induction l as [|b l IH]; simpl; [lia|]. destruct b; simpl; intros H.
  - split; [lia|]. split; auto. intros; lia.
  - destruct (IH H) as (H1 & H2 & H3). split; [lia|]. split; auto. intros [|j] Hj; auto. apply H3. lia.
Qed.

(** every skipped object is far from all centres *)
Definition all_skipped_far (t : tst) (seen : list nat) : Prop :=
  forall i, i < n -> ~ In i seen -> forall c, In c (centers_of (base t)) -> (thr < metric (orig i) c)%Q.

Lemma ttsas_pass_inv t seen changes : tinv t seen -> 0 < amount_skipped t ->
  (changes = 0 -> all_skipped_far t seen) -> (changes <> 0 -> clusters (base t) <> []) ->
  let t' := ttsas_pass metric data thr thr2 changes t in
  exists seen', tinv t' seen' /\ clusters (base t') <> [] /\ amount_skipped t' <= amount_skipped t /\
    (changes = 0 -> amount_skipped t' < amount_skipped t) /\
    (amount_skipped t' = amount_skipped t -> all_skipped_far t' seen').
Proof.
  intros H Hs Hfar Hne t'. destruct (index_true_spec (skipped t) Hs) as (J1 & J2 & J3). rewrite (t_len _ _ H) in J1.
  pose proof (proj1 (t_skip _ _ H _ J1) J2) as Jn. unfold t', ttsas_pass. destruct (Nat.eqb_spec changes 0) as [Hc|Hc].
  - pose proof (open_tinv t seen _ H J1 Jn (Hfar Hc _ J1 Jn)) as H'.
    destruct (ttsas_fold (seq (S (index_true (skipped t))) (n - S (index_true (skipped t)))) _ _ H') as (seen' & R1 & R2 & R3 & R4).
    { cbn [ttsas_allocate base open_cluster clusters]. destruct (clusters (base t)); discriminate. }
    { intros i Hi. apply in_seq in Hi. lia. }
    assert (Ha : S (amount_skipped (ttsas_allocate data t (index_true (skipped t)))) = amount_skipped t) by (unfold amount_skipped; cbn [ttsas_allocate skipped]; apply filter_true_upd; auto).
    exists seen'. split; auto. split; auto. split; [lia|]. split; [lia|]. intros; lia.
  - destruct (ttsas_fold (seq (index_true (skipped t)) (n - index_true (skipped t))) t seen H (Hne Hc)) as (seen' & R1 & R2 & R3 & R4).
    { intros i Hi. apply in_seq in Hi. lia. }
    exists seen'. split; auto. split; auto. split; auto. split; [lia|]. intros Ea. destruct (R4 Ea) as [E1 E2]. rewrite E1 in *.
    intros i Hi Hns. assert (Hns' : ~ In i seen). { apply (t_skip _ _ H i Hi). apply (t_skip _ _ R1 i Hi). auto. }
    apply E2; auto. apply in_seq. destruct (Nat.lt_ge_cases i (index_true (skipped t))) as [Hlt|]; [|lia].
    apply J3 in Hlt. apply (t_skip _ _ H i Hi) in Hns'. congruence.
Qed.

Lemma ttsas_loop_spec fuel : forall changes t seen, tinv t seen ->
  (changes = 0 -> all_skipped_far t seen) -> (changes <> 0 -> clusters (base t) <> []) ->
  2 * amount_skipped t + (if changes =? 0 then 0 else 1) <= fuel ->
  exists t' seen', ttsas_loop metric data thr thr2 fuel changes t = Some t' /\ tinv t' seen' /\ amount_skipped t' = 0.
Proof.
  induction fuel as [|fuel IH]; intros changes t seen H Hf Hne Hfu; cbn [ttsas_loop].
  - destruct (Nat.eqb_spec (amount_skipped t) 0); [eauto|lia].
  - destruct (Nat.eqb_spec (amount_skipped t) 0) as [|Hs]; [eauto|].
    destruct (ttsas_pass_inv t seen changes H ltac:(lia) Hf Hne) as (seen' & R1 & R2 & R3 & R4 & R5).
    apply (IH _ _ seen'); auto.
    + intros E. apply R5. lia.
    + destruct (Nat.eqb_spec (amount_skipped t - amount_skipped (ttsas_pass metric data thr thr2 changes t)) 0) as [E|E].
      * destruct (Nat.eqb_spec changes 0) as [Ec|Ec]; [specialize (R4 Ec); lia|]. lia.
      * lia.
Qed.

Lemma tinv_start : tinv (mkT (mkS h0 [] []) (repeat true n)) [].
Proof.
  constructor; cbn [base skipped clusters]; [apply start_inv|apply repeat_length| |constructor].
  intros i Hi. assert (E : nth i (repeat true n) false = true) by (rewrite (nth_indep _ false true) by (rewrite repeat_length; auto); apply nth_repeat). rewrite E. simpl. tauto.
Qed.
End T.
End Seq.
