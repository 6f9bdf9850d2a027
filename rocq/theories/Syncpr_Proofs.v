(** Specification and proofs for the pattern recognition network. *)
From Verif Require Import Base Kmeans_Model Kmeans_Proofs Syncnet_Model Syncnet_Proofs Kuramoto_Model Kuramoto_Proofs Syncpr_Model.
From Coq Require Import Reals Qreals Lra.
Open Scope nat_scope.

(** * Specification *)
(** a pattern of [n] features 1 and -1 *)
Definition is_pattern (n : nat) (p : list Q) : Prop := length p = n /\ Forall (fun f => f == 1 \/ f == -1)%Q p.

(** the correlation of the features [i] and [j] over the samples *)
Definition correlation (samples : list (list Q)) (i j : nat) : Q := qsum (map (fun p => nth i p 0 * nth j p 0)%Q samples).

Definition square (n : nat) (m : list (list Q)) : Prop := length m = n /\ forall i, i < n -> length (nth i m []) = n.

(** * Training *)
Lemma validate_iff n p : validate_pattern n p = Ok tt <-> is_pattern n p.
Proof.
  unfold validate_pattern, is_pattern. destruct (length p =? n) eqn:E; cbn [negb].
  - apply Nat.eqb_eq in E. destruct (forallb _ p) eqn:F; split; intros H; auto; try discriminate.
    + split; auto. rewrite forallb_forall in F. apply Forall_forall. intros f Hf. apply F, orb_true_iff in Hf as [Hf|Hf]; apply Qeq_bool_iff in Hf; auto.
    + destruct H as [_ H]. exfalso. assert (forallb (fun f => Qeq_bool f (-1) || Qeq_bool f 1) p = true); [|congruence].
      apply forallb_forall. intros f Hf. rewrite Forall_forall in H. apply orb_true_iff. destruct (H f Hf); [right|left]; apply Qeq_bool_iff; auto.
  - apply Nat.eqb_neq in E. split; [discriminate|intros [H _]; congruence].
Qed.

Lemma validate_raise n p : ~ is_pattern n p -> validate_pattern n p = Raise NameError.
Proof.
  intros H. unfold validate_pattern. destruct (negb _) eqn:E; auto. destruct (forallb _ p) eqn:F; auto. exfalso. apply H, validate_iff.
  unfold validate_pattern. now rewrite E, F.
Qed.

Lemma validate_all_iff n samples : validate_all n samples = Ok tt <-> Forall (is_pattern n) samples.
Proof.
  induction samples as [|p t IH]; cbn [validate_all]; [split; auto|]. destruct (validate_pattern n p) as [[]|e] eqn:E; cbn [bind].
  - rewrite IH. apply validate_iff in E. split; intros H; [constructor; auto|inversion H; auto].
  - split; [discriminate|]. intros H. inversion_clear H. apply validate_iff in H0. congruence.
Qed.

Lemma validate_all_raise n samples : ~ Forall (is_pattern n) samples -> validate_all n samples = Raise NameError.
Proof.
  induction samples as [|p t IH]; intros H; [contradiction H; constructor|]. cbn [validate_all].
  destruct (validate_pattern n p) as [[]|e] eqn:E; cbn [bind].
  - apply IH. intros H'. apply H. constructor; auto. apply validate_iff; auto.
  - unfold validate_pattern in E. destruct (negb _); [congruence|]. destruct (forallb _ p); congruence.
Qed.

Lemma set_entry_square n m i j v : square n m -> i < n -> square n (set_entry m i j v).
Proof.
  intros [H1 H2] Hi. unfold set_entry. split; [now rewrite upd_length|]. intros k Hk. destruct (Nat.eq_dec k i) as [->|Hn].
  - rewrite upd_nth_eq by lia. rewrite upd_length. auto.
  - rewrite upd_nth_neq by auto. auto.
Qed.

Lemma set_entry_entry n m i j v a b : square n m -> i < n -> j < n -> entry (set_entry m i j v) a b = if (a =? i) && (b =? j) then v else entry m a b.
Proof.
  intros [H1 H2] Hi Hj. unfold set_entry, entry. destruct (Nat.eqb_spec a i) as [->|Ha]; cbn [andb].
  - rewrite upd_nth_eq by lia. destruct (Nat.eqb_spec b j) as [->|Hb]; [rewrite upd_nth_eq; auto; rewrite H2; auto|rewrite upd_nth_neq by auto; auto].
  - rewrite upd_nth_neq by auto. auto.
Qed.

Lemma fold_corr samples i j : forall a, (fold_left (fun acc p => acc + nth i p 0 * nth j p 0) samples a == a + correlation samples i j)%Q.
Proof.
  unfold correlation. induction samples as [|p t IH]; intros a; cbn [fold_left map qsum]; [ring|]. rewrite IH. ring.
Qed.

Lemma train_pair_spec n samples m i j : square n m -> i < j < n ->
  square n (train_pair n samples m (i, j)) /\
  forall a b, ((if ((a =? i) && (b =? j)) || ((a =? j) && (b =? i)) then (entry m i j + correlation samples i j) / inject_Z (Z.of_nat n) else entry m a b) ==
               entry (train_pair n samples m (i, j)) a b)%Q.
Proof.
  intros S H. unfold train_pair. set (v := (fold_left _ samples (entry m i j) / inject_Z (Z.of_nat n))%Q).
  assert (Ev : (v == (entry m i j + correlation samples i j) / inject_Z (Z.of_nat n))%Q) by (unfold v; rewrite fold_corr; reflexivity).
  assert (S1 : square n (set_entry m i j v)) by (apply set_entry_square; auto; lia).
  split; [apply set_entry_square; auto; lia|]. intros a b. rewrite (set_entry_entry n) by (auto; lia).
  rewrite !(set_entry_entry n) by (auto; lia). rewrite !Nat.eqb_refl. cbn [andb].
  destruct ((a =? i) && (b =? j)) eqn:E1, ((a =? j) && (b =? i)) eqn:E2; cbn [orb]; try (symmetry; exact Ev). reflexivity.
Qed.

Lemma train_fold n samples : forall l m, NoDup l -> (forall i j, In (i, j) l -> i < j < n) -> square n m ->
  let m' := fold_left (train_pair n samples) l m in
  square n m' /\
  (forall i j, In (i, j) l -> (entry m' i j == (entry m i j + correlation samples i j) / inject_Z (Z.of_nat n))%Q /\ (entry m' j i == entry m' i j)%Q) /\
  (forall a b, ~ In (a, b) l -> ~ In (b, a) l -> (entry m' a b == entry m a b)%Q).
Proof.
  induction l as [|[x y] l IH]; intros m N Hl S; cbn [fold_left].
  - split; auto. split; [intros i j []|]. intros; reflexivity.
  - inversion_clear N as [|? ? Nx Nl]. assert (Hxy : x < y < n) by (apply Hl; now left).
    destruct (train_pair_spec n samples m x y S Hxy) as [S1 E1]. destruct (IH (train_pair n samples m (x, y)) Nl (fun i j H => Hl i j (or_intror H)) S1) as (A & B & C).
    assert (Nyx : ~ In (y, x) l) by (intros H; specialize (Hl y x (or_intror H)); lia).
    split; [exact A|]. split.
    + intros i j [E|H].
      * injection E as <- <-. split.
        -- rewrite C by auto. rewrite <- E1, !Nat.eqb_refl. reflexivity.
        -- rewrite !C by auto. rewrite <- !E1, !Nat.eqb_refl. cbn [andb orb]. rewrite orb_true_r. reflexivity.
      * destruct (B i j H) as [B1 B2]. split; [|exact B2]. rewrite B1, <- E1.
        assert (Hij : i < j < n) by (apply Hl; now right).
        destruct ((i =? x) && (j =? y)) eqn:F1; [apply andb_true_iff in F1 as [F F']; apply Nat.eqb_eq in F, F'; subst; contradiction|].
        destruct ((i =? y) && (j =? x)) eqn:F2; [apply andb_true_iff in F2 as [F F']; apply Nat.eqb_eq in F, F'; lia|]. reflexivity.
    + intros a b H1 H2. rewrite C; [|intros H; apply H1; now right|intros H; apply H2; now right]. rewrite <- E1.
      destruct ((a =? x) && (b =? y)) eqn:F1; [apply andb_true_iff in F1 as [F F']; apply Nat.eqb_eq in F, F'; subst; exfalso; apply H1; now left|].
      destruct ((a =? y) && (b =? x)) eqn:F2; [apply andb_true_iff in F2 as [F F']; apply Nat.eqb_eq in F, F'; subst; exfalso; apply H2; now left|]. reflexivity.
Qed.

Theorem train_spec n samples coupling : square n coupling -> Forall (is_pattern n) samples ->
  exists c', train n samples coupling = Ok c' /\ square n c' /\
    (forall i j, i < j < n -> (entry c' i j == (entry coupling i j + correlation samples i j) / inject_Z (Z.of_nat n))%Q /\ (entry c' j i == entry c' i j)%Q) /\
    (forall i, (entry c' i i == entry coupling i i)%Q).
Proof.
  intros S H. unfold train. rewrite (proj2 (validate_all_iff n samples) H). cbn [bind]. eexists. split; [reflexivity|].
  destruct (train_fold n samples (pairs n) coupling (NoDup_pairs n)) as (A & B & C); auto.
  - intros i j Hij. apply in_pairs in Hij. auto.
  - split; [exact A|]. split; [intros i j Hij; apply B, in_pairs; auto|].
    intros i. apply C; rewrite in_pairs; lia.
Qed.

Lemma new_square n : square n (new_coupling n).
Proof. unfold new_coupling. split; [apply repeat_length|]. intros i Hi. rewrite (nth_indep _ [] (repeat 0%Q n)) by (now rewrite repeat_length). rewrite nth_repeat. apply repeat_length. Qed.

(** * Sums *)
Open Scope R_scope.

Lemma rsum_ext_in (f g : nat -> R) l : (forall k, In k l -> f k = g k) -> rsum f l = rsum g l.
Proof.
  induction l as [|x l IH]; intros H; auto. cbn [rsum fold_right]. rewrite (H x) by (now left). f_equal. apply IH. intros; apply H; now right.
Qed.

Lemma rsum_plus (f g : nat -> R) l : rsum (fun k => f k + g k) l = rsum f l + rsum g l.
Proof. induction l as [|x l IH]; cbn [rsum fold_right]; [lra|]. unfold rsum in IH. rewrite IH. lra. Qed.

Lemma rsum_const c l : rsum (fun _ => c) l = INR (length l) * c.
Proof. induction l as [|x l IH]; cbn [rsum fold_right length]; [simpl; lra|]. unfold rsum in IH. rewrite IH, S_INR. lra. Qed.

Lemma rsum_le (f g : nat -> R) l : (forall k, In k l -> f k <= g k) -> rsum f l <= rsum g l.
Proof.
  induction l as [|x l IH]; intros H; cbn [rsum fold_right]; [lra|]. pose proof (H x (or_introl eq_refl)). specialize (IH (fun k Hk => H k (or_intror Hk))). unfold rsum in IH. lra.
Qed.

Lemma rsum_nonneg_zero (f : nat -> R) l : (forall k, In k l -> 0 <= f k) -> rsum f l = 0 -> forall k, In k l -> f k = 0.
Proof.
  induction l as [|x l IH]; intros H E k Hk; [contradiction|]. cbn [rsum fold_right] in E.
  assert (H0 : 0 <= rsum f l). { replace 0 with (rsum (fun _ => 0) l) by (rewrite rsum_const; lra). apply rsum_le. intros; apply H; now right. }
  pose proof (H x (or_introl eq_refl)). unfold rsum in H0. destruct Hk as [<-|Hk]; [lra|]. apply IH; auto; [intros; apply H; now right|unfold rsum; lra].
Qed.

Lemma rsum_mult (f g : nat -> R) l l' : rsum f l * rsum g l' = rsum (fun i => rsum (fun j => f i * g j) l') l.
Proof.
  induction l as [|x l IH]; cbn [rsum fold_right]; [lra|]. fold (rsum f l). rewrite Rmult_plus_distr_r, IH. f_equal.
  rewrite <- (rsum_scale (f x) g l'). reflexivity.
Qed.

Lemma rsum_swap (f : nat -> nat -> R) l l' : rsum (fun i => rsum (fun j => f i j) l') l = rsum (fun j => rsum (fun i => f i j) l) l'.
Proof.
  induction l as [|x l IH]; cbn [rsum fold_right].
  - fold (rsum (fun _ => 0) l'). rewrite rsum_const. lra.
  - fold (rsum (fun i => rsum (fun j => f i j) l') l). rewrite IH. rewrite <- (rsum_plus (fun j => f x j) (fun j => rsum (fun i => f i j) l) l'). reflexivity.
Qed.

Lemma rsum_antisym (f : nat -> nat -> R) l : (forall i j, In i l -> In j l -> f i j = - f j i) -> rsum (fun i => rsum (fun j => f i j) l) l = 0.
Proof.
  intros H. assert (E : rsum (fun i => rsum (fun j => f i j) l) l = - rsum (fun i => rsum (fun j => f i j) l) l).
  { rewrite rsum_swap at 1. replace (- rsum (fun i => rsum (fun j => f i j) l) l) with (-1 * rsum (fun i => rsum (fun j => f i j) l) l) by lra.
    rewrite <- rsum_scale. apply rsum_ext_in. intros i Hi. rewrite <- (rsum_scale (-1) (fun j => f i j)). apply rsum_ext_in. intros j Hj. rewrite (H j i) by auto. lra. }
  lra.
Qed.

Lemma rsum_filter (p : nat -> bool) (f : nat -> R) l : rsum f (filter p l) = rsum (fun k => if p k then f k else 0) l.
Proof. induction l as [|x l IH]; auto. cbn [filter rsum fold_right]. destruct (p x); cbn [rsum fold_right]; unfold rsum in IH; rewrite IH; lra. Qed.

(** * Memory order *)
Lemma feature_pm n pattern k : is_pattern n pattern -> (k < n)%nat -> feature pattern k = 1 \/ feature pattern k = -1.
Proof.
  intros [L F] Hk. unfold feature. rewrite Forall_forall in F. destruct (F (nth k pattern 0%Q)) as [E|E]; [apply nth_In; lia| |]; apply Qeq_eqR in E; rewrite E; [left|right]; unfold Q2R; simpl; lra.
Qed.

Definition agreement (pattern : list Q) (phases : list R) (i j : nat) : R :=
  feature pattern i * feature pattern j * cos (nth i phases 0 - nth j phases 0).

Lemma order_sum n pattern phases : (0 < n)%nat ->
  memory_order_value n pattern phases = sqrt (rsum (fun i => rsum (fun j => agreement pattern phases i j) (seq 0 n)) (seq 0 n)) / INR n.
Proof.
  intros Hn. unfold memory_order_value. assert (Hp : 0 < INR n) by (apply lt_0_INR; lia).
  rewrite (fold_sum (fun k => feature pattern k * cos (rnth phases k))), (fold_sum (fun k => feature pattern k * sin (rnth phases k))). rewrite !Rplus_0_l.
  set (C := rsum _ _). set (S := rsum _ (seq 0 n)).
  assert (E : rsum (fun i => rsum (fun j => agreement pattern phases i j) (seq 0 n)) (seq 0 n) = C * C + S * S).
  { unfold C, S. rewrite !rsum_mult, <- rsum_plus. apply rsum_ext. intros i. rewrite <- rsum_plus. apply rsum_ext. intros j. unfold agreement, rnth. rewrite cos_minus. ring. }
  rewrite E. replace (C / INR n * (C / INR n) + S / INR n * (S / INR n)) with ((C * C + S * S) / (INR n * INR n)) by (field; lra).
  rewrite sqrt_div; [|nra|nra]. rewrite sqrt_square by lra. reflexivity.
Qed.

Lemma agreement_le n pattern phases i j : is_pattern n pattern -> (i < n)%nat -> (j < n)%nat -> -1 <= agreement pattern phases i j <= 1.
Proof.
  intros H Hi Hj. unfold agreement. pose proof (COS_bound (nth i phases 0 - nth j phases 0)) as [B1 B2].
  destruct (feature_pm n pattern i H Hi) as [-> | ->], (feature_pm n pattern j H Hj) as [-> | ->]; lra.
Qed.

Lemma order_square n pattern phases : (0 < n)%nat ->
  memory_order_value n pattern phases = 1 <-> rsum (fun i => rsum (fun j => agreement pattern phases i j) (seq 0 n)) (seq 0 n) = INR n * INR n.
Proof.
  intros Hn. rewrite order_sum by auto. set (T := rsum _ _). assert (Hp : 0 < INR n) by (apply lt_0_INR; lia). split; intros H.
  - assert (E : sqrt T = INR n) by (apply (Rmult_eq_reg_r (/ INR n)); [|apply Rinv_neq_0_compat; lra]; rewrite Rinv_r by lra; exact H).
    assert (0 <= T). { destruct (Rle_lt_dec 0 T); auto. rewrite sqrt_neg_0 in E by lra. lra. }
    rewrite <- E. symmetry. apply sqrt_sqrt. auto.
  - rewrite H, sqrt_square by lra. field. lra.
Qed.

Theorem memory_order_spec n pattern phases : (0 < n)%nat -> is_pattern n pattern ->
  0 <= memory_order_value n pattern phases <= 1 /\
  (memory_order_value n pattern phases = 1 <-> forall i j, (i < n)%nat -> (j < n)%nat -> cos (nth i phases 0 - nth j phases 0) = feature pattern i * feature pattern j).
Proof.
  intros Hn H. assert (Hp : 0 < INR n) by (apply lt_0_INR; lia). set (T := rsum (fun i => rsum (fun j => agreement pattern phases i j) (seq 0 n)) (seq 0 n)).
  assert (HT : T <= INR n * INR n).
  { unfold T. replace (INR n * INR n) with (rsum (fun _ => rsum (fun _ => 1) (seq 0 n)) (seq 0 n)) by (rewrite !rsum_const, seq_length; ring).
    apply rsum_le. intros i Hi. apply rsum_le. intros j Hj. apply in_seq in Hi, Hj. apply (agreement_le n); auto; lia. }
  split; [|split].
  - rewrite order_sum by auto. fold T. assert (0 <= sqrt T) by apply sqrt_pos. assert (sqrt T <= INR n).
    { rewrite <- (sqrt_square (INR n)) by lra. destruct (Rle_lt_dec 0 T); [apply sqrt_le_1; nra|]. rewrite sqrt_neg_0 by lra. apply sqrt_pos. }
    split; [apply Rmult_le_pos; [auto|left; apply Rinv_0_lt_compat; auto]|].
    apply (Rmult_le_reg_r (INR n)); auto. unfold Rdiv. rewrite Rmult_assoc, Rinv_l by lra. lra.
  - intros E i j Hi Hj. apply order_square in E; auto.
    assert (Z : rsum (fun i => rsum (fun j => 1 - agreement pattern phases i j) (seq 0 n)) (seq 0 n) = 0).
    { rewrite (rsum_ext _ (fun i => INR n + -1 * rsum (fun j => agreement pattern phases i j) (seq 0 n))).
      - rewrite rsum_plus, rsum_scale, rsum_const, E, seq_length. ring.
      - intros a. rewrite <- rsum_scale. replace (INR n) with (rsum (fun _ => 1) (seq 0 n)) by (rewrite rsum_const, seq_length; ring).
        rewrite <- rsum_plus. apply rsum_ext. intros; ring. }
    assert (A : agreement pattern phases i j = 1).
    { assert (Hi' : In i (seq 0 n)) by (apply in_seq; lia). assert (Hj' : In j (seq 0 n)) by (apply in_seq; lia).
      assert (P : forall a b, In a (seq 0 n) -> In b (seq 0 n) -> 0 <= 1 - agreement pattern phases a b).
      { intros a b Ha Hb. apply in_seq in Ha, Hb. assert (agreement pattern phases a b <= 1) by (apply (agreement_le n); auto; lia). lra. }
      assert (R : rsum (fun j => 1 - agreement pattern phases i j) (seq 0 n) = 0).
      { apply (rsum_nonneg_zero (fun i => rsum (fun j => 1 - agreement pattern phases i j) (seq 0 n)) (seq 0 n)); auto. intros a Ha.
        replace 0 with (rsum (fun _ => 0) (seq 0 n)) by (rewrite rsum_const; lra). apply rsum_le. intros; auto. }
      pose proof (rsum_nonneg_zero (fun j => 1 - agreement pattern phases i j) (seq 0 n) (fun b Hb => P i b Hi' Hb) R j Hj') as Q. cbv beta in Q. lra. }
    unfold agreement in A. destruct (feature_pm n pattern i H Hi) as [Ei|Ei], (feature_pm n pattern j H Hj) as [Ej|Ej]; rewrite Ei, Ej in *; lra.
  - intros E. apply order_square; auto. replace (INR n * INR n) with (rsum (fun _ => rsum (fun _ => 1) (seq 0 n)) (seq 0 n)) by (rewrite !rsum_const, seq_length; ring).
    apply rsum_ext_in. intros i Hi. apply rsum_ext_in. intros j Hj. apply in_seq in Hi, Hj. unfold agreement. rewrite E by lia.
    destruct (feature_pm n pattern i H ltac:(lia)) as [Ei|Ei], (feature_pm n pattern j H ltac:(lia)) as [Ej|Ej]; rewrite Ei, Ej; lra.
Qed.

(** the order is the same for the inverted pattern and for shifted phases *)
Theorem memory_order_symmetries n pattern phases shift : (0 < n)%nat -> length pattern = n -> length phases = n ->
  memory_order_value n (map Qopp pattern) phases = memory_order_value n pattern phases /\
  memory_order_value n pattern (map (fun t => t + shift) phases) = memory_order_value n pattern phases.
Proof.
  intros Hn L L'. rewrite !order_sum by auto. split; f_equal; f_equal; apply rsum_ext_in; intros i Hi; apply rsum_ext_in; intros j Hj; apply in_seq in Hi, Hj; unfold agreement.
  - assert (F : forall k, (k < n)%nat -> feature (map Qopp pattern) k = - feature pattern k).
    { intros k Hk. unfold feature. rewrite (nth_indep _ 0%Q (- 0)%Q) by (rewrite map_length; lia). rewrite map_nth. apply Q2R_opp. }
    rewrite !F by lia. ring.
  - assert (F : forall k, (k < n)%nat -> nth k (map (fun t => t + shift) phases) 0 = nth k phases 0 + shift).
    { intros k Hk. rewrite (nth_indep _ 0 (0 + shift)) by (rewrite map_length; lia). apply (map_nth (fun t => t + shift)). }
    rewrite !F by lia. f_equal. f_equal. ring.
Qed.

(** the order right after a pattern is loaded *)
Definition ones (pattern : list Q) : nat := length (filter (fun f => Qltb 0 f) pattern).

Lemma loaded_sums n pattern : is_pattern n pattern ->
  rsum (fun k => feature pattern k * cos (rnth (load_pattern pattern) k)) (seq 0 n) = INR (ones pattern) /\
  rsum (fun k => feature pattern k * sin (rnth (load_pattern pattern) k)) (seq 0 n) = - INR (n - ones pattern).
Proof.
  intros [L F]. subst n.
  assert (G : forall g : R -> R, rsum (fun k => feature pattern k * g (rnth (load_pattern pattern) k)) (seq 0 (length pattern)) =
    fold_right (fun f acc => Q2R f * g (if Qltb 0 f then 0 else PI / 2) + acc) 0 pattern).
  { intros g. clear F. induction pattern as [|f t IH]; auto. cbn [length seq rsum fold_right]. unfold feature, rnth in *. cbn [nth load_pattern map]. f_equal.
    rewrite <- IH. rewrite <- seq_shift. unfold rsum. clear. induction (seq 0 (length t)) as [|x l IH]; auto. cbn [map fold_right nth]. now rewrite IH. }
  rewrite !G. clear G. unfold ones. assert (Lle : (length (filter (fun f => Qltb 0 f) pattern) <= length pattern)%nat) by apply filter_length_le.
  induction F as [|f t Hf F IH]; [split; simpl; lra|]. cbn [fold_right filter length]. specialize (IH (filter_length_le _ t)) as [I1 I2].
  pose proof (filter_length_le (fun f => Qltb 0 f) t) as Lt.
  destruct Hf as [E|E].
  - assert (Qltb 0 f = true) as -> by (apply Qltb_true; rewrite E; reflexivity). rewrite (Qeq_eqR _ _ E), I1, I2, cos_0, sin_0. cbn [length]. rewrite S_INR.
    replace (S (length t) - S (length (filter (fun f => Qltb 0 f) t)))%nat with (length t - length (filter (fun f => Qltb 0 f) t))%nat by lia. unfold Q2R. simpl. split; lra.
  - assert (Qltb 0 f = false) as -> by (apply Qltb_false; rewrite E; discriminate). rewrite (Qeq_eqR _ _ E), I1, I2, cos_PI2, sin_PI2.
    replace (S (length t) - length (filter (fun f => Qltb 0 f) t))%nat with (S (length t - length (filter (fun f => Qltb 0 f) t))) by lia. rewrite S_INR. unfold Q2R. simpl. split; lra.
Qed.

Theorem loaded_order n pattern : (0 < n)%nat -> is_pattern n pattern ->
  memory_order_value n pattern (load_pattern pattern) = sqrt (INR (ones pattern) * INR (ones pattern) + INR (n - ones pattern) * INR (n - ones pattern)) / INR n /\
  sqrt (1 / 2) <= memory_order_value n pattern (load_pattern pattern).
Proof.
  intros Hn H. assert (Hp : 0 < INR n) by (apply lt_0_INR; lia).
  assert (Hle : (ones pattern <= n)%nat) by (destruct H as [<- _]; apply filter_length_le).
  unfold memory_order_value. destruct (loaded_sums n pattern H) as [E1 E2].
  rewrite (fold_sum (fun k => feature pattern k * cos (rnth (load_pattern pattern) k))), (fold_sum (fun k => feature pattern k * sin (rnth (load_pattern pattern) k))), E1, E2, !Rplus_0_l.
  assert (Hs : INR n = INR (ones pattern) + INR (n - ones pattern)) by (rewrite <- plus_INR; f_equal; lia).
  set (p := INR (ones pattern)) in *. set (q := INR (n - ones pattern)) in *.
  replace (p / INR n * (p / INR n) + - q / INR n * (- q / INR n)) with ((p * p + q * q) / (INR n * INR n)) by (field; lra).
  split.
  - rewrite sqrt_div by nra. rewrite sqrt_square by lra. reflexivity.
  - apply sqrt_le_1; [lra| |].
    + apply Rmult_le_pos; [nra|]. left. apply Rinv_0_lt_compat. nra.
    + apply (Rmult_le_reg_r (INR n * INR n)); [nra|]. replace ((p * p + q * q) / (INR n * INR n) * (INR n * INR n)) with (p * p + q * q) by (field; lra).
      rewrite Hs. pose proof (Rle_0_sqr (p - q)) as Hsq. unfold Rsqr in Hsq. nra.
Qed.

(** * Dynamics *)
Lemma sin_multiples x : sin x = 0 -> sin (2 * x) = 0 /\ sin (3 * x) = 0.
Proof.
  intros H. assert (E : sin (2 * x) = 0) by (rewrite sin_2a, H; ring). split; auto.
  replace (3 * x) with (2 * x + x) by ring. rewrite sin_plus, H, E. ring.
Qed.

Theorem stationary n coupling s1 s2 phases index : (index < n)%nat ->
  (forall k, (k < n)%nat -> sin (nth k phases 0 - nth index phases 0) = 0) ->
  phase_kuramoto_pr n coupling s1 s2 phases index (nth index phases 0) = 0.
Proof.
  intros Hi H. unfold phase_kuramoto_pr.
  rewrite (fold_sum (fun k => Q2R (entry coupling index k) * sin (rnth phases k - nth index phases 0))),
          (fold_sum (fun k => s1 * sin (2 * (rnth phases k - nth index phases 0)) - s2 * sin (3 * (rnth phases k - nth index phases 0)))).
  set (others := filter _ _). assert (Ho : forall k, In k others -> (k < n)%nat) by (intros k Hk; apply filter_In in Hk as [Hk _]; apply in_seq in Hk; lia).
  rewrite (rsum_ext_in _ (fun _ => 0)), (rsum_ext_in (fun k => s1 * _ - _) (fun _ => 0)).
  - rewrite !rsum_const. lra.
  - intros k Hk. unfold rnth. destruct (sin_multiples _ (H k (Ho k Hk))) as [-> ->]. ring.
  - intros k Hk. unfold rnth. rewrite H by auto. ring.
Qed.

Theorem stationary_step fuel n coupling s1 s2 phases : length phases = n ->
  (forall i k, (i < n)%nat -> (k < n)%nat -> sin (nth k phases 0 - nth i phases 0) = 0) -> (forall i, (i < n)%nat -> 0 <= nth i phases 0 <= 2 * PI) ->
  calculate_phases fuel (phase_kuramoto_pr n coupling s1 s2 phases) phases (seq 0 n) = Ok phases.
Proof.
  intros L H B. assert (G : forall l, (forall i, In i l -> (i < n)%nat) -> calculate_phases fuel (phase_kuramoto_pr n coupling s1 s2 phases) phases l = Ok (map (rnth phases) l)).
  { induction l as [|x l IH]; intros Hl; cbn [calculate_phases map]; auto. assert (Hx : (x < n)%nat) by (apply Hl; now left).
    unfold rnth at 2. rewrite stationary by auto. rewrite Rplus_0_r, normalization_id by (apply B; auto). cbn [bind].
    rewrite IH by (intros; apply Hl; now right). reflexivity. }
  rewrite G by (intros i Hi; apply in_seq in Hi; lia). f_equal. unfold rnth. subst n. clear.
  apply (nth_ext _ _ 0 0); [now rewrite map_length, seq_length|]. intros k Hk. rewrite map_length, seq_length in Hk.
  rewrite (nth_indep _ 0 (nth 0 phases 0)) by (rewrite map_length, seq_length; auto). rewrite (map_nth (fun k => nth k phases 0)). rewrite seq_nth by auto. reflexivity.
Qed.

Theorem drift_zero n coupling s1 s2 phases :
  (forall i k, (i < n)%nat -> (k < n)%nat -> (entry coupling i k == entry coupling k i)%Q) ->
  rsum (fun i => phase_kuramoto_pr n coupling s1 s2 phases i (nth i phases 0)) (seq 0 n) = 0.
Proof.
  intros Hc. set (f := fun i k => if negb (k =? i)%nat then Q2R (entry coupling i k) * sin (nth k phases 0 - nth i phases 0) +
      (s1 * sin (2 * (nth k phases 0 - nth i phases 0)) - s2 * sin (3 * (nth k phases 0 - nth i phases 0))) / INR n else 0).
  rewrite (rsum_ext_in _ (fun i => rsum (fun k => f i k) (seq 0 n))).
  - apply rsum_antisym. intros i j Hi Hj. apply in_seq in Hi, Hj. unfold f. rewrite (Nat.eqb_sym j i). destruct (i =? j)%nat; cbn [negb]; [ring|].
    rewrite (Qeq_eqR _ _ (Hc i j ltac:(lia) ltac:(lia))).
    replace (nth j phases 0 - nth i phases 0) with (- (nth i phases 0 - nth j phases 0)) by ring. set (x := nth i phases 0 - nth j phases 0).
    replace (2 * - x) with (- (2 * x)) by ring. replace (3 * - x) with (- (3 * x)) by ring. rewrite !sin_neg. unfold Rdiv. ring.
  - intros i Hi. unfold phase_kuramoto_pr.
    rewrite (fold_sum (fun k => Q2R (entry coupling i k) * sin (rnth phases k - nth i phases 0))),
          (fold_sum (fun k => s1 * sin (2 * (rnth phases k - nth i phases 0)) - s2 * sin (3 * (rnth phases k - nth i phases 0)))), !Rplus_0_l.
    rewrite !rsum_filter. unfold Rdiv. rewrite (Rmult_comm _ (/ INR n)), <- rsum_scale, <- rsum_plus. apply rsum_ext. intros k. unfold f, rnth.
    destruct (negb (k =? i)%nat); unfold Rdiv; ring.
Qed.

(** * Shared lists of phases *)
Lemma ref_loop_spec next : forall steps m dyn collect m' dyn', (m_phases m < length (m_lists m))%nat -> ref_loop next steps m dyn collect = (m', dyn') ->
  length (m_lists m') = (length (m_lists m) + steps)%nat /\ (m_phases m' < length (m_lists m'))%nat /\
  m_phases m' = (if (steps =? 0)%nat then m_phases m else length (m_lists m) + steps - 1)%nat /\
  dyn' = (if collect then dyn ++ seq (length (m_lists m)) steps else dyn) /\
  (forall r, (r < length (m_lists m))%nat -> nth r (m_lists m') [] = nth r (m_lists m) []).
Proof.
  induction steps as [|k IH]; intros m dyn collect m' dyn' Hm E; cbn [ref_loop] in E.
  - injection E as <- <-. cbn [seq Nat.eqb]. rewrite app_nil_r. destruct collect; repeat split; auto; lia.
  - cbv zeta in E. apply IH in E as (A & B & C & D & F); [|unfold ref_step; cbn [m_lists m_phases]; rewrite app_length; simpl; lia].
    unfold ref_step in *. cbn [m_lists m_phases] in *. rewrite app_length in *. cbn [length] in *. cbn [Nat.eqb seq].
    split; [lia|]. split; [auto|]. split; [destruct k; cbn [Nat.eqb] in C; lia|]. split.
    + destruct collect; auto. rewrite D, <- app_assoc. cbn [app]. now rewrite Nat.add_1_r.
    + intros r Hr. rewrite F by lia. now rewrite app_nth1.
Qed.

Lemma ref_loop_values next : forall steps m dyn collect m' dyn', (m_phases m < length (m_lists m))%nat -> ref_loop next steps m dyn collect = (m', dyn') ->
  (forall k, (k < steps)%nat -> nth (length (m_lists m) + k) (m_lists m') [] = Nat.iter (S k) next (nth (m_phases m) (m_lists m) [])).
Proof.
  induction steps as [|j IH]; intros m dyn collect m' dyn' Hm E k Hk; [lia|]. cbn [ref_loop] in E. cbv zeta in E.
  assert (Hs : (m_phases (ref_step next m) < length (m_lists (ref_step next m)))%nat) by (unfold ref_step; cbn [m_lists m_phases]; rewrite app_length; simpl; lia).
  destruct k as [|k].
  - apply ref_loop_spec in E as (_ & _ & _ & _ & F); auto. rewrite F by (unfold ref_step; cbn [m_lists]; rewrite app_length; simpl; lia).
    unfold ref_step. cbn [m_lists]. rewrite Nat.add_0_r, app_nth2, Nat.sub_diag by lia. reflexivity.
  - pose proof (IH _ _ _ _ _ Hs E k ltac:(lia)) as V. unfold ref_step in V. cbn [m_lists m_phases] in V. rewrite app_length, app_nth2, Nat.sub_diag in V by lia.
    cbn [length nth] in V. replace (length (m_lists m) + S k)%nat with (length (m_lists m) + 1 + k)%nat by lia. rewrite V.
    clear. change (S (S k)) with (S (S k)). generalize (nth (m_phases m) (m_lists m) []). intros x. induction k as [|k IH]; [reflexivity|]. cbn [Nat.iter nat_rect] in *. now rewrite IH.
Qed.

Lemma map_seq_shift {A} (f g : nat -> A) a : forall n s, (forall k, (s <= k < s + n)%nat -> f (a + k)%nat = g k) -> map f (seq (a + s) n) = map g (seq s n).
Proof.
  induction n as [|n IH]; intros s H; auto. cbn [seq map]. f_equal; [apply H; lia|]. rewrite <- Nat.add_succ_r. apply IH. intros; apply H; lia.
Qed.

(** the states of a simulation of [steps] steps *)
Definition states (next : list R -> list R) (steps : nat) (first : list R) : list (list R) := map (fun k => Nat.iter k next first) (seq 0 (S steps)).

Theorem ref_static_spec n next steps pattern collect m m' dyn : (m_phases m < length (m_lists m))%nat ->
  ref_simulate_static n next steps pattern collect m = Ok (m', dyn) ->
  let all := states next steps (load_pattern pattern) in
  read_output m' dyn = (if collect then all else [last all []]) /\
  (m_phases m' < length (m_lists m'))%nat /\
  exists refs, dyn = refs ++ [m_phases m'] /\ ~ In (m_phases m') refs /\ Forall (fun r => (r < length (m_lists m'))%nat) dyn.
Proof.
  intros Hm E. unfold ref_simulate_static in E. destruct (validate_pattern n pattern); cbn [bind] in E; [|discriminate].
  destruct (steps =? 0)%nat eqn:Es; [discriminate|]. apply Nat.eqb_neq in Es.
  set (m0 := mkMemory (upd (m_lists m) (m_phases m) (load_pattern pattern)) (m_phases m)) in *. cbv zeta in E.
  assert (H0 : (m_phases m0 < length (m_lists m0))%nat) by (unfold m0; cbn [m_lists m_phases]; now rewrite upd_length).
  assert (V0 : nth (m_phases m0) (m_lists m0) [] = load_pattern pattern) by (unfold m0; cbn [m_lists m_phases]; now rewrite upd_nth_eq).
  destruct (ref_loop next steps m0 (if collect then [m_phases m0] else []) collect) as [m1 d] eqn:El.
  assert (Em : m1 = m') by (destruct collect; congruence). subst m1.
  pose proof (ref_loop_spec next steps m0 _ collect m' d H0 El) as (A & B & C & D & F).
  pose proof (ref_loop_values next steps m0 _ collect m' d H0 El) as V. rewrite V0 in V.
  destruct (steps =? 0)%nat eqn:Es2; [apply Nat.eqb_eq in Es2; lia|]. clear Es2.
  assert (Hall : map (fun r => nth r (m_lists m') []) (m_phases m0 :: seq (length (m_lists m0)) steps) = states next steps (load_pattern pattern)).
  { unfold states. cbn [seq map]. f_equal; [rewrite F by auto; exact V0|]. rewrite <- seq_shift, map_map.
    rewrite <- (Nat.add_0_r (length (m_lists m0))). apply map_seq_shift. intros k Hk. apply V. lia. }
  assert (Hlast : nth (m_phases m') (m_lists m') [] = last (states next steps (load_pattern pattern)) []).
  { rewrite C. replace (length (m_lists m0) + steps - 1)%nat with (length (m_lists m0) + (steps - 1))%nat by lia. rewrite V by lia.
    unfold states. rewrite seq_S, map_app. cbn [map]. rewrite last_last. cbn [Nat.add]. replace (S (steps - 1)) with steps by lia. reflexivity. }
  destruct collect.
  - apply Ok_inj in E. injection E as E. subst dyn. subst d. cbn [app]. split; [exact Hall|]. split; [exact B|].
    exists (m_phases m0 :: seq (length (m_lists m0)) (steps - 1)). split; [|split].
    + cbn [app]. f_equal. rewrite C. replace steps with (S (steps - 1)) at 1 by lia. rewrite seq_S. f_equal. f_equal. lia.
    + rewrite C. intros [H|H]; [lia|]. apply in_seq in H. lia.
    + constructor; [lia|]. apply Forall_forall. intros r Hr. apply in_seq in Hr. lia.
  - apply Ok_inj in E. injection E as E. subst dyn. subst d. cbn [app]. split; [unfold read_output; cbn [map]; now rewrite Hlast|]. split; [exact B|].
    exists []. split; [reflexivity|]. split; [intros []|]. repeat constructor. exact B.
Qed.

Theorem later_simulation n next steps1 steps2 p1 p2 collect1 collect2 m m1 d1 m2 d2 : (m_phases m < length (m_lists m))%nat ->
  ref_simulate_static n next steps1 p1 collect1 m = Ok (m1, d1) -> ref_simulate_static n next steps2 p2 collect2 m1 = Ok (m2, d2) ->
  read_output m2 d1 = removelast (read_output m1 d1) ++ [load_pattern p2].
Proof.
  intros Hm E1 E2. destruct (ref_static_spec n next steps1 p1 collect1 m m1 d1 Hm E1) as (_ & B & refs & -> & Hn & F).
  unfold ref_simulate_static in E2. destruct (validate_pattern n p2); cbn [bind] in E2; [|discriminate].
  destruct (steps2 =? 0)%nat; [discriminate|]. set (m0 := mkMemory (upd (m_lists m1) (m_phases m1) (load_pattern p2)) (m_phases m1)) in *. cbv zeta in E2.
  assert (H0 : (m_phases m0 < length (m_lists m0))%nat) by (unfold m0; cbn [m_lists m_phases]; now rewrite upd_length).
  destruct (ref_loop next steps2 m0 (if collect2 then [m_phases m0] else []) collect2) as [m3 d] eqn:El.
  assert (Em : m3 = m2) by (destruct collect2; congruence). subst m3.
  pose proof (ref_loop_spec next steps2 m0 _ collect2 m2 d H0 El) as (_ & _ & _ & _ & K).
  assert (Lm : length (m_lists m0) = length (m_lists m1)) by (unfold m0; cbn [m_lists]; apply upd_length).
  unfold read_output. rewrite !map_app. cbn [map]. rewrite removelast_last. f_equal.
  - apply map_ext_in. intros r Hr. rewrite Forall_forall in F. rewrite K by (rewrite Lm; apply F, in_or_app; now left). unfold m0. cbn [m_lists].
    apply upd_nth_neq. intros Heq. apply Hn. congruence.
  - f_equal. rewrite K by auto. unfold m0. cbn [m_lists]. apply upd_nth_eq. auto.
Qed.
