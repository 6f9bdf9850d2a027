(** Distance functions: specification and proofs. *)
From Verif Require Import Base Metric_Model.
From Coq Require Import Reals Lra.
Open Scope R_scope.

(** * Specification *)
Definition crd (p : rpoint) (i : nat) : R := nth i p 0.
(** the sum of [f 0 .. f (D-1)] *)
Definition total (D : nat) (f : nat -> R) : R := fold_right Rplus 0 (map f (seq 0 D)).
(** a metric on the points with [D] coordinates *)
Definition is_metric (D : nat) (d : rpoint -> rpoint -> R) : Prop :=
  forall p q, length p = D -> length q = D ->
    0 <= d p q /\ (d p q = 0 <-> p = q) /\ d p q = d q p /\
    forall r, length r = D -> d p q <= d p r + d r q.

(** * Loops *)
Lemma total_S D f : total (S D) f = f 0%nat + total D (fun i => f (S i)).
Proof. unfold total. cbn [seq map fold_right]. rewrite <- seq_shift, map_map. reflexivity. Qed.
Lemma total_ext D f g : (forall i, (i < D)%nat -> f i = g i) -> total D f = total D g.
Proof. intros H. unfold total. f_equal. apply map_ext_in. intros i Hi. apply in_seq in Hi. apply H. lia. Qed.
Lemma total_le D f g : (forall i, (i < D)%nat -> f i <= g i) -> total D f <= total D g.
Proof.
  revert f g. induction D as [|D IH]; intros f g H; [unfold total; simpl; lra|]. rewrite !total_S. apply Rplus_le_compat; [apply H; lia|]. apply IH. intros i Hi. apply H. lia.
Qed.
Lemma total_plus D f g : total D (fun i => f i + g i) = total D f + total D g.
Proof. revert f g. induction D as [|D IH]; intros f g; [unfold total; simpl; lra|]. rewrite !total_S. rewrite (IH (fun i => f (S i)) (fun i => g (S i))). lra. Qed.
Lemma total_scal D c f : total D (fun i => c * f i) = c * total D f.
Proof. revert f. induction D as [|D IH]; intros f; [unfold total; simpl; lra|]. rewrite !total_S, (IH (fun i => f (S i))). lra. Qed.
Lemma total_zero D : total D (fun _ => 0) = 0.
Proof. induction D as [|D IH]; [reflexivity|]. rewrite total_S, IH. lra. Qed.
Lemma total_pos D f : (forall i, (i < D)%nat -> 0 <= f i) -> 0 <= total D f.
Proof. intros H. rewrite <- (total_zero D). apply total_le. auto. Qed.
Lemma total_zero_iff D f : (forall i, (i < D)%nat -> 0 <= f i) -> (total D f = 0 <-> forall i, (i < D)%nat -> f i = 0).
Proof.
  intros H. split; [|intros Hz; rewrite (total_ext D f (fun _ => 0)) by auto; apply total_zero]. revert f H. induction D as [|D IH]; intros f H E i Hi; [lia|]. rewrite total_S in E.
  assert (P : 0 <= total D (fun i => f (S i))) by (apply total_pos; intros; apply H; lia). pose proof (H 0%nat ltac:(lia)).
  destruct i as [|i]; [lra|]. apply (IH (fun i => f (S i))); [intros; apply H; lia|lra|lia].
Qed.

(** a summing loop *)
Lemma loop_sum f g : (forall d a b, f d a b = d + g a b) -> forall D p q acc, length p = D -> length q = D -> loop f acc p q = Ok (acc + total D (fun i => g (crd p i) (crd q i))).
Proof.
  intros H D. induction D as [|D IH]; intros [|a p] [|b q] acc Hp Hq; try discriminate.
  - unfold total. simpl. f_equal. lra.
  - cbn [loop]. rewrite (IH p q) by (simpl in *; lia). rewrite total_S, H. f_equal. unfold crd. simpl. lra.
Qed.
Lemma points_eq D p q : length p = D -> length q = D -> (p = q <-> forall i, (i < D)%nat -> crd p i = crd q i).
Proof. intros Hp Hq. split; [intros ->; auto|]. intros H. apply (nth_ext p q 0 0); [lia|]. intros i Hi. apply H. lia. Qed.

(** a metric that is the total of metrics on the numbers *)
Lemma total_metric D g : (forall a b, 0 <= g a b) -> (forall a b, g a b = 0 <-> a = b) -> (forall a b, g a b = g b a) -> (forall a b c, g a b <= g a c + g c b) ->
  is_metric D (fun p q => total D (fun i => g (crd p i) (crd q i))).
Proof.
  intros G1 G2 G3 G4 p q Hp Hq. split; [apply total_pos; auto|]. split; [|split].
  - rewrite total_zero_iff by auto. rewrite (points_eq D p q Hp Hq). split; intros H i Hi; apply G2; auto.
  - apply total_ext. auto.
  - intros r Hr. rewrite <- (total_plus D (fun i => g (crd p i) (crd r i)) (fun i => g (crd r i) (crd q i))). apply total_le. auto.
Qed.

(** * Powers and roots *)
Lemma pow_strict n a b : (1 <= n)%nat -> 0 <= a -> a < b -> a ^ n < b ^ n.
Proof.
  intros Hn Ha H. destruct n as [|n]; [lia|]. clear Hn. induction n as [|n IH]; [simpl; lra|].
  change (a * a ^ S n < b * b ^ S n). apply Rmult_le_0_lt_compat; auto. apply pow_le; auto.
Qed.
Lemma pow_inj n a b : (1 <= n)%nat -> 0 <= a -> 0 <= b -> a ^ n = b ^ n -> a = b.
Proof.
  intros Hn Ha Hb E. destruct (Rtotal_order a b) as [H|[H|H]]; auto; exfalso.
  - pose proof (pow_strict n a b Hn Ha H). lra.
  - pose proof (pow_strict n b a Hn Hb H). lra.
Qed.
Lemma pow_le_inv n a b : (1 <= n)%nat -> 0 <= a -> 0 <= b -> a ^ n <= b ^ n -> a <= b.
Proof.
  intros Hn Ha Hb E. destruct (Rle_or_lt a b) as [H|H]; auto. exfalso. assert (P : b ^ n <= a ^ n) by (apply pow_incr; lra). assert (X : a ^ n = b ^ n) by lra. apply pow_inj in X; auto. lra.
Qed.
Lemma root_spec n x : (1 <= n)%nat -> 0 <= x -> exists y, root n x = Ok (Real y) /\ 0 <= y /\ y ^ n = x.
Proof.
  intros Hn Hx. unfold root. destruct (Nat.eqb_spec n 0); [lia|]. destruct (Rlt_dec x 0); [lra|]. destruct (Req_EM_T x 0) as [->|Hne].
  - exists 0. split; auto. split; [lra|]. apply pow_i. lia.
  - eexists. split; [reflexivity|]. assert (P : 0 < Rpower x (/ INR n)) by (apply exp_pos). split; [lra|]. rewrite <- Rpower_pow by auto. rewrite Rpower_mult. rewrite Rinv_l by (apply not_0_INR; lia). apply Rpower_1. lra.
Qed.

(** the powers are convex *)
Lemma pow_convex n t x y : 0 <= t <= 1 -> 0 <= x -> 0 <= y -> (t * x + (1 - t) * y) ^ n <= t * x ^ n + (1 - t) * y ^ n.
Proof.
  intros Ht Hx Hy. induction n as [|n IH]; [simpl; lra|]. cbn [pow].
  assert (P : 0 <= t * x + (1 - t) * y) by (apply Rplus_le_le_0_compat; apply Rmult_le_pos; lra).
  apply Rle_trans with ((t * x + (1 - t) * y) * (t * x ^ n + (1 - t) * y ^ n)); [apply Rmult_le_compat_l; auto|].
  assert (M : 0 <= (x - y) * (x ^ n - y ^ n)).
  { destruct (Rle_or_lt x y) as [H|H].
    - assert (x ^ n <= y ^ n) by (apply pow_incr; lra). replace ((x - y) * (x ^ n - y ^ n)) with ((y - x) * (y ^ n - x ^ n)) by ring. apply Rmult_le_pos; lra.
    - assert (y ^ n <= x ^ n) by (apply pow_incr; lra). apply Rmult_le_pos; lra. }
  assert (Q : 0 <= t * (1 - t) * ((x - y) * (x ^ n - y ^ n))) by (apply Rmult_le_pos; auto; apply Rmult_le_pos; lra). lra.
Qed.

(** Minkowski's inequality *)
Lemma minkowski_inequality D n (u v : nat -> R) A B : (1 <= n)%nat -> (forall i, 0 <= u i) -> (forall i, 0 <= v i) -> 0 <= A -> 0 <= B ->
  total D (fun i => u i ^ n) = A ^ n -> total D (fun i => v i ^ n) = B ^ n -> total D (fun i => (u i + v i) ^ n) <= (A + B) ^ n.
Proof.
  intros Hn Hu Hv HA HB EA EB.
  assert (Z : forall w, (forall i, 0 <= w i) -> total D (fun i => w i ^ n) = 0 ^ n -> forall i, (i < D)%nat -> w i = 0).
  { intros w Hw E i Hi. rewrite pow_i in E by lia. rewrite total_zero_iff in E by (intros; apply pow_le; auto). specialize (E i Hi). apply (pow_inj n); auto; [lra|]. rewrite pow_i by lia. auto. }
  destruct (Req_EM_T A 0) as [->|HA0].
  { rewrite Rplus_0_l, <- EB. right. apply total_ext. intros i Hi. rewrite (Z u Hu EA i Hi), Rplus_0_l. reflexivity. }
  destruct (Req_EM_T B 0) as [->|HB0].
  { rewrite Rplus_0_r, <- EA. right. apply total_ext. intros i Hi. rewrite (Z v Hv EB i Hi), Rplus_0_r. reflexivity. }
  assert (PA : 0 < A) by lra. assert (PB : 0 < B) by lra. set (t := A / (A + B)).
  assert (Ht : 0 <= t <= 1). { unfold t. split; [apply Rmult_le_pos; [lra|left; apply Rinv_0_lt_compat; lra]|]. apply Rmult_le_reg_r with (A + B); [lra|]. unfold Rdiv. rewrite Rmult_assoc, Rinv_l by lra. lra. }
  apply Rle_trans with (total D (fun i => (A + B) ^ n * (t * / A ^ n) * u i ^ n + (A + B) ^ n * ((1 - t) * / B ^ n) * v i ^ n)).
  - apply total_le. intros i _. pose proof (pow_convex n t (u i / A) (v i / B) Ht ltac:(apply Rmult_le_pos; auto; left; apply Rinv_0_lt_compat; lra) ltac:(apply Rmult_le_pos; auto; left; apply Rinv_0_lt_compat; lra)) as C.
    replace (u i + v i) with ((A + B) * (t * (u i / A) + (1 - t) * (v i / B))) by (unfold t; field; lra). rewrite Rpow_mult_distr.
    replace ((A + B) ^ n * (t * / A ^ n) * u i ^ n + (A + B) ^ n * ((1 - t) * / B ^ n) * v i ^ n) with ((A + B) ^ n * (t * (u i / A) ^ n + (1 - t) * (v i / B) ^ n)).
    + apply Rmult_le_compat_l; auto. apply pow_le. lra.
    + unfold Rdiv. rewrite !Rpow_mult_distr, !pow_inv. ring.
  - rewrite (total_plus D (fun i => (A + B) ^ n * (t * / A ^ n) * u i ^ n) (fun i => (A + B) ^ n * ((1 - t) * / B ^ n) * v i ^ n)).
    rewrite (total_scal D _ (fun i => u i ^ n)), (total_scal D _ (fun i => v i ^ n)), EA, EB. right. field. split; apply pow_nonzero; lra.
Qed.

(** the [n]-norm of the difference is a metric *)
Lemma norm_metric D n d : (1 <= n)%nat -> (forall p q, length p = D -> length q = D -> 0 <= d p q /\ d p q ^ n = total D (fun i => Rabs (crd p i - crd q i) ^ n)) -> is_metric D d.
Proof.
  intros Hn H p q Hp Hq. destruct (H p q Hp Hq) as [H1 H2]. split; [auto|]. split; [|split].
  - assert (T : d p q = 0 <-> total D (fun i => Rabs (crd p i - crd q i) ^ n) = 0).
    { rewrite <- H2. split; [intros ->; apply pow_i; lia|]. intros E. apply (pow_inj n); auto; [lra|]. rewrite pow_i by lia. auto. }
    rewrite T, total_zero_iff by (intros; apply pow_le, Rabs_pos). rewrite (points_eq D p q Hp Hq). split; intros E i Hi; specialize (E i Hi).
    + assert (Z : Rabs (crd p i - crd q i) = 0) by (apply (pow_inj n); [auto|apply Rabs_pos|lra|rewrite pow_i by lia; auto]). destruct (Req_EM_T (crd p i - crd q i) 0) as [|Hx]; [lra|]. apply Rabs_no_R0 in Hx. contradiction.
    + rewrite E, Rminus_diag_eq, Rabs_R0 by auto. apply pow_i. lia.
  - destruct (H q p Hq Hp) as [H3 H4]. apply (pow_inj n); auto. rewrite H2, H4. apply total_ext. intros i _. rewrite Rabs_minus_sym. reflexivity.
  - intros r Hr. destruct (H p r Hp Hr) as [H3 H4]. destruct (H r q Hr Hq) as [H5 H6]. apply (pow_le_inv n); auto; [lra|]. rewrite H2.
    apply Rle_trans with (total D (fun i => (Rabs (crd p i - crd r i) + Rabs (crd r i - crd q i)) ^ n)).
    + apply total_le. intros i _. apply pow_incr. split; [apply Rabs_pos|]. replace (crd p i - crd q i) with ((crd p i - crd r i) + (crd r i - crd q i)) by ring. apply Rabs_triang.
    + apply minkowski_inequality; auto; intros; apply Rabs_pos.
Qed.

(** * The functions of the package *)
Lemma euclidean_square_value D p q : length p = D -> length q = D -> euclidean_distance_square p q = Ok (total D (fun i => (crd p i - crd q i) ^ 2)).
Proof. intros Hp Hq. unfold euclidean_distance_square. rewrite (loop_sum _ (fun a b => (a - b) ^ 2) ltac:(reflexivity) D) by auto. rewrite Rplus_0_l. reflexivity. Qed.
Lemma sq_total_pos D p q : 0 <= total D (fun i => (crd p i - crd q i) ^ 2).
Proof. apply total_pos. intros. apply pow2_ge_0. Qed.
Lemma euclidean_value D p q : length p = D -> length q = D -> euclidean_distance p q = Ok (sqrt (total D (fun i => (crd p i - crd q i) ^ 2))).
Proof. intros Hp Hq. unfold euclidean_distance. rewrite (euclidean_square_value D) by auto. reflexivity. Qed.
Lemma euclidean_metric D : is_metric D (fun p q => sqrt (total D (fun i => (crd p i - crd q i) ^ 2))).
Proof.
  apply (norm_metric D 2); [lia|]. intros p q _ _. split; [apply sqrt_pos|]. rewrite <- Rsqr_pow2, Rsqr_sqrt by apply sq_total_pos. apply total_ext. intros i _. symmetry. apply pow2_abs.
Qed.
Lemma manhattan_value D p q : length p = D -> length q = D -> manhattan_distance p q = Ok (total D (fun i => Rabs (crd p i - crd q i))).
Proof. intros Hp Hq. unfold manhattan_distance. rewrite (loop_sum _ (fun a b => Rabs (a - b)) ltac:(reflexivity) D) by auto. rewrite Rplus_0_l. reflexivity. Qed.
Lemma abs_zero x : Rabs x = 0 <-> x = 0.
Proof. split; [|intros ->; apply Rabs_R0]. intros H. destruct (Req_EM_T x 0) as [|Hx]; auto. apply Rabs_no_R0 in Hx. contradiction. Qed.
Lemma abs_metric_triangle a b c : Rabs (a - b) <= Rabs (a - c) + Rabs (c - b).
Proof. replace (a - b) with ((a - c) + (c - b)) by ring. apply Rabs_triang. Qed.
Lemma manhattan_metric D : is_metric D (fun p q => total D (fun i => Rabs (crd p i - crd q i))).
Proof.
  apply (total_metric D (fun a b => Rabs (a - b))); [intros; apply Rabs_pos| |intros; apply Rabs_minus_sym|intros; apply abs_metric_triangle].
  intros a b. rewrite abs_zero. split; intros; lra.
Qed.

(** ** Chebyshev *)
Definition is_largest (D : nat) (f : nat -> R) (m : R) : Prop :=
  (forall i, (i < D)%nat -> f i <= m) /\ ((D = 0%nat /\ m = 0) \/ exists i, (i < D)%nat /\ m = f i).
Lemma chebyshev_loop D : forall p q acc, length p = D -> length q = D -> exists m, loop (fun d a b => Rmax d (Rabs (a - b))) acc p q = Ok m /\
  acc <= m /\ (forall i, (i < D)%nat -> Rabs (crd p i - crd q i) <= m) /\ (m = acc \/ exists i, (i < D)%nat /\ m = Rabs (crd p i - crd q i)).
Proof.
  induction D as [|D IH]; intros [|a p] [|b q] acc Hp Hq; try discriminate.
  - exists acc. simpl. split; auto. split; [lra|]. split; [intros; lia|auto].
  - cbn [loop]. destruct (IH p q (Rmax acc (Rabs (a - b)))) as (m & E & L & A & O); [simpl in *; lia|simpl in *; lia|]. exists m. split; auto.
    pose proof (Rmax_l acc (Rabs (a - b))). pose proof (Rmax_r acc (Rabs (a - b))). split; [lra|]. split.
    + intros [|i] Hi; [unfold crd; simpl; lra|]. apply (A i). lia.
    + destruct O as [->|(i & Hi & ->)]; [|right; exists (S i); split; [lia|reflexivity]]. unfold Rmax. destruct (Rle_dec acc (Rabs (a - b))); auto. right. exists 0%nat. split; [lia|reflexivity].
Qed.
Lemma chebyshev_value D p q : length p = D -> length q = D -> exists m, chebyshev_distance p q = Ok m /\ is_largest D (fun i => Rabs (crd p i - crd q i)) m.
Proof.
  intros Hp Hq. unfold chebyshev_distance. destruct (chebyshev_loop D p q 0 Hp Hq) as (m & E & L & A & O). exists m. split; auto. split; auto.
  destruct O as [->|O]; [|auto]. destruct D as [|D]; [auto|]. right. exists 0%nat. split; [lia|]. pose proof (A 0%nat ltac:(lia)). pose proof (Rabs_pos (crd p 0 - crd q 0)). lra.
Qed.
Lemma largest_unique D f m m' : is_largest D f m -> is_largest D f m' -> m = m'.
Proof.
  intros [A [[-> ->]|(i & Hi & ->)]] [A' [[E ->]|(j & Hj & ->)]]; auto; try lia. apply Rle_antisym; auto.
Qed.
Lemma largest_metric D d : (forall p q, length p = D -> length q = D -> is_largest D (fun i => Rabs (crd p i - crd q i)) (d p q)) -> is_metric D d.
Proof.
  intros H p q Hp Hq. destruct (H p q Hp Hq) as [A O]. assert (P : 0 <= d p q) by (destruct O as [[_ ->]|(i & _ & ->)]; [lra|apply Rabs_pos]). split; auto. split; [|split].
  - rewrite (points_eq D p q Hp Hq). split.
    + intros E i Hi. specialize (A i Hi). cbv beta in A. pose proof (Rabs_pos (crd p i - crd q i)). assert (Z : Rabs (crd p i - crd q i) = 0) by (apply Rle_antisym; [rewrite <- E; exact A|apply Rabs_pos]). apply (proj1 (abs_zero _)) in Z. lra.
    + intros E. destruct O as [[_ ->]|(i & Hi & ->)]; auto. apply abs_zero. rewrite (E i Hi). lra.
  - apply (largest_unique D (fun i => Rabs (crd p i - crd q i))); [split; auto|]. destruct (H q p Hq Hp) as [A' O']. split; [intros i Hi; rewrite Rabs_minus_sym; auto|]. destruct O' as [|(i & Hi & E)]; auto. right. exists i. split; auto. rewrite Rabs_minus_sym. auto.
  - intros r Hr. destruct (H p r Hp Hr) as [A1 O1]. destruct (H r q Hr Hq) as [A2 O2]. destruct O as [[-> ->]|(i & Hi & ->)].
    + destruct O1 as [[_ ->]|(i & Hi & _)]; [|lia]. destruct O2 as [[_ ->]|(i & Hi & _)]; [lra|lia].
    + pose proof (abs_metric_triangle (crd p i) (crd q i) (crd r i)). specialize (A1 i Hi). specialize (A2 i Hi). cbv beta in A1, A2. lra.
Qed.

(** ** Minkowski *)
Lemma minkowski_sum D n p q : length p = D -> length q = D -> minkowski_distance p q n = root n (total D (fun i => (crd p i - crd q i) ^ n)).
Proof. intros Hp Hq. unfold minkowski_distance. rewrite (loop_sum _ (fun a b => (a - b) ^ n) ltac:(reflexivity) D) by auto. rewrite Rplus_0_l. reflexivity. Qed.
Lemma even_abs n x : Nat.Even n -> Rabs x ^ n = x ^ n.
Proof. intros [k ->]. rewrite !pow_mult, pow2_abs. reflexivity. Qed.
Lemma minkowski_even D n p q : (1 <= n)%nat -> Nat.Even n -> length p = D -> length q = D ->
  exists r, minkowski_distance p q n = Ok (Real r) /\ 0 <= r /\ r ^ n = total D (fun i => Rabs (crd p i - crd q i) ^ n).
Proof.
  intros Hn He Hp Hq. rewrite (minkowski_sum D) by auto. replace (total D (fun i => (crd p i - crd q i) ^ n)) with (total D (fun i => Rabs (crd p i - crd q i) ^ n)) by (apply total_ext; intros; apply even_abs; auto).
  apply root_spec; auto. apply total_pos. intros. apply pow_le, Rabs_pos.
Qed.

(** ** Canberra *)
Definition canb (a b : R) : R := if Req_EM_T (Rabs a + Rabs b) 0 then 0 else Rabs (a - b) / (Rabs a + Rabs b).
Lemma sum_abs a b : (a = 0 /\ b = 0 /\ Rabs a + Rabs b = 0) \/ 0 < Rabs a + Rabs b.
Proof. pose proof (Rabs_pos a). pose proof (Rabs_pos b). destruct (Req_EM_T (Rabs a + Rabs b) 0) as [E|E]; [|right; lra]. left. split; [apply abs_zero; lra|]. split; [apply abs_zero; lra|auto]. Qed.
Lemma canb_bounds a b : 0 <= canb a b <= 1.
Proof.
  unfold canb. destruct (Req_EM_T (Rabs a + Rabs b) 0) as [|Hn]; [lra|]. destruct (sum_abs a b) as [(_ & _ & E)|P]; [contradiction|]. split.
  - apply Rmult_le_pos; [apply Rabs_pos|left; apply Rinv_0_lt_compat; auto].
  - apply Rmult_le_reg_r with (Rabs a + Rabs b); auto. unfold Rdiv. rewrite Rmult_assoc, Rinv_l by auto. pose proof (Rabs_triang a (- b)). rewrite Rabs_Ropp in H. unfold Rminus. lra.
Qed.
Lemma canb_zero a b : canb a b = 0 <-> a = b.
Proof.
  unfold canb. destruct (sum_abs a b) as [(-> & -> & E)|P].
  - destruct (Req_EM_T (Rabs 0 + Rabs 0) 0); [tauto|contradiction].
  - destruct (Req_EM_T (Rabs a + Rabs b) 0); [lra|]. split; [|intros ->; rewrite Rminus_diag_eq, Rabs_R0 by auto; unfold Rdiv; ring].
    intros H. assert (Z : Rabs (a - b) = 0). { apply Rmult_eq_reg_r with (/ (Rabs a + Rabs b)); [unfold Rdiv in H; lra|]. apply Rinv_neq_0_compat. auto. } apply (proj1 (abs_zero _)) in Z. lra.
Qed.
Lemma canb_sym a b : canb a b = canb b a.
Proof. unfold canb. rewrite (Rplus_comm (Rabs a)), (Rabs_minus_sym a). reflexivity. Qed.
Lemma canb_opp a b : canb (- a) (- b) = canb a b.
Proof. unfold canb. rewrite !Rabs_Ropp. replace (- a - - b) with (- (a - b)) by ring. rewrite Rabs_Ropp. reflexivity. Qed.
Lemma canb_far a b : a * b <= 0 -> ~ (a = 0 /\ b = 0) -> canb a b = 1.
Proof.
  intros H Hn. unfold canb. destruct (sum_abs a b) as [(-> & -> & _)|P]; [exfalso; apply Hn; auto|]. destruct (Req_EM_T (Rabs a + Rabs b) 0); [lra|].
  replace (Rabs (a - b)) with (Rabs a + Rabs b); [field; auto|]. unfold Rabs.
  assert (Z : 0 <= a -> 0 <= b -> a = 0 \/ b = 0) by (intros A B; apply Rmult_integral; pose proof (Rmult_le_pos a b A B); lra).
  assert (Z' : a < 0 -> 0 <= b) by (intros A; destruct (Rle_or_lt 0 b); [auto|exfalso; nra]).
  destruct (Rcase_abs a), (Rcase_abs b), (Rcase_abs (a - b)); try lra; destruct Z; lra.
Qed.
Lemma canb_pos a b : 0 < a -> a <= b -> canb a b = (b - a) / (a + b).
Proof.
  intros Ha Hb. unfold canb. rewrite (Rabs_right a), (Rabs_right b) by lra. destruct (Req_EM_T (a + b) 0); [lra|]. rewrite Rabs_left1 by lra. f_equal. ring.
Qed.
Lemma div_le a b c d : 0 < b -> 0 < d -> a * d <= c * b -> a / b <= c / d.
Proof.
  intros Hb Hd H. apply Rmult_le_reg_r with b; auto. unfold Rdiv. rewrite Rmult_assoc, Rinv_l by lra. apply Rmult_le_reg_r with d; auto.
  replace (c * / d * b * d) with (c * b * (/ d * d)) by ring. rewrite Rinv_l by lra. lra.
Qed.
Lemma canb_triangle_pos a b c : 0 < a -> a <= b -> canb a b <= canb a c + canb c b.
Proof.
  intros Ha Hb. destruct (Rle_or_lt c 0) as [Hc|Hc].
  - pose proof (canb_bounds a b). pose proof (canb_bounds c b). rewrite (canb_far a c) by (nra || lra). lra.
  - destruct (Rle_or_lt c a) as [H1|H1].
    + pose proof (canb_bounds a c). assert (canb a b <= canb c b); [|lra]. rewrite !canb_pos by lra. apply div_le; nra.
    + destruct (Rle_or_lt b c) as [H2|H2].
      * pose proof (canb_bounds c b). assert (canb a b <= canb a c); [|lra]. rewrite !canb_pos by lra. apply div_le; nra.
      * rewrite !canb_pos by lra. assert (E : (c - a) / (a + c) + (b - c) / (c + b) - (b - a) / (a + b) = (c - a) * (b - c) * (b - a) / ((a + c) * (c + b) * (a + b))) by (field; lra).
        assert (P : 0 <= (c - a) * (b - c) * (b - a) / ((a + c) * (c + b) * (a + b))). { apply Rmult_le_pos; [apply Rmult_le_pos; [apply Rmult_le_pos|]; lra|]. left. apply Rinv_0_lt_compat. apply Rmult_lt_0_compat; [apply Rmult_lt_0_compat|]; lra. } lra.
Qed.
Lemma canb_triangle a b c : canb a b <= canb a c + canb c b.
Proof.
  pose proof (canb_bounds a b) as B1. pose proof (canb_bounds a c) as B2. pose proof (canb_bounds c b) as B3.
  destruct (Rle_or_lt (a * b) 0) as [H|H].
  - destruct (Req_EM_T a 0) as [->|Ha], (Req_EM_T b 0) as [->|Hb].
    + rewrite (proj2 (canb_zero 0 0) eq_refl). lra.
    + destruct (Req_EM_T c 0) as [->|Hc]; [lra|]. rewrite (canb_far 0 c) by (lra || tauto). lra.
    + destruct (Req_EM_T c 0) as [->|Hc]; [lra|]. rewrite (canb_far c 0) by (lra || tauto). lra.
    + destruct (Rle_or_lt (a * c) 0) as [H1|H1]; [rewrite (canb_far a c) by (lra || tauto); lra|]. rewrite (canb_far c b); [lra| |tauto].
      destruct (Rlt_or_le a 0), (Rlt_or_le c 0), (Rlt_or_le b 0); nra.
  - destruct (Rlt_or_le 0 a) as [Ha|Ha].
    + assert (0 < b) by nra. destruct (Rle_or_lt a b); [apply canb_triangle_pos; auto|]. rewrite (canb_sym a b), (canb_sym a c), (canb_sym c b), Rplus_comm. apply canb_triangle_pos; lra.
    + assert (a < 0) by (destruct (Req_EM_T a 0) as [->|]; [lra|lra]). assert (b < 0) by nra. rewrite <- (canb_opp a b), <- (canb_opp a c), <- (canb_opp c b).
      destruct (Rle_or_lt (- a) (- b)); [apply canb_triangle_pos; lra|]. rewrite (canb_sym (- a) (- b)), (canb_sym (- a)), (canb_sym _ (- b)), Rplus_comm. apply canb_triangle_pos; lra.
Qed.
Lemma canberra_value D p q : length p = D -> length q = D -> canberra_distance p q = Ok (total D (fun i => canb (crd p i) (crd q i))).
Proof.
  intros Hp Hq. unfold canberra_distance. rewrite (loop_sum _ canb) with (D := D); auto; [rewrite Rplus_0_l; reflexivity|]. intros d a b. unfold canb. cbv zeta. destruct (Req_EM_T _ 0); lra.
Qed.
Lemma canberra_metric D : is_metric D (fun p q => total D (fun i => canb (crd p i) (crd q i))).
Proof. apply (total_metric D canb); [intros; apply canb_bounds|apply canb_zero|apply canb_sym|apply canb_triangle]. Qed.

(** ** Chi square *)
Definition chi (a b : R) : R := if Req_EM_T (Rabs a + Rabs b) 0 then 0 else (a - b) ^ 2 / (Rabs a + Rabs b).
Lemma chi_value D p q : length p = D -> length q = D -> chi_square_distance p q = Ok (total D (fun i => chi (crd p i) (crd q i))).
Proof.
  intros Hp Hq. unfold chi_square_distance. rewrite (loop_sum _ chi) with (D := D); auto; [rewrite Rplus_0_l; reflexivity|]. intros d a b. unfold chi. cbv zeta. destruct (Req_EM_T _ 0); lra.
Qed.
Lemma chi_nonneg a b : 0 <= chi a b.
Proof. unfold chi. destruct (Req_EM_T _ 0); [lra|]. destruct (sum_abs a b) as [(_ & _ & E)|P]; [contradiction|]. apply Rmult_le_pos; [apply pow2_ge_0|left; apply Rinv_0_lt_compat; auto]. Qed.
Lemma chi_zero a b : chi a b = 0 <-> a = b.
Proof.
  unfold chi. destruct (sum_abs a b) as [(-> & -> & E)|P].
  - destruct (Req_EM_T (Rabs 0 + Rabs 0) 0); [tauto|contradiction].
  - destruct (Req_EM_T (Rabs a + Rabs b) 0); [lra|]. split; [|intros ->; unfold Rdiv; ring].
    intros H. assert (Z : (a - b) ^ 2 = 0). { apply Rmult_eq_reg_r with (/ (Rabs a + Rabs b)); [unfold Rdiv in H; lra|]. apply Rinv_neq_0_compat. auto. } nra.
Qed.
Lemma chi_sym a b : chi a b = chi b a.
Proof. unfold chi. rewrite (Rplus_comm (Rabs a)). replace ((a - b) ^ 2) with ((b - a) ^ 2) by ring. reflexivity. Qed.

(** ** Gower *)
Definition gow (m a b : R) : R := if Req_EM_T m 0 then 0 else Rabs (a - b) / m.
Lemma gower_loop_value D : forall p q m acc, length p = D -> length q = D -> length m = D -> gower_loop acc p q m = Ok (acc + total D (fun i => gow (crd m i) (crd p i) (crd q i))).
Proof.
  induction D as [|D IH]; intros [|a p] [|b q] [|c m] acc Hp Hq Hm; try discriminate.
  - unfold total. simpl. f_equal. lra.
  - cbn [gower_loop tl]. rewrite total_S. unfold crd at 1 2 3. cbn [nth]. unfold gow at 1. destruct (Req_EM_T c 0); rewrite IH by (simpl in *; lia); f_equal; unfold crd; simpl; lra.
Qed.
Lemma gower_value D p q m : (1 <= D)%nat -> length p = D -> length q = D -> length m = D -> gower_distance p q m = Ok (total D (fun i => gow (crd m i) (crd p i) (crd q i)) / INR D).
Proof.
  intros HD Hp Hq Hm. unfold gower_distance. rewrite (gower_loop_value D) by auto. cbn [bind]. rewrite Hp. destruct (Nat.eqb_spec D 0); [lia|]. rewrite Rplus_0_l. reflexivity.
Qed.
Lemma INR_pos D : (1 <= D)%nat -> 0 < INR D.
Proof. intros H. apply lt_0_INR. lia. Qed.
Lemma gow_nonneg m a b : 0 <= m -> 0 <= gow m a b.
Proof. intros H. unfold gow. destruct (Req_EM_T m 0); [lra|]. apply Rmult_le_pos; [apply Rabs_pos|left; apply Rinv_0_lt_compat; lra]. Qed.
Lemma gow_sym m a b : gow m a b = gow m b a.
Proof. unfold gow. rewrite Rabs_minus_sym. reflexivity. Qed.
Lemma gow_triangle m a b c : 0 <= m -> gow m a b <= gow m a c + gow m c b.
Proof.
  intros H. unfold gow. destruct (Req_EM_T m 0); [lra|]. unfold Rdiv. rewrite <- Rmult_plus_distr_r. apply Rmult_le_compat_r; [left; apply Rinv_0_lt_compat; lra|apply abs_metric_triangle].
Qed.
Lemma gow_zero m a b : 0 <= m -> (m = 0 -> a = b) -> (gow m a b = 0 <-> a = b).
Proof.
  intros H Hz. unfold gow. destruct (Req_EM_T m 0) as [E|E]; [tauto|]. split; [|intros ->; rewrite Rminus_diag_eq, Rabs_R0 by auto; unfold Rdiv; ring].
  intros G. assert (Z : Rabs (a - b) = 0). { apply Rmult_eq_reg_r with (/ m); [unfold Rdiv in G; lra|]. apply Rinv_neq_0_compat. auto. } apply (proj1 (abs_zero _)) in Z. lra.
Qed.
Lemma gow_le1 m a b : Rabs (a - b) <= m -> gow m a b <= 1.
Proof.
  intros H. unfold gow. destruct (Req_EM_T m 0); [lra|]. pose proof (Rabs_pos (a - b)). apply Rmult_le_reg_r with m; [lra|]. unfold Rdiv. rewrite Rmult_assoc, Rinv_l by auto. lra.
Qed.

(** the points of a set [P] as a metric space *)
Definition is_metric_on (P : rpoint -> Prop) (d : rpoint -> rpoint -> R) : Prop :=
  forall p q, P p -> P q -> 0 <= d p q /\ (d p q = 0 <-> p = q) /\ d p q = d q p /\ forall r, P r -> d p q <= d p r + d r q.
Lemma gower_metric D m (P : rpoint -> Prop) : (1 <= D)%nat -> (forall p, P p -> length p = D) -> (forall i, (i < D)%nat -> 0 <= crd m i) ->
  (forall i p q, (i < D)%nat -> P p -> P q -> crd m i = 0 -> crd p i = crd q i) ->
  is_metric_on P (fun p q => total D (fun i => gow (crd m i) (crd p i) (crd q i)) / INR D).
Proof.
  intros HD HP Hm Hz p q Pp Pq. pose proof (INR_pos D HD) as ND. assert (NI : 0 < / INR D) by (apply Rinv_0_lt_compat; auto).
  assert (N : forall p q i, (i < D)%nat -> 0 <= gow (crd m i) (crd p i) (crd q i)) by (intros; apply gow_nonneg; auto).
  split; [apply Rmult_le_pos; [apply total_pos; auto|lra]|]. split; [|split].
  - rewrite (points_eq D p q (HP p Pp) (HP q Pq)). transitivity (total D (fun i => gow (crd m i) (crd p i) (crd q i)) = 0).
    + split; [|intros ->; unfold Rdiv; ring]. intros E. apply Rmult_eq_reg_r with (/ INR D); [unfold Rdiv in E; lra|lra].
    + rewrite total_zero_iff by auto. split; intros E i Hi; specialize (E i Hi); [apply gow_zero in E|apply gow_zero]; auto.
  - f_equal. apply total_ext. intros. apply gow_sym.
  - intros r Pr. unfold Rdiv. rewrite <- Rmult_plus_distr_r. apply Rmult_le_compat_r; [lra|]. rewrite <- (total_plus D (fun i => gow (crd m i) (crd p i) (crd r i)) (fun i => gow (crd m i) (crd r i) (crd q i))). apply total_le. intros i Hi. apply gow_triangle. auto.
Qed.

Lemma map2_length {A B C} (f : A -> B -> C) D : forall l m, length l = D -> length m = D -> length (map2 f l m) = D.
Proof. induction D as [|D IH]; intros [|a l] [|b m] Hl Hm; try discriminate; auto. simpl. f_equal. apply IH; simpl in *; lia. Qed.
Lemma map2_crd f D : forall l m i, length l = D -> length m = D -> (i < D)%nat -> crd (map2 f l m) i = f (crd l i) (crd m i).
Proof. induction D as [|D IH]; intros [|a l] [|b m] i Hl Hm Hi; try discriminate; [lia|]. destruct i as [|i]; [reflexivity|]. apply (IH l m i); simpl in *; lia. Qed.
Lemma range_fold D t : forall p, length p = D -> (forall q, In q t -> length q = D) ->
  length (fold_left (map2 Rmax) t p) = D /\ length (fold_left (map2 Rmin) t p) = D /\
  forall i, (i < D)%nat -> forall q, In q (p :: t) -> crd (fold_left (map2 Rmin) t p) i <= crd q i <= crd (fold_left (map2 Rmax) t p) i.
Proof.
  enough (G : forall t p p', length p = D -> length p' = D -> (forall q, In q t -> length q = D) ->
    length (fold_left (map2 Rmax) t p) = D /\ length (fold_left (map2 Rmin) t p') = D /\
    forall i, (i < D)%nat -> (crd (fold_left (map2 Rmin) t p') i <= crd p' i /\ crd p i <= crd (fold_left (map2 Rmax) t p) i) /\ forall q, In q t -> crd (fold_left (map2 Rmin) t p') i <= crd q i <= crd (fold_left (map2 Rmax) t p) i).
  { intros p Hp Ht. destruct (G t p p Hp Hp Ht) as (A & B & C). split; auto. split; auto. intros i Hi q Hq. destruct (C i Hi) as [C1 C2]. destruct Hq as [<-|Hq]; [exact C1|apply C2; auto]. }
  clear. induction t as [|q t IH]; intros p p' Hp Hp' Ht; cbn [fold_left]; [split; auto; split; auto; intros i Hi; split; [lra|intros q []]|].
  assert (Hq : length q = D) by (apply Ht; left; auto).
  destruct (IH (map2 Rmax p q) (map2 Rmin p' q)) as (A & B & C); [apply map2_length; auto|apply map2_length; auto|intros; apply Ht; right; auto|]. split; auto. split; auto. intros i Hi. destruct (C i Hi) as ((C1 & C2) & C3).
  rewrite (map2_crd Rmin D) in C1 by auto. rewrite (map2_crd Rmax D) in C2 by auto.
  pose proof (Rmin_l (crd p' i) (crd q i)). pose proof (Rmin_r (crd p' i) (crd q i)). pose proof (Rmax_l (crd p i) (crd q i)). pose proof (Rmax_r (crd p i) (crd q i)).
  split; [lra|]. intros x [<-|Hx]; [lra|auto].
Qed.
Lemma gower_range_spec D data : data <> [] -> (forall p, In p data -> length p = D) ->
  exists m, gower_range data = Ok m /\ length m = D /\ forall i p q, (i < D)%nat -> In p data -> In q data -> Rabs (crd p i - crd q i) <= crd m i.
Proof.
  intros Hne Hd. destruct data as [|p0 t]; [congruence|]. destruct (range_fold D t p0) as (A & B & C); [apply Hd; left; auto|intros; apply Hd; right; auto|].
  cbn [gower_range]. eexists. split; [reflexivity|]. split; [apply map2_length; auto|]. intros i p q Hi Hp Hq. rewrite (map2_crd Rminus D) by auto. pose proof (C i Hi p Hp). pose proof (C i Hi q Hq). unfold Rabs. destruct (Rcase_abs _); lra.
Qed.

(** ** the numpy versions *)
Lemma nsum_total D g : forall p q, length p = D -> length q = D -> nsum (map2 g p q) = total D (fun i => g (crd p i) (crd q i)).
Proof.
  assert (F : forall l acc, fold_left Rplus l acc = acc + nsum l).
  { unfold nsum. induction l as [|x l IH]; intros acc; cbn [fold_left]; [lra|]. rewrite IH, (IH (0 + x)). lra. }
  induction D as [|D IH]; intros [|a p] [|b q] Hp Hq; try discriminate; [reflexivity|]. rewrite total_S. cbn [map2]. unfold nsum. cbn [fold_left]. rewrite F, (IH p q) by (simpl in *; lia). unfold crd. simpl. lra.
Qed.
Lemma spread_same {A : Type} n (l : list A) : length l = n -> spread n l = l.
Proof. destruct l as [|x [|y l]]; simpl; intros <-; reflexivity. Qed.
Lemma elementwise_ok D f p q : length p = D -> length q = D -> elementwise f p q = Ok (map2 f p q).
Proof. intros Hp Hq. unfold elementwise, bdim. rewrite Hp, Hq, Nat.eqb_refl. cbn [bind]. rewrite !spread_same by auto. reflexivity. Qed.
Lemma max_fold l : forall x, (forall y, In y (x :: l) -> 0 <= y) -> fold_left Rmax l x = fold_left Rmax (x :: l) 0.
Proof. intros x H. cbn [fold_left]. rewrite Rmax_right by (apply H; left; auto). reflexivity. Qed.
Lemma loop_max D : forall p q acc, length p = D -> length q = D -> loop (fun d a b => Rmax d (Rabs (a - b))) acc p q = Ok (fold_left Rmax (map2 (fun a b => Rabs (a - b)) p q) acc).
Proof. induction D as [|D IH]; intros [|a p] [|b q] acc Hp Hq; try discriminate; auto. cbn [loop map2 fold_left]. apply IH; simpl in *; lia. Qed.
Lemma map2_nonneg p : forall q y, In y (map2 (fun a b => Rabs (a - b)) p q) -> 0 <= y.
Proof. induction p as [|a p IH]; intros [|b q] y H; try destruct H. - subst. apply Rabs_pos. - apply (IH q). auto. Qed.

Definition same_ranges (t : type_metric) (p q : rpoint) : Prop :=
  match t with GOWER m => length m = length p /\ forall i, (i < length p)%nat -> crd m i = 0 -> crd p i = crd q i | _ => True end.
Lemma numpy_agrees big t p q : p <> [] -> length p = length q -> same_ranges t p q -> distance_numpy big t p q = distance_basic t p q.
Proof.
  intros Hne Hl Hs. set (D := length p) in *. assert (Hp : length p = D) by reflexivity. assert (Hq : length q = D) by auto.
  assert (HD : (1 <= D)%nat) by (unfold D; destruct p; [congruence|simpl; lia]).
  destruct t as [| | | |n| | |m]; cbn [distance_numpy distance_basic].
  - unfold euclidean_distance_numpy, euclidean_distance_square_numpy. rewrite (elementwise_ok D) by auto. cbn [bind]. rewrite (nsum_total D (fun a b => (a - b) ^ 2)), (euclidean_value D) by auto. reflexivity.
  - unfold euclidean_distance_square_numpy. rewrite (elementwise_ok D) by auto. cbn [bind]. rewrite (nsum_total D (fun a b => (a - b) ^ 2)), (euclidean_square_value D) by auto. reflexivity.
  - unfold manhattan_distance_numpy. rewrite (elementwise_ok D) by auto. cbn [bind]. rewrite (nsum_total D (fun a b => Rabs (a - b))), (manhattan_value D) by auto. reflexivity.
  - unfold chebyshev_distance_numpy, chebyshev_distance. rewrite (elementwise_ok D), (loop_max D) by auto. cbn [bind]. pose proof (map2_nonneg p q) as N. assert (L : length (map2 (fun a b => Rabs (a - b)) p q) = D) by (apply map2_length; auto).
    destruct (map2 _ p q) as [|x l]; [simpl in L; lia|]. rewrite (max_fold l x) by auto. reflexivity.
  - unfold minkowski_distance_numpy. rewrite (elementwise_ok D) by auto. cbn [bind]. rewrite (nsum_total D (fun a b => (a - b) ^ n)), (minkowski_sum D) by auto. reflexivity.
  - unfold canberra_distance_numpy. rewrite (elementwise_ok D) by auto. cbn [bind]. rewrite (nsum_total D (fun a b => nan_divide big (Rabs (a - b)) (Rabs a + Rabs b))), (canberra_value D) by auto. do 2 f_equal. apply total_ext. intros i _.
    unfold nan_divide, canb. destruct (Req_EM_T _ 0) as [E|E]; auto. destruct (Req_EM_T _ 0) as [E'|E']; auto. exfalso. apply E'. destruct (sum_abs (crd p i) (crd q i)) as [(-> & -> & _)|P]; [rewrite Rminus_0_r; apply Rabs_R0|lra].
  - unfold chi_square_distance_numpy. rewrite (elementwise_ok D) by auto. cbn [bind]. rewrite (nsum_total D (fun a b => nan_divide big ((a - b) ^ 2) (Rabs a + Rabs b))), (chi_value D) by auto. do 2 f_equal. apply total_ext. intros i _.
    unfold nan_divide, chi. destruct (Req_EM_T (Rabs _ + _) 0) as [E|E]; auto. destruct (Req_EM_T _ 0) as [E'|E']; auto. exfalso. apply E'. destruct (sum_abs (crd p i) (crd q i)) as [(-> & -> & _)|P]; [ring|lra].
  - destruct Hs as [Hm Hz]. fold D in Hm, Hz. unfold gower_distance_numpy. rewrite (elementwise_ok D) by auto. cbn [bind]. rewrite (elementwise_ok D) by (auto; apply map2_length; auto). cbn [bind]. rewrite (gower_value D) by auto.
    fold D. destruct (Nat.eqb_spec D 0); [lia|]. rewrite (nsum_total D (nan_divide big)) by (auto; apply map2_length; auto). cbn [real bind]. do 3 f_equal. apply total_ext. intros i Hi. rewrite (map2_crd (fun a b => Rabs (a - b)) D) by auto.
    unfold nan_divide, gow. destruct (Req_EM_T (crd m i) 0) as [E|E]; auto. destruct (Req_EM_T _ 0) as [E'|E']; auto. exfalso. apply E'. rewrite (Hz i Hi E), Rminus_diag_eq by auto. apply Rabs_R0.
Qed.

(** ** distance matrices *)
Lemma map_res_ok {A B} (f : A -> res B) (g : A -> B) l : (forall x, In x l -> f x = Ok (g x)) -> map_res f l = Ok (map g l).
Proof. induction l as [|x l IH]; intros H; auto. cbn [map_res map]. rewrite (H x) by (left; auto). cbn [bind]. rewrite IH by (intros; apply H; right; auto). reflexivity. Qed.
Lemma matrix_spec sample metric d : (forall i j, (i < length sample)%nat -> (j < length sample)%nat -> metric (nth i sample []) (nth j sample []) = Ok (d (nth i sample []) (nth j sample []))) ->
  exists m, calculate_distance_matrix sample metric = Ok m /\ length m = length sample /\ forall i, (i < length sample)%nat -> length (nth i m []) = length sample /\
    forall j, (j < length sample)%nat -> nth j (nth i m []) NotReal = d (nth i sample []) (nth j sample []).
Proof.
  intros H. unfold calculate_distance_matrix. set (n := length sample).
  rewrite (map_res_ok _ (fun i => map (fun j => d (nth i sample []) (nth j sample [])) (seq 0 n))).
  - eexists. split; [reflexivity|]. split; [rewrite map_length, seq_length; auto|]. intros i Hi. set (f := fun i => map _ _). rewrite (nth_indep _ [] (f 0%nat)) by (rewrite map_length, seq_length; auto). rewrite map_nth, seq_nth by auto. unfold f. cbn [plus].
    split; [rewrite map_length, seq_length; auto|]. intros j Hj. set (g := fun j => d _ _). rewrite (nth_indep _ NotReal (g 0%nat)) by (rewrite map_length, seq_length; auto). rewrite map_nth, seq_nth by auto. reflexivity.
  - intros i Hi. apply in_seq in Hi. apply map_res_ok. intros j Hj. apply in_seq in Hj. apply H; [apply Hi|apply Hj].
Qed.
