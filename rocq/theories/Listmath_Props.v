(** C276: arithmetic of lists and the length of vectors. *)
From Verif Require Import Base Listmath_Model Metric_Model Metric_Proofs.
From Coq Require Import Reals Lra Lia.
Local Open Scope R_scope.

(** ** specification *)
Definition at_ (l : list R) (i : nat) : R := nth i l 0.
(** [c] has the size of [a] and holds the results of the operation *)
Definition entrywise (op : R -> R -> R) (a b c : list R) : Prop := length c = length a /\ forall i, (i < length a)%nat -> at_ c i = op (at_ a i) (at_ b i).
Definition with_number (op : R -> R -> R) (a : list R) (b : R) (c : list R) : Prop := length c = length a /\ forall i, (i < length a)%nat -> at_ c i = op (at_ a i) b.

(** ** helpers *)
Lemma pairwise_ok op : forall a b, (length a <= length b)%nat -> exists c, pairwise (fun x y => Ok (op x y)) a b = Ok c /\ entrywise op a b c.
Proof.
  induction a as [|x a IH]; intros [|y b] H; cbn [length] in H; try lia; cbn [pairwise].
  - exists []. repeat split. cbn. lia.
  - exists []. repeat split. cbn. lia.
  - destruct (IH b ltac:(lia)) as (c & E & L & V). exists (op x y :: c). cbn [bind]. rewrite E. split; [reflexivity|]. split; [cbn; lia|]. intros [|i] Hi; [reflexivity|]. apply V. cbn in Hi. lia.
Qed.
Lemma pairwise_short op : forall a b, (length b < length a)%nat -> pairwise (fun x y => Ok (op x y)) a b = Raise IndexError.
Proof. induction a as [|x a IH]; intros [|y b] H; cbn [length] in H; try lia; cbn [pairwise]; [reflexivity|]. cbn [bind]. rewrite IH by lia. reflexivity. Qed.
Lemma each_ok op b : forall a, exists c, each (fun x => Ok (op x b)) a = Ok c /\ with_number op a b c.
Proof.
  induction a as [|x a (c & E & L & V)]; cbn [each]; [exists []; repeat split; cbn; lia|]. cbn [bind]. rewrite E. exists (op x b :: c). split; [reflexivity|]. split; [cbn; lia|]. intros [|i] Hi; [reflexivity|]. apply V. cbn in Hi. lia.
Qed.
Lemma list_eq_at : forall a b : list R, length a = length b -> (forall i, (i < length a)%nat -> at_ a i = at_ b i) -> a = b.
Proof. intros a b L H. apply (nth_ext a b 0 0 L). exact H. Qed.

(** sums, differences and products of lists: the second list may be longer, not shorter *)
Theorem C276_lists a b : 
  (if (length a <=? length b)%nat then
     (exists c, list_math_addition a b = Ok c /\ entrywise Rplus a b c) /\ (exists c, list_math_subtraction a b = Ok c /\ entrywise Rminus a b c) /\ (exists c, list_math_multiplication a b = Ok c /\ entrywise Rmult a b c)
   else list_math_addition a b = Raise IndexError /\ list_math_subtraction a b = Raise IndexError /\ list_math_multiplication a b = Raise IndexError).
Proof.
  destruct (Nat.leb_spec (length a) (length b)) as [H | H].
  - split; [apply pairwise_ok; exact H|]. split; apply pairwise_ok; exact H.
  - split; [apply pairwise_short; exact H|]. split; apply pairwise_short; exact H.
Qed.
Print Assumptions C276_lists.
Theorem C276_numbers a b : (exists c, list_math_addition_number a b = Ok c /\ with_number Rplus a b c) /\ (exists c, list_math_substraction_number a b = Ok c /\ with_number Rminus a b c) /\ (exists c, list_math_multiplication_number a b = Ok c /\ with_number Rmult a b c).
Proof. split; [apply each_ok|]. split; apply each_ok. Qed.
Print Assumptions C276_numbers.
(** divisions; a division of nothing by zero is no error *)
Theorem C276_division_number a b : if Req_EM_T b 0 then list_math_division_number a b = (if (length a =? 0)%nat then Ok [] else Raise ZeroDivisionError) else exists c, list_math_division_number a b = Ok c /\ with_number Rdiv a b c.
Proof.
  destruct (Req_EM_T b 0) as [-> | H].
  - destruct a; cbn; [reflexivity|]. unfold divide. destruct (Req_EM_T 0 0); [reflexivity|congruence].
  - unfold list_math_division_number. assert (E : forall l, each (fun x => divide x b) l = each (fun x => Ok (x / b)) l) by (induction l as [|x l IH]; cbn [each]; [reflexivity|]; unfold divide at 1; destruct (Req_EM_T b 0); [contradiction|]; cbn [bind]; now rewrite IH).
    rewrite E. apply each_ok.
Qed.
Print Assumptions C276_division_number.
Theorem C276_division a b : (length a <= length b)%nat ->
  ((exists i, (i < length a)%nat /\ at_ b i = 0) -> list_math_division a b = Raise ZeroDivisionError) /\
  ((forall i, (i < length a)%nat -> at_ b i <> 0) -> exists c, list_math_division a b = Ok c /\ entrywise Rdiv a b c).
Proof.
  revert b. unfold list_math_division. induction a as [|x a IH]; intros [|y b] H; cbn [length] in H; try lia; cbn [pairwise].
  - split; [intros (i & Hi & _); cbn in Hi; lia|]. intros _. exists []. repeat split. cbn. lia.
  - split; [intros (i & Hi & _); cbn in Hi; lia|]. intros _. exists []. repeat split. cbn. lia.
  - destruct (IH b ltac:(lia)) as (Z0 & N). unfold divide at 1 3. split.
    + intros (i & Hi & E). destruct (Req_EM_T y 0) as [|Hy]; [reflexivity|]. cbn [bind]. rewrite Z0; [reflexivity|]. destruct i as [|i]; [contradiction|]. exists i. split; [cbn in Hi; lia|exact E].
    + intro V. destruct (Req_EM_T y 0) as [Hy|Hy]; [exfalso; apply (V 0%nat); [cbn; lia|exact Hy]|]. cbn [bind]. destruct N as (c & E & L & W); [intros i Hi; apply (V (S i)); cbn; lia|]. rewrite E. exists (x / y :: c). split; [reflexivity|]. split; [cbn; lia|]. intros [|i] Hi; [reflexivity|]. apply W. cbn in Hi. lia.
Qed.
Print Assumptions C276_division.
(** subtraction undoes addition, division undoes multiplication *)
Theorem C276_inverse a b : (length a <= length b)%nat ->
  (exists c, list_math_addition a b = Ok c /\ list_math_subtraction c b = Ok a) /\ ((forall i, (i < length a)%nat -> at_ b i <> 0) -> exists c, list_math_multiplication a b = Ok c /\ list_math_division c b = Ok a).
Proof.
  intro H. split.
  - destruct (pairwise_ok Rplus a b H) as (c & E & L & V). exists c. split; [exact E|]. destruct (pairwise_ok Rminus c b ltac:(lia)) as (d & F & M0 & W). unfold list_math_subtraction. rewrite F. f_equal. apply list_eq_at; [lia|]. intros i Hi. rewrite W by lia. rewrite V by lia. ring.
  - intro N. destruct (pairwise_ok Rmult a b H) as (c & E & L & V). exists c. split; [exact E|]. destruct (C276_division c b ltac:(lia)) as (_ & D). destruct D as (d & F & M0 & W); [intros i Hi; apply N; lia|]. rewrite F. f_equal. apply list_eq_at; [lia|]. intros i Hi. rewrite W by lia. rewrite V by lia. field. apply N. lia.
Qed.
Print Assumptions C276_inverse.

(** ** length of vectors *)
Lemma norm_total v : norm_vector v = sqrt (total (length v) (fun i => (at_ v i - 0) ^ 2)).
Proof.
  unfold norm_vector. f_equal. assert (G : forall l acc, fold_left (fun s c => s + c * c) l acc = acc + total (length l) (fun i => (at_ l i - 0) ^ 2)); [|rewrite G; ring].
  induction l as [|x l IH]; intro acc; [cbn; ring|]. cbn [fold_left length]. rewrite IH, total_S. unfold at_ at 2. cbn [nth]. unfold at_. ring_simplify. reflexivity.
Qed.
Lemma zeros_at n i : at_ (repeat 0 n) i = 0.
Proof. unfold at_. revert i. induction n; intros [|i]; cbn; auto. Qed.
Lemma norm_distance v : norm_vector v = sqrt (total (length v) (fun i => (crd v i - crd (repeat 0 (length v)) i) ^ 2)).
Proof. rewrite norm_total. f_equal. apply total_ext. intros i _. change (crd (repeat 0 (length v)) i) with (at_ (repeat 0 (length v)) i). rewrite zeros_at. reflexivity. Qed.
(** the length is that of a norm *)
Theorem C276_norm v c : 0 <= norm_vector v /\ (norm_vector v = 0 <-> forall i, (i < length v)%nat -> at_ v i = 0) /\ exists w, list_math_multiplication_number v c = Ok w /\ norm_vector w = Rabs c * norm_vector v.
Proof.
  split; [apply sqrt_pos|]. assert (P : forall i, (i < length v)%nat -> 0 <= (at_ v i - 0) ^ 2) by (intros; apply pow2_ge_0). pose proof (total_pos _ _ P) as PT. split.
  - rewrite norm_total. split.
    + intro H. apply sqrt_eq_0 in H; [|exact PT]. pose proof (proj1 (total_zero_iff _ _ P) H) as H0. clear H. intros i Hi. specialize (H0 i Hi). cbv beta in H0. apply Rminus_diag_uniq. destruct (Req_dec (at_ v i - 0) 0) as [E|E]; [lra|]. pose proof (pow_nonzero _ 2 E). contradiction.
    + intro H. rewrite (proj2 (total_zero_iff _ _ P)); [apply sqrt_0|]. intros i Hi. rewrite (H i Hi). ring.
  - destruct (each_ok Rmult c v) as (w & E & L & V). exists w. split; [exact E|]. rewrite !norm_total, L. rewrite (total_ext _ _ (fun i => c ^ 2 * (at_ v i - 0) ^ 2)) by (intros i Hi; rewrite (V i Hi); ring).
    rewrite total_scal, sqrt_mult by (try apply pow2_ge_0; exact PT). f_equal. replace (c ^ 2) with (Rsqr c) by (unfold Rsqr; ring). apply sqrt_Rsqr_abs.
Qed.
Print Assumptions C276_norm.
(** the length of a difference is the Euclidean distance; the length of a sum is at most the sum of the lengths *)
Theorem C276_difference a b : length a = length b -> exists c, list_math_subtraction a b = Ok c /\ euclidean_distance a b = Ok (norm_vector c).
Proof.
  intro L. destruct (pairwise_ok Rminus a b ltac:(lia)) as (c & E & Lc & V). exists c. split; [exact E|]. rewrite (euclidean_value (length a) a b) by auto. f_equal. rewrite norm_total, Lc. f_equal. apply total_ext. intros i Hi. rewrite (V i Hi). unfold crd, at_. ring.
Qed.
Print Assumptions C276_difference.
Theorem C276_triangle a b : length a = length b -> exists c, list_math_addition a b = Ok c /\ norm_vector c <= norm_vector a + norm_vector b.
Proof.
  intro L. destruct (pairwise_ok Rplus a b ltac:(lia)) as (c & E & Lc & V). exists c. split; [exact E|].
  pose proof (euclidean_metric (length a) c (repeat 0 (length a)) Lc (repeat_length _ _)) as (_ & _ & _ & T). specialize (T b (eq_sym L)). cbv beta in T.
  rewrite (norm_distance c), (norm_distance a), (norm_distance b), Lc, <- L.
  eapply Rle_trans; [exact T|]. apply Rplus_le_compat_r. right. f_equal. apply total_ext. intros i Hi. change (crd c i) with (at_ c i). rewrite (V i Hi). change (crd (repeat 0 (length a)) i) with (at_ (repeat 0 (length a)) i). rewrite zeros_at. unfold crd, at_. ring.
Qed.
Print Assumptions C276_triangle.

(** A user may expect lists of different sizes to be refused; the rest of a longer second list is ignored without a word. *)
Definition refuses_sizes : Prop := forall a b, length a <> length b -> exists e, list_math_addition a b = Raise e.
Theorem C276_sizes_refuted : exists a b c, length a <> length b /\ list_math_addition a b = Ok c /\ length c = length a /\ ~ refuses_sizes.
Proof.
  exists [1], [1; 5], [1 + 1]. split; [cbn; lia|]. split; [reflexivity|]. split; [reflexivity|]. intro H. destruct (H [1] [1; 5]) as (e & E); [cbn; lia|]. discriminate E.
Qed.
Print Assumptions C276_sizes_refuted.
Example C276_case : list_math_addition [1; 2] [3; 4; 5] = Ok [1 + 3; 2 + 4] /\ list_math_addition [1; 2] [3] = Raise IndexError /\ (exists c, list_math_division [6; 8] [3; 2] = Ok c /\ at_ c 1 = 4) /\ list_math_division [1; 2] [3; 0] = Raise ZeroDivisionError /\ norm_vector [3; 4] = 5.
Proof.
  split; [reflexivity|]. split; [reflexivity|]. split.
  - destruct (C276_division [6; 8] [3; 2] ltac:(cbn; lia)) as (_ & D). destruct D as (c & E & _ & V); [intros [|[|i]] Hi; unfold at_; cbn in *; try lia; lra|]. exists c. split; [exact E|]. rewrite V by (cbn; lia). unfold at_. cbn. lra.
  - split; [apply (C276_division [1; 2] [3; 0]); [cbn; lia|]; exists 1%nat; split; [cbn; lia|reflexivity]|]. unfold norm_vector. cbn. replace (0 + 3 * 3 + 4 * 4) with (5 * 5) by ring. apply sqrt_square. lra.
Qed.
