(** Shared vocabulary: boolean comparisons on [Q], python-like list helpers,
    exceptions as values.  No property of pyclustering is stated here. *)
From Coq Require Export List Arith ZArith QArith Qabs Lia Lqa Bool Permutation Sorted.
From Coq Require Import Qfield.
Export ListNotations.
Open Scope nat_scope.
Arguments Nat.div : simpl never.
Arguments Nat.modulo : simpl never.

(** Exceptions raised by the python code, as values. *)
Inductive exn : Type :=
| IndexError | ValueError | KeyError | TypeError | NameError | AttributeError
| ZeroDivisionError | RuntimeError | AssertionError
| OutOfFuel.  (* not a python exception: the model's loop bound was exhausted *)

Inductive res (A : Type) : Type :=
| Ok (a : A)
| Raise (e : exn).
Arguments Ok {A} a.
Arguments Raise {A} e.

Definition bind {A B : Type} (r : res A) (f : A -> res B) : res B :=
  match r with Ok a => f a | Raise e => Raise e end.
Notation "'do' x <- a ; b" := (bind a (fun x => b))
  (at level 200, x pattern, a at level 100, b at level 200, right associativity).

(** * Booleans on Q *)
Definition Qltb (x y : Q) : bool := negb (Qle_bool y x).

Lemma Qltb_true (x y : Q) : Qltb x y = true <-> (x < y)%Q.
Proof.
  unfold Qltb. rewrite negb_true_iff. split; intro H.
  - apply Qnot_le_lt. intro Hc. apply Qle_bool_iff in Hc. congruence.
  - destruct (Qle_bool y x) eqn:E; [|reflexivity].
    apply Qle_bool_iff in E. exfalso. lra.
Qed.

Lemma Qltb_false (x y : Q) : Qltb x y = false <-> (y <= x)%Q.
Proof.
  unfold Qltb. rewrite negb_false_iff. apply Qle_bool_iff.
Qed.

Lemma Qle_bool_false (x y : Q) : Qle_bool x y = false <-> (y < x)%Q.
Proof.
  split; intro H.
  - apply Qnot_le_lt. intro Hc. apply Qle_bool_iff in Hc. congruence.
  - destruct (Qle_bool x y) eqn:E; [|reflexivity].
    apply Qle_bool_iff in E. exfalso. lra.
Qed.

Lemma Qeq_bool_false (x y : Q) : Qeq_bool x y = false <-> ~ (x == y)%Q.
Proof.
  split; intro H.
  - intro Hc. apply Qeq_bool_iff in Hc. congruence.
  - destruct (Qeq_bool x y) eqn:E; [|reflexivity].
    apply Qeq_bool_iff in E. contradiction.
Qed.

(** * Lists *)

(** [l[i] = v] of python on an existing index; unchanged otherwise. *)
Fixpoint upd {A : Type} (l : list A) (i : nat) (v : A) : list A :=
  match l, i with
  | [], _ => []
  | _ :: t, 0 => v :: t
  | x :: t, S i' => x :: upd t i' v
  end.

Lemma upd_length {A} (l : list A) i v : length (upd l i v) = length l.
Proof. revert i; induction l as [|x t IH]; intros [|i]; simpl; auto. Qed.

Lemma upd_upd {A} (l : list A) i v w : upd (upd l i v) i w = upd l i w.
Proof. revert i; induction l as [|x t IH]; intros [|i]; simpl; auto. f_equal; auto. Qed.

Lemma upd_nth_eq {A} (l : list A) i v d : i < length l -> nth i (upd l i v) d = v.
Proof. revert i; induction l as [|x t IH]; intros [|i] H; simpl in *; try lia; auto. apply IH; lia. Qed.

Lemma upd_nth_neq {A} (l : list A) i j v d : i <> j -> nth j (upd l i v) d = nth j l d.
Proof.
  revert i j; induction l as [|x t IH]; intros i j H; destruct i as [|i], j as [|j];
    simpl; try reflexivity; try congruence.
  apply IH. congruence.
Qed.

Lemma upd_nth {A} (l : list A) i j v d :
  nth j (upd l i v) d = if (i =? j) && (i <? length l) then v else nth j l d.
Proof.
  destruct (Nat.eqb_spec i j) as [->|Hne]; simpl.
  - destruct (Nat.ltb_spec j (length l)) as [H|H].
    + apply upd_nth_eq; auto.
    + rewrite !nth_overflow; auto. rewrite upd_length; auto.
  - apply upd_nth_neq; auto.
Qed.

Lemma upd_out {A} (l : list A) i v : length l <= i -> upd l i v = l.
Proof.
  revert i; induction l as [|x t IH]; intros [|i] H; simpl in *; auto; try lia.
  f_equal. apply IH; lia.
Qed.

Lemma upd_split {A} (l : list A) i v d :
  i < length l -> l = firstn i l ++ nth i l d :: skipn (S i) l /\
                  upd l i v = firstn i l ++ v :: skipn (S i) l.
Proof.
  revert i; induction l as [|x t IH]; intros [|i] H; simpl in *; try lia; auto.
  destruct (IH i ltac:(lia)) as [H1 H2]. split.
  - f_equal. exact H1.
  - f_equal. exact H2.
Qed.

(** python [min(l, key=...)]: the first element with minimal key. *)
Fixpoint min_by_from {A : Type} (key : A -> Q) (best : A) (l : list A) : A :=
  match l with
  | [] => best
  | x :: t => min_by_from key (if Qltb (key x) (key best) then x else best) t
  end.

Definition min_by {A : Type} (key : A -> Q) (l : list A) : option A :=
  match l with [] => None | x :: t => Some (min_by_from key x t) end.

Lemma min_by_from_spec {A} (key : A -> Q) l : forall best,
  let m := min_by_from key best l in
  In m (best :: l) /\ (key m <= key best)%Q /\ (forall y, In y l -> key m <= key y)%Q.
Proof.
  induction l as [|x t IH]; intros best; simpl.
  - split; [auto|]. split; [apply Qle_refl | intros y []].
  - specialize (IH (if Qltb (key x) (key best) then x else best)).
    simpl in IH. destruct IH as [Hin [Hle Hall]].
    destruct (Qltb (key x) (key best)) eqn:E.
    + apply Qltb_true in E. split; [destruct Hin; auto|]. split; [lra|].
      intros y [<-|Hy]; [exact Hle | auto].
    + apply Qltb_false in E. split; [destruct Hin; auto|]. split; [exact Hle|].
      intros y [<-|Hy]; [lra | auto].
Qed.

Lemma min_by_spec {A} (key : A -> Q) l m :
  min_by key l = Some m -> In m l /\ (forall y, In y l -> key m <= key y)%Q.
Proof.
  destruct l as [|x t]; simpl; [discriminate|]. intros [= <-].
  destruct (min_by_from_spec key t x) as [H1 [H2 H3]]. split; [exact H1|].
  intros y [<-|Hy]; auto.
Qed.

Lemma min_by_none {A} (key : A -> Q) l : min_by key l = None <-> l = [].
Proof. destruct l; simpl; split; congruence. Qed.

(** * Points *)
Definition point := list Q.

(** [p[d]]; total, theorems carry the guard [d < length p]. *)
Definition coord (p : point) (d : nat) : Q := nth d p 0%Q.

(** utils/__init__.py:256-274 euclidean_distance_square (list arguments of equal length;
    python would raise IndexError for a shorter second argument and ignore the tail of a longer one) *)
Fixpoint sqdist (a b : point) : Q :=
  match a, b with
  | x :: a', y :: b' => ((x - y) * (x - y) + sqdist a' b')%Q
  | _, _ => 0%Q
  end.

(** python list equality on numbers *)
Fixpoint peqb (a b : point) : bool :=
  match a, b with
  | [], [] => true
  | x :: a', y :: b' => Qeq_bool x y && peqb a' b'
  | _, _ => false
  end.

Definition peq (a b : point) : Prop := Forall2 Qeq a b.

Lemma peqb_true a b : peqb a b = true <-> peq a b.
Proof.
  unfold peq. revert b; induction a as [|x a IH]; intros [|y b]; simpl; split; intro H;
    try discriminate; try (inversion H; fail); auto.
  - apply andb_true_iff in H as [H1 H2]. apply Qeq_bool_iff in H1. constructor; [auto|apply IH; auto].
  - inversion H; subst. apply andb_true_iff. split; [apply Qeq_bool_iff; auto | apply IH; auto].
Qed.

Lemma peqb_false a b : peqb a b = false <-> ~ peq a b.
Proof. rewrite <- peqb_true. destruct (peqb a b); split; congruence. Qed.

Lemma peq_refl a : peq a a.
Proof. unfold peq. induction a; constructor; auto. reflexivity. Qed.

Lemma peq_sym a b : peq a b -> peq b a.
Proof. unfold peq. induction 1; constructor; auto. symmetry; auto. Qed.

Lemma peq_trans a b c : peq a b -> peq b c -> peq a c.
Proof.
  unfold peq. intros H; revert c; induction H; intros c Hc; inversion Hc; subst; constructor; auto.
  etransitivity; eauto.
Qed.

Lemma peq_coord a b d : peq a b -> (coord a d == coord b d)%Q.
Proof.
  unfold peq, coord. intros H; revert d; induction H; intros [|d]; simpl; auto; reflexivity.
Qed.

Lemma peq_length a b : peq a b -> length a = length b.
Proof. unfold peq. induction 1; simpl; congruence. Qed.

Lemma sq_nonneg (x : Q) : (0 <= x * x)%Q.
Proof. nra. Qed.

Lemma sqdist_nonneg a b : (0 <= sqdist a b)%Q.
Proof.
  revert b; induction a as [|x a IH]; intros [|y b]; simpl; try lra.
  specialize (IH b). pose proof (sq_nonneg (x - y)). lra.
Qed.

Lemma sqdist_sym a b : (sqdist a b == sqdist b a)%Q.
Proof.
  revert b; induction a as [|x a IH]; intros [|y b]; simpl; try reflexivity.
  rewrite (IH b). ring.
Qed.

Lemma sqdist_refl a : (sqdist a a == 0)%Q.
Proof. induction a as [|x a IH]; simpl; [reflexivity|]. rewrite IH. ring. Qed.

Lemma sqdist_zero a b : length a = length b -> (sqdist a b == 0)%Q -> peq a b.
Proof.
  unfold peq. revert b; induction a as [|x a IH]; intros [|y b] Hl H; simpl in *; try lia; constructor.
  - pose proof (sqdist_nonneg a b). pose proof (sq_nonneg (x - y)).
    assert (E : ((x - y) * (x - y) == 0)%Q) by lra.
    apply Qmult_integral in E. destruct E; lra.
  - pose proof (sqdist_nonneg a b). pose proof (sq_nonneg (x - y)).
    apply IH; [lia|lra].
Qed.

Lemma sqdist_peq_l a a' b : peq a a' -> (sqdist a b == sqdist a' b)%Q.
Proof.
  unfold peq. intro H; revert b; induction H as [|x x' a a' Hx Ha IH]; intros [|y b]; simpl; try reflexivity.
  rewrite Hx, (IH b). reflexivity.
Qed.

Lemma sqdist_coord a b d : length a = length b -> d < length a ->
  ((coord a d - coord b d) * (coord a d - coord b d) <= sqdist a b)%Q.
Proof.
  unfold coord. revert b d; induction a as [|x a IH]; intros [|y b] d Hl Hd; simpl in *; try lia.
  destruct d as [|d].
  - pose proof (sqdist_nonneg a b). lra.
  - specialize (IH b d ltac:(lia) ltac:(lia)). pose proof (sq_nonneg (x - y)). simpl. lra.
Qed.

(** * Partitions: each index of [0..n-1] occurs exactly once in the listed groups. *)
Definition partitions (n : nat) (groups : list (list nat)) : Prop :=
  Permutation (concat groups) (seq 0 n).

Definition no_empty {A : Type} (groups : list (list A)) : Prop :=
  Forall (fun g => g <> []) groups.

Lemma NoDup_app_snoc {A} (l : list A) x : NoDup l -> ~ In x l -> NoDup (l ++ [x]).
Proof.
  intros H Hx. apply (Permutation_NoDup (l := x :: l)).
  - change (x :: l) with ([x] ++ l). apply Permutation_app_comm.
  - constructor; auto.
Qed.

Lemma NoDup_app_intro {A} (l l' : list A) : NoDup l -> NoDup l' -> (forall x, In x l -> ~ In x l') -> NoDup (l ++ l').
Proof.
  induction 1 as [|x t Hx Ht IH]; intros Hl' Hd; simpl; auto. constructor.
  - rewrite in_app_iff. intros [H|H]; [auto|]. apply (Hd x); simpl; auto.
  - apply IH; auto. intros y Hy. apply Hd. simpl; auto.
Qed.

Lemma NoDup_app_inv {A} (l l' : list A) : NoDup (l ++ l') -> NoDup l /\ NoDup l' /\ (forall x, In x l -> ~ In x l').
Proof.
  induction l as [|x t IH]; simpl; intros H.
  - split; [constructor|]. split; auto.
  - inversion H as [|a b Hx Ht]; subst. destruct (IH Ht) as [H1 [H2 H3]].
    rewrite in_app_iff in Hx. split; [constructor; tauto|]. split; auto.
    intros y [<-|Hy]; [tauto|auto].
Qed.

Lemma Ok_inj {A} (a b : A) : Ok a = Ok b -> a = b.
Proof. intros H; injection H; auto. Qed.

(** * Sorted lists *)
Lemma sorted_ext (l l' : list nat) : StronglySorted lt l -> StronglySorted lt l' ->
  (forall x, In x l <-> In x l') -> l = l'.
Proof.
  intros H. revert l'. induction H as [|x t Ht IH Hx]; intros l' H' Heq.
  - destruct l' as [|y t']; auto. exfalso. apply (Heq y). simpl; auto.
  - destruct H' as [|y t' Ht' Hy]; [exfalso; apply (Heq x); simpl; auto|].
    rewrite Forall_forall in Hx, Hy.
    assert (x = y) as <-.
    { destruct (proj1 (Heq x) (or_introl eq_refl)) as [E|E]; auto.
      destruct (proj2 (Heq y) (or_introl eq_refl)) as [E'|E']; auto.
      specialize (Hx y E'). specialize (Hy x E). lia. }
    f_equal. apply IH; auto. intros z. split; intros Hz.
    + destruct (proj1 (Heq z) (or_intror Hz)) as [<-|]; auto. specialize (Hx _ Hz). lia.
    + destruct (proj2 (Heq z) (or_intror Hz)) as [<-|]; auto. specialize (Hy _ Hz). lia.
Qed.

Lemma seq_sorted n : forall a, StronglySorted lt (seq a n).
Proof.
  induction n as [|n IH]; intros a; simpl; constructor; auto.
  apply Forall_forall. intros x Hx. apply in_seq in Hx. lia.
Qed.

Lemma filter_sorted (f : nat -> bool) l : StronglySorted lt l -> StronglySorted lt (filter f l).
Proof.
  induction 1 as [|x t Ht IH Hx]; simpl; [constructor|]. destruct (f x); auto. constructor; auto.
  apply Forall_forall. intros y Hy. apply filter_In in Hy as [Hy _]. rewrite Forall_forall in Hx. auto.
Qed.

Lemma sorted_nodup (l : list nat) : StronglySorted lt l -> NoDup l.
Proof.
  induction 1 as [|x t Ht IH Hx]; constructor; auto. intro Hc. rewrite Forall_forall in Hx. specialize (Hx x Hc). lia.
Qed.

Lemma sorted_snoc (l : list nat) x : StronglySorted lt l -> (forall y, In y l -> y < x) -> StronglySorted lt (l ++ [x]).
Proof.
  induction 1 as [|a t Ht IH Ha]; intros H; simpl; [constructor; constructor|].
  constructor; [apply IH; intros; apply H; simpl; auto|].
  apply Forall_app. split; auto. constructor; auto. apply H. simpl; auto.
Qed.

Lemma snoc_inv {A} (l pre post : list A) x v : l ++ [x] = pre ++ v :: post ->
  (post = [] /\ l = pre /\ x = v) \/ exists post', post = post' ++ [x] /\ l = pre ++ v :: post'.
Proof.
  destruct post as [|p q] using rev_ind; intros H.
  - apply app_inj_tail in H as [-> ->]. left; auto.
  - right. exists q. rewrite app_comm_cons, app_assoc in H. apply app_inj_tail in H as [-> ->]. auto.
Qed.

(** * Stable sorting with a python [key]: the result of [l.sort(key=key)] *)
Section Sorting.
Context {A : Type}.
Variable key : A -> Q.

Fixpoint ins_key (x : A) (l : list A) : list A :=
  match l with
  | [] => [x]
  | y :: t => if Qle_bool (key x) (key y) then x :: y :: t else y :: ins_key x t
  end.
Definition sort_key (l : list A) : list A := fold_right ins_key [] l.

Definition key_le (x y : A) : Prop := (key x <= key y)%Q.

Lemma ins_key_perm x l : Permutation (ins_key x l) (x :: l).
Proof.
  induction l as [|y t IH]; simpl; auto. destruct (Qle_bool (key x) (key y)); auto.
  rewrite IH. apply perm_swap.
Qed.

Lemma sort_key_perm l : Permutation (sort_key l) l.
Proof. induction l as [|x t IH]; simpl; auto. rewrite ins_key_perm. auto. Qed.

Lemma ins_key_sorted x l : StronglySorted key_le l -> StronglySorted key_le (ins_key x l).
Proof.
  induction 1 as [|y t Hs IH Hf]; simpl; [repeat constructor|].
  destruct (Qle_bool (key x) (key y)) eqn:E.
  - apply Qle_bool_iff in E. constructor; [constructor; auto|]. constructor; auto.
    rewrite Forall_forall in *. intros z Hz. specialize (Hf z Hz). unfold key_le in *. lra.
  - apply Qle_bool_false in E. constructor; auto. rewrite Forall_forall in *. intros z Hz.
    apply (Permutation_in _ (ins_key_perm x t)) in Hz. destruct Hz as [<-|Hz]; auto. unfold key_le. lra.
Qed.

Lemma sort_key_sorted l : StronglySorted key_le (sort_key l).
Proof. induction l; simpl; [constructor|]. apply ins_key_sorted; auto. Qed.

Lemma sort_key_length l : length (sort_key l) = length l.
Proof. apply Permutation_length, sort_key_perm. Qed.
End Sorting.
