(** Correctness of the leftmost position search (C05). *)
From Verif Require Import Base Search_Model.

(** ** Specification *)

(** [lt] is a strict weak order given as a boolean test. *)
Definition strict_weak_order {A : Type} (lt : A -> A -> bool) : Prop :=
  (forall x, lt x x = false) /\
  (forall x y z, lt x y = true -> lt y z = true -> lt x z = true) /\
  (forall x y z, lt x y = false -> lt y z = false -> lt x z = false).

(** no later element is smaller than an earlier one *)
Definition sorted_by {A : Type} (lt : A -> A -> bool) (l : list A) : Prop :=
  forall i j x y, i <= j -> nth_error l i = Some x -> nth_error l j = Some y -> lt y x = false.

(** [i] is the first position whose element is not less than the element at [r]. *)
Definition leftmost_not_less {A : Type} (lt : A -> A -> bool) (l : list A) (r i : nat) : Prop :=
  i <= r /\
  forall t, nth_error l r = Some t ->
    (forall j x, nth_error l j = Some x -> j < i -> lt x t = true) /\
    (forall j x, nth_error l j = Some x -> i <= j -> lt x t = false).

(** ** Proofs *)
Section Proofs.
Context {A : Type}.
Variable lt : A -> A -> bool.
Hypothesis Hswo : strict_weak_order lt.

Lemma fle_loop_spec (data : list A) (target : A) (r0 : nat) :
  sorted_by lt data -> nth_error data r0 = Some target ->
  forall fuel left right middle,
    left <= right -> right <= r0 -> right - left <= fuel ->
    (left < right -> left <= middle < right) ->
    (forall j x, nth_error data j = Some x -> j < left -> lt x target = true) ->
    (forall j x, nth_error data j = Some x -> right <= j -> lt x target = false) ->
    exists i, fle_loop lt fuel data target left right middle = Ok i /\ i <= r0 /\
      (forall j x, nth_error data j = Some x -> j < i -> lt x target = true) /\
      (forall j x, nth_error data j = Some x -> i <= j -> lt x target = false).
Proof.
  intros Hs Ht. destruct Hswo as [Hirr [Htr Hnt]].
  assert (Hlen : r0 < length data) by (apply nth_error_Some; congruence).
  induction fuel as [|fuel IH]; intros left right middle Hlr Hr Hf Hm Hlo Hhi; cbn [fle_loop];
    destruct (Nat.ltb_spec left right) as [Hlt|Hge]; try lia.
  - exists left. repeat split; auto; try lia. intros j x Hj Hij. apply (Hhi j x); auto; lia.
  - specialize (Hm Hlt).
    destruct (nth_error data middle) as [x|] eqn:Ex.
    2:{ apply nth_error_None in Ex. lia. }
    destruct (lt x target) eqn:Ec.
    + apply IH; try lia.
      * intros Hc. split; [lia|].
        assert ((right - (middle + 1)) / 2 < right - (middle + 1)) by (apply Nat.div_lt; lia). lia.
      * intros j y Hj Hlt'. destruct (lt y target) eqn:Ey; auto. exfalso.
        assert (Hle : lt x y = false) by (eapply (Hs j middle); eauto; lia).
        assert (lt x target = false) by (eapply Hnt; eauto). congruence.
      * exact Hhi.
    + apply IH; try lia.
      * intros Hc. split; [lia|].
        assert ((middle - left) / 2 < middle - left) by (apply Nat.div_lt; lia). lia.
      * exact Hlo.
      * intros j y Hj Hle'. eapply Hnt; [|exact Ec].
        eapply (Hs middle j); eauto.
  - exists left. repeat split; auto; try lia. intros j x Hj Hij. apply (Hhi j x); auto; lia.
Qed.

Lemma find_left_element_correct (data : list A) (r : nat) :
  sorted_by lt data -> r < length data ->
  exists i, find_left_element lt data r = Ok i /\ leftmost_not_less lt data r i.
Proof.
  intros Hs Hr. unfold find_left_element.
  destruct (nth_error data r) as [t|] eqn:Et.
  2:{ apply nth_error_None in Et. lia. }
  destruct data as [|a data']; [simpl in Hr; lia|].
  destruct (fle_loop_spec (a :: data') t r Hs Et r 0 r ((r - 0) / 2)) as [i [H1 [H2 [H3 H4]]]]; try lia.
  - intros Hlt. split; [lia|]. rewrite Nat.sub_0_r; apply Nat.div_lt; lia.
  - intros j x Hj Hle. apply (Hs r j t x); auto.
  - exists i. split; [exact H1|]. split; [exact H2|].
    intros t' Ht'. rewrite Et in Ht'. injection Ht' as <-. split; assumption.
Qed.
End Proofs.

Lemma find_left_element_empty {A} (lt : A -> A -> bool) r :
  find_left_element lt [] r = Raise ValueError.
Proof. reflexivity. Qed.

Lemma find_left_element_out {A} (lt : A -> A -> bool) data r :
  data <> [] -> length data <= r -> find_left_element lt data r = Raise IndexError.
Proof.
  intros Hne Hr. unfold find_left_element.
  assert (E : nth_error data r = None) by (apply nth_error_None; auto).
  rewrite E. destruct data; congruence.
Qed.

(** [Qltb] on a key is a strict weak order. *)
Lemma key_swo {A} (key : A -> Q) : strict_weak_order (fun x y => Qltb (key x) (key y)).
Proof.
  split; [|split].
  - intros x. apply Qltb_false. apply Qle_refl.
  - intros x y z H1 H2. apply Qltb_true in H1, H2. apply Qltb_true. lra.
  - intros x y z H1 H2. apply Qltb_false in H1, H2. apply Qltb_false. lra.
Qed.
