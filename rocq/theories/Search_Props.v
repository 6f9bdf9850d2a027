(** C05: leftmost position search. *)
From Verif Require Import Base Search_Model Search_Proofs.

(** For every sorted list and every border inside it the search terminates normally with the
    first position that is not less than the element at the border. *)
Theorem C05_find_left_element_leftmost :
  forall (A : Type) (lt : A -> A -> bool), strict_weak_order lt ->
  forall (data : list A) (r : nat), sorted_by lt data -> r < length data ->
  exists i, find_left_element lt data r = Ok i /\ leftmost_not_less lt data r i.
Proof. exact (fun A lt H => find_left_element_correct lt H). Qed.
Print Assumptions C05_find_left_element_leftmost.

(** The two rejected inputs. *)
Theorem C05_find_left_element_rejects :
  forall (A : Type) (lt : A -> A -> bool) (data : list A) (r : nat),
    (find_left_element lt (@nil A) r = Raise ValueError) /\
    (data <> [] -> length data <= r -> find_left_element lt data r = Raise IndexError).
Proof. exact (fun A lt data r => conj (find_left_element_empty lt r) (find_left_element_out lt data r)). Qed.
Print Assumptions C05_find_left_element_rejects.

Example C05_nonvacuous :
  strict_weak_order Nat.ltb /\ sorted_by Nat.ltb [1; 3; 3; 3; 7] /\
  find_left_element Nat.ltb [1; 3; 3; 3; 7] 3 = Ok 1.
Proof.
  split; [|split].
  - split; [intros; apply Nat.ltb_irrefl|]. split; intros x y z.
    + rewrite !Nat.ltb_lt. lia.
    + rewrite !Nat.ltb_ge. lia.
  - intros i j x y Hij Hx Hy. apply Nat.ltb_ge.
    do 6 (destruct i as [|i]; [do 6 (destruct j as [|j]; [simpl in *; try discriminate; try lia; inversion Hx; inversion Hy; lia|]);
      simpl in Hy; destruct j; discriminate | ]). simpl in Hx. destruct i; discriminate.
  - reflexivity.
Qed.
