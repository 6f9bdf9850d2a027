(** C06, C51, C52: DSATUR colouring. *)
From Verif Require Import Base Dsatur_Model Dsatur_Proofs Dsatur_Order.

(** C06: whatever the iteration order of the set, every undirected square matrix gets a proper
    colouring, colours are exactly 1..k, and no vertex gets more than its degree plus one. *)
Theorem C06_dsatur_proper :
  forall (iter : list nat -> list nat), (forall l, Permutation (iter l) l) ->
  forall M, square M -> undirected M ->
  exists colors k, dsatur iter M = Ok colors /\ length colors = length M /\
    (forall i, i < length M -> 1 <= nth i colors 0 <= degree M i + 1) /\
    proper M colors /\ uses_exactly colors k.
Proof. exact dsatur_correct. Qed.
Print Assumptions C06_dsatur_proper.

(** C51: the colouring is the greedy one along an order of maximal saturation. *)
Theorem C51_dsatur_saturation_order :
  forall (iter : list nat -> list nat), (forall l, Permutation (iter l) l) ->
  forall M, square M -> undirected M -> nonneg M ->
  exists colors ord, dsatur iter M = Ok colors /\ dsatur_order M colors ord.
Proof. exact dsatur_has_order. Qed.
Print Assumptions C51_dsatur_saturation_order.

(** C52: bipartite graphs get at most two colours. *)
Theorem C52_dsatur_bipartite_two_colors :
  forall (iter : list nat -> list nat) M, (forall l, Permutation (iter l) l) ->
  square M -> undirected M -> nonneg M -> bipartite M ->
  exists colors, dsatur iter M = Ok colors /\ length colors = length M /\ proper M colors /\
    Forall (fun c => c = 1 \/ c = 2) colors.
Proof. exact dsatur_bipartite. Qed.
Print Assumptions C52_dsatur_bipartite_two_colors.

(** *** Concrete cases *)
Local Open Scope Z_scope.
Definition wheel5 : matrix :=   (* a 5-cycle plus a hub: needs 4 colours *)
  [[0;1;0;0;1;1]; [1;0;1;0;0;1]; [0;1;0;1;0;1]; [0;0;1;0;1;1]; [1;0;0;1;0;1]; [1;1;1;1;1;0]].
Definition path4 : matrix := [[0;1;0;0]; [1;0;1;0]; [0;1;0;1]; [0;0;1;0]].
Local Close Scope Z_scope.

Lemma bounded_undirected M : square M ->
  forallb (fun i => forallb (fun j => implb (adjacentb M i j) (adjacentb M j i)) (seq 0 (length M))) (seq 0 (length M)) = true ->
  undirected M.
Proof.
  intros [_ Hr] H i j Ha. unfold adjacent, entry in Ha.
  destruct (le_lt_dec (length M) i) as [Hi|Hi].
  { rewrite (nth_overflow M) in Ha by exact Hi. destruct j; simpl in Ha; congruence. }
  assert (Hl : length (nth i M []) = length M).
  { rewrite Forall_forall in Hr. apply Hr, nth_In, Hi. }
  destruct (le_lt_dec (length M) j) as [Hj|Hj].
  { rewrite (nth_overflow (nth i M [])) in Ha by lia. congruence. }
  rewrite forallb_forall in H. specialize (H i ltac:(apply in_seq; lia)).
  rewrite forallb_forall in H. specialize (H j ltac:(apply in_seq; lia)).
  apply adjacentb_true in Ha. rewrite Ha in H. simpl in H. apply adjacentb_true. exact H.
Qed.

Lemma wheel5_square : square wheel5.
Proof. split; [discriminate|]. repeat constructor. Qed.
Lemma wheel5_undirected : undirected wheel5.
Proof. apply bounded_undirected; [exact wheel5_square|reflexivity]. Qed.
Lemma wheel5_nonneg : nonneg wheel5.
Proof. repeat constructor; discriminate. Qed.
Lemma path4_square : square path4.
Proof. split; [discriminate|]. repeat constructor. Qed.
Lemma path4_undirected : undirected path4.
Proof. apply bounded_undirected; [exact path4_square|reflexivity]. Qed.
Lemma path4_nonneg : nonneg path4.
Proof. repeat constructor; discriminate. Qed.
Lemma path4_bipartite : bipartite path4.
Proof.
  exists Nat.even. intros i j H.
  do 4 (destruct i as [|i]; [do 4 (destruct j as [|j]; [vm_compute in *; congruence|]);
    unfold adjacent, entry in H; simpl in H; destruct j; simpl in H; congruence|]).
  exfalso. apply H. unfold entry. cbn [nth path4]. destruct i, j; reflexivity.
Qed.

Example C06_ex_wheel : dsatur (fun l => l) wheel5 = Ok [2; 3; 2; 3; 4; 1].
Proof. reflexivity. Qed.
Example C06_ex_wheel_rev : dsatur (@rev nat) wheel5 = Ok [4; 3; 2; 3; 2; 1].
Proof. reflexivity. Qed.
Example C06_ex_meets : square wheel5 /\ undirected wheel5 /\ nonneg wheel5.
Proof. exact (conj wheel5_square (conj wheel5_undirected wheel5_nonneg)). Qed.
Example C52_ex_path : dsatur (fun l => l) path4 = Ok [2; 1; 2; 1].
Proof. reflexivity. Qed.
Example C52_ex_meets : square path4 /\ undirected path4 /\ nonneg path4 /\ bipartite path4.
Proof. exact (conj path4_square (conj path4_undirected (conj path4_nonneg path4_bipartite))). Qed.
