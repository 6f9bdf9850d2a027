(** Selection of the genetic algorithm: C98. *)
From Verif Require Import Base Gasel_Model Gasel_Proofs.
From Coq Require Import Reals Lra.
Local Open Scope R_scope.

(** C98: a chromosome is selected exactly when the random number falls into its own segment of [0, 1), whose length is
    its share of the weights exp(-coefficient * fitness); the segments cover [0, 1) *)
Theorem C98_selection_proportional coeff fitness r : fitness <> [] -> 0 <= r < 1 ->
  (exists i, selected coeff fitness r = Ok (Some i) /\ (i < length fitness)%nat) /\
  (forall i, (i < length fitness)%nat ->
    (selected coeff fitness r = Ok (Some i) <-> rsum (firstn i (shares coeff fitness)) <= r < rsum (firstn (S i) (shares coeff fitness)))) /\
  rsum (shares coeff fitness) = 1 /\ (forall s, In s (shares coeff fitness) -> 0 < s) /\
  (forall i, (i < length fitness)%nat -> rsum (firstn (S i) (shares coeff fitness)) = rsum (firstn i (shares coeff fitness)) + nth i (shares coeff fitness) 0).
Proof.
  intros Hne Hr. split; [apply selected_total; auto|]. split; [intros; apply selected_spec; auto|]. split; [apply shares_sum; auto|]. split; [apply shares_pos; auto|].
  intros i Hi. apply rsum_firstn_S. rewrite shares_length. auto.
Qed.
Print Assumptions C98_selection_proportional.

(** C98: the smaller the fitness (the better the clustering), the larger the probability *)
Theorem C98_better_is_likelier coeff fitness i j : fitness <> [] -> 0 < coeff -> (i < length fitness)%nat -> (j < length fitness)%nat ->
  nth i fitness 0 < nth j fitness 0 -> nth j (shares coeff fitness) 0 < nth i (shares coeff fitness) 0.
Proof. intros Hne. apply shares_order; auto. Qed.
Print Assumptions C98_better_is_likelier.

(** two chromosomes of the same fitness: the halves of [0, 1) *)
Example C98_case : selected 1 [3; 3] (1 / 4) = Ok (Some 0%nat) /\ selected 1 [3; 3] (3 / 4) = Ok (Some 1%nat).
Proof.
  assert (E : shares 1 [3; 3] = [1 / 2; 1 / 2]).
  { unfold shares, weights. cbn. pose proof (exp_pos (- (1 * 3))). f_equal; [field; lra|]. f_equal; field; lra. }
  split; apply selected_spec; try discriminate; try (cbn; lia); try lra; rewrite E; cbn; lra.
Qed.
