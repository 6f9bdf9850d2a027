(** C135 - C139: the pattern recognition network syncpr. *)
From Verif Require Import Base Kmeans_Model Kmeans_Proofs Syncnet_Model Syncnet_Proofs Kuramoto_Model Kuramoto_Proofs Syncpr_Model Syncpr_Proofs.
From Coq Require Import Reals Qreals Lra.
Open Scope nat_scope.

(** C135: training a new network gives the Hebb couplings: symmetric, no coupling of an oscillator with itself, and for two
    oscillators the correlation of their features divided by the size of the network. *)
Theorem C135_train_hebb :
  forall n samples, Forall (is_pattern n) samples ->
  exists c, train n samples (new_coupling n) = Ok c /\ square n c /\
    (forall i j, i < n -> j < n -> i <> j -> (entry c i j == correlation samples i j / inject_Z (Z.of_nat n))%Q) /\
    (forall i j, i < n -> j < n -> (entry c i j == entry c j i)%Q) /\ (forall i, i < n -> (entry c i i == 0)%Q).
Proof.
  intros n samples H. destruct (train_spec n samples (new_coupling n) (new_square n) H) as (c & E & S & A & B). exists c. split; auto. split; auto.
  assert (Z : forall i j, i < n -> j < n -> entry (new_coupling n) i j = 0%Q).
  { intros i j Hi Hj. unfold entry, new_coupling. rewrite (nth_indep _ [] (repeat 0%Q n)) by (now rewrite repeat_length). rewrite nth_repeat. apply nth_repeat. }
  assert (Sym : forall i j, (correlation samples i j == correlation samples j i)%Q) by (intros i j; unfold correlation; apply qsum_ext; intros p _; ring).
  assert (U : forall i j, i < j < n -> (entry c i j == correlation samples i j / inject_Z (Z.of_nat n))%Q).
  { intros i j Hij. destruct (A i j Hij) as [A1 _]. rewrite A1, Z by lia. rewrite Qplus_0_l. reflexivity. }
  split; [|split].
  - intros i j Hi Hj Hn. destruct (Nat.lt_ge_cases i j) as [Hl|Hl]; [apply U; lia|]. destruct (A j i ltac:(lia)) as [_ A2]. rewrite A2, U by lia. rewrite Sym. reflexivity.
  - intros i j Hi Hj. destruct (lt_eq_lt_dec i j) as [[Hl|Hl]|Hl]; [symmetry; apply A; lia|subst; reflexivity|apply A; lia].
  - intros i Hi. rewrite B, Z by auto. reflexivity.
Qed.
Print Assumptions C135_train_hebb.

(** the couplings depend neither on the order of the samples nor on their signs *)
Theorem C135_order_and_signs :
  forall n samples samples' c c', Permutation samples samples' \/ samples' = map (map Qopp) samples ->
  train n samples (new_coupling n) = Ok c -> train n samples' (new_coupling n) = Ok c' ->
  forall i j, i < n -> j < n -> (entry c i j == entry c' i j)%Q.
Proof.
  intros n samples samples' c c' H E E' i j Hi Hj.
  assert (V : forall s c, train n s (new_coupling n) = Ok c -> Forall (is_pattern n) s).
  { intros s d Ed. apply validate_all_iff. unfold train in Ed. destruct (validate_all n s) as [[]|e]; auto. discriminate. }
  destruct (C135_train_hebb n samples (V _ _ E)) as (d & Ed & _ & A & _ & Z). rewrite E in Ed. apply Ok_inj in Ed. subst d.
  destruct (C135_train_hebb n samples' (V _ _ E')) as (d & Ed & _ & A' & _ & Z'). rewrite E' in Ed. apply Ok_inj in Ed. subst d.
  destruct (Nat.eq_dec i j) as [->|Hn]; [rewrite Z, Z' by auto; reflexivity|]. rewrite A, A' by auto.
  assert (Hc : (correlation samples i j == correlation samples' i j)%Q); [|rewrite Hc; reflexivity].
  unfold correlation. destruct H as [P| ->]; [apply qsum_perm, Permutation_map; auto|]. rewrite map_map. apply qsum_ext. intros p Hp.
  pose proof (V _ _ E) as F. rewrite Forall_forall in F. destruct (F p Hp) as [L _].
  assert (G : forall k, k < n -> nth k (map Qopp p) 0%Q = (- nth k p 0)%Q) by (intros k Hk; rewrite (nth_indep _ 0%Q (- 0)%Q) by (rewrite map_length; lia); apply map_nth).
  rewrite !G by auto. ring.
Qed.
Print Assumptions C135_order_and_signs.

(** samples that are no patterns are rejected *)
Theorem C135_bad_samples :
  forall n samples coupling, ~ Forall (is_pattern n) samples -> train n samples coupling = Raise NameError.
Proof. intros n samples coupling H. unfold train. now rewrite validate_all_raise. Qed.
Print Assumptions C135_bad_samples.

Example C135_ex : Forall (is_pattern 3) [[1; -1; 1]; [1; 1; -1]]%Q /\
  train 3 [[1; -1; 1]; [1; 1; -1]]%Q (new_coupling 3) = Ok [[0; 0 # 3; 0 # 3]; [0 # 3; 0; -2 # 3]; [0 # 3; -2 # 3; 0]]%Q.
Proof.
  split; [|vm_compute; reflexivity]. repeat constructor; try (left; reflexivity); right; reflexivity.
Qed.

(** C136: training with further samples does not give the couplings of a training with all samples: the old couplings are
    divided once more. *)
Theorem C136_incremental_training :
  forall n a b c1, Forall (is_pattern n) a -> Forall (is_pattern n) b -> train n a (new_coupling n) = Ok c1 ->
  exists c2, train n b c1 = Ok c2 /\
    forall i j, i < n -> j < n -> i <> j ->
      (entry c2 i j == (correlation a i j / inject_Z (Z.of_nat n) + correlation b i j) / inject_Z (Z.of_nat n))%Q.
Proof.
  intros n a b c1 Ha Hb E. destruct (C135_train_hebb n a Ha) as (c & Ec & S & A & Sy & _). rewrite E in Ec. apply Ok_inj in Ec. subst c.
  destruct (train_spec n b c1 S Hb) as (c2 & E2 & _ & B & _). exists c2. split; auto. intros i j Hi Hj Hn.
  destruct (Nat.lt_ge_cases i j) as [Hl|Hl].
  - destruct (B i j ltac:(lia)) as [B1 _]. rewrite B1, A by auto. reflexivity.
  - destruct (B j i ltac:(lia)) as [B1 B2]. rewrite B2, B1, A by auto.
    assert (Sym : forall s, (correlation s j i == correlation s i j)%Q) by (intros s; unfold correlation; apply qsum_ext; intros p _; ring). rewrite !Sym. reflexivity.
Qed.
Print Assumptions C136_incremental_training.

Theorem C136_incremental_training_refuted :
  exists n a b c1 c2 c, Forall (is_pattern n) (a ++ b) /\ train n a (new_coupling n) = Ok c1 /\ train n b c1 = Ok c2 /\ train n (a ++ b) (new_coupling n) = Ok c /\
    ~ (entry c2 0 1 == entry c 0 1)%Q.
Proof.
  exists 2, [[1; 1]]%Q, [[1; 1]]%Q, [[0; 1 # 2]; [1 # 2; 0]]%Q, [[0; 3 # 4]; [3 # 4; 0]]%Q, [[0; 2 # 2]; [2 # 2; 0]]%Q.
  split; [repeat constructor; left; reflexivity|]. split; [vm_compute; reflexivity|]. split; [vm_compute; reflexivity|]. split; [vm_compute; reflexivity|].
  vm_compute. discriminate.
Qed.
Print Assumptions C136_incremental_training_refuted.

Open Scope R_scope.

(** C137: the memory order lies between 0 and 1, and it is 1 exactly if oscillators of equal features are in phase and
    oscillators of different features in opposite phase. *)
Theorem C137_memory_order :
  forall n pattern phases, (0 < n)%nat -> is_pattern n pattern ->
  exists v, memory_order n pattern phases = Ok v /\ 0 <= v <= 1 /\
    (v = 1 <-> forall i j, (i < n)%nat -> (j < n)%nat -> cos (nth i phases 0 - nth j phases 0) = feature pattern i * feature pattern j).
Proof.
  intros n pattern phases Hn H. exists (memory_order_value n pattern phases). split; [|apply memory_order_spec; auto].
  unfold memory_order. rewrite (proj2 (validate_iff n pattern) H). cbn [bind]. destruct (n =? 0)%nat eqn:E; auto. apply Nat.eqb_eq in E. lia.
Qed.
Print Assumptions C137_memory_order.

(** the inverted pattern has the same order, and so have phases shifted by a constant *)
Theorem C137_symmetries :
  forall n pattern phases shift, (0 < n)%nat -> is_pattern n pattern -> length phases = n ->
  memory_order n (map Qopp pattern) phases = memory_order n pattern phases /\
  memory_order n pattern (map (fun t => t + shift) phases) = memory_order n pattern phases.
Proof.
  intros n pattern phases shift Hn H L. assert (H' : is_pattern n (map Qopp pattern)).
  { destruct H as [H1 H2]. split; [now rewrite map_length|]. apply Forall_forall. intros f Hf. apply in_map_iff in Hf as (g & <- & Hg).
    rewrite Forall_forall in H2. destruct (H2 g Hg) as [E|E]; [right|left]; rewrite E; reflexivity. }
  unfold memory_order. rewrite (proj2 (validate_iff n pattern) H), (proj2 (validate_iff n _) H'). cbn [bind].
  destruct (n =? 0)%nat; [auto|]. destruct (memory_order_symmetries n pattern phases shift Hn (proj1 H) L) as [-> ->]. auto.
Qed.
Print Assumptions C137_symmetries.

(** a simulation starts with an order of at least sqrt(1/2), and with 1 only for a pattern of equal features *)
Theorem C137_initial_order :
  forall n pattern, (0 < n)%nat -> is_pattern n pattern ->
  memory_order n pattern (load_pattern pattern) =
    Ok (sqrt (INR (ones pattern) * INR (ones pattern) + INR (n - ones pattern) * INR (n - ones pattern)) / INR n) /\
  exists v, memory_order n pattern (load_pattern pattern) = Ok v /\ sqrt (1 / 2) <= v.
Proof.
  intros n pattern Hn H. destruct (loaded_order n pattern Hn H) as [A B].
  assert (E : memory_order n pattern (load_pattern pattern) = Ok (memory_order_value n pattern (load_pattern pattern))).
  { unfold memory_order. rewrite (proj2 (validate_iff n pattern) H). cbn [bind]. destruct (n =? 0)%nat eqn:E; auto. apply Nat.eqb_eq in E. lia. }
  rewrite E. split; [now rewrite A|]. eauto.
Qed.
Print Assumptions C137_initial_order.

Example C137_ex : is_pattern 2 [1; -1]%Q /\ memory_order 2 [1; -1]%Q (load_pattern [1; -1]%Q) = Ok (sqrt (INR 1 * INR 1 + INR 1 * INR 1) / INR 2).
Proof.
  assert (H : is_pattern 2 [1; -1]%Q) by (split; [reflexivity|constructor; [left; reflexivity|constructor; [right; reflexivity|constructor]]]).
  split; auto. exact (proj1 (C137_initial_order 2 [1; -1]%Q ltac:(lia) H)).
Qed.

(** C138: a state that is in or in opposite phase everywhere, e.g. a recalled pattern with the phases 0 and pi, is stationary,
    whatever the network has learned. *)
Theorem C138_patterns_stationary :
  forall fuel n coupling strength1 strength2 phases, length phases = n -> (forall i, (i < n)%nat -> nth i phases 0 = 0 \/ nth i phases 0 = PI) ->
  (forall i, (i < n)%nat -> phase_kuramoto_pr n coupling strength1 strength2 phases i (nth i phases 0) = 0) /\
  calculate_phases fuel (phase_kuramoto_pr n coupling strength1 strength2 phases) phases (seq 0 n) = Ok phases.
Proof.
  intros fuel n coupling s1 s2 phases L H.
  assert (Hs : forall i k, (i < n)%nat -> (k < n)%nat -> sin (nth k phases 0 - nth i phases 0) = 0).
  { intros i k Hi Hk. destruct (H i Hi) as [-> | ->], (H k Hk) as [-> | ->].
    - rewrite Rminus_0_r. apply sin_0. - rewrite Rminus_0_r. apply sin_PI. - rewrite Rminus_0_l, sin_neg, sin_PI. lra. - rewrite Rminus_diag_eq by auto. apply sin_0. }
  split.
  - intros i Hi. apply stationary; auto.
  - apply stationary_step; auto. intros i Hi. pose proof PI_RGT_0. destruct (H i Hi) as [-> | ->]; lra.
Qed.
Print Assumptions C138_patterns_stationary.

(** in a trained network the changes of all phases sum up to zero: the mean phase is kept (up to full turns) *)
Theorem C138_mean_phase_kept :
  forall n samples coupling strength1 strength2 phases, train n samples (new_coupling n) = Ok coupling ->
  rsum (fun i => phase_kuramoto_pr n coupling strength1 strength2 phases i (nth i phases 0)) (seq 0 n) = 0.
Proof.
  intros n samples coupling s1 s2 phases E. apply drift_zero. intros i k Hi Hk.
  assert (V : Forall (is_pattern n) samples) by (apply validate_all_iff; unfold train in E; destruct (validate_all n samples) as [[]|e]; [reflexivity|discriminate]).
  destruct (C135_train_hebb n samples V) as (c & Ec & _ & _ & S & _). rewrite E in Ec. apply Ok_inj in Ec. subst c. auto.
Qed.
Print Assumptions C138_mean_phase_kept.

Example C138_ex : length [0; PI] = 2%nat /\ forall i, (i < 2)%nat -> nth i [0; PI] 0 = 0 \/ nth i [0; PI] 0 = PI.
Proof. split; auto. intros i Hi. destruct i as [|[|i]]; cbn [nth]; auto. lia. Qed.

(** C139: what simulate_static returns ... *)
Theorem C139_simulate_static :
  forall n next steps pattern collect m m' dynamic, (m_phases m < length (m_lists m))%nat ->
  ref_simulate_static n next steps pattern collect m = Ok (m', dynamic) ->
  let all := states next steps (load_pattern pattern) in read_output m' dynamic = if collect then all else [last all []].
Proof. intros n next steps pattern collect m m' dyn Hm E. apply (ref_static_spec n next steps pattern collect m m' dyn Hm E). Qed.
Print Assumptions C139_simulate_static.

(** ... but its last state is overwritten by the next simulation of the network *)
Theorem C139_later_simulation :
  forall n next steps1 steps2 p1 p2 collect1 collect2 m m1 d1 m2 d2, (m_phases m < length (m_lists m))%nat ->
  ref_simulate_static n next steps1 p1 collect1 m = Ok (m1, d1) -> ref_simulate_static n next steps2 p2 collect2 m1 = Ok (m2, d2) ->
  read_output m2 d1 = removelast (read_output m1 d1) ++ [load_pattern p2].
Proof. exact later_simulation. Qed.
Print Assumptions C139_later_simulation.

Theorem C139_result_changes_refuted :
  exists n next p1 p2 m m1 d1 m2 d2, (m_phases m < length (m_lists m))%nat /\
    ref_simulate_static n next 1 p1 true m = Ok (m1, d1) /\ ref_simulate_static n next 1 p2 true m1 = Ok (m2, d2) /\
    read_output m2 d1 <> read_output m1 d1.
Proof.
  exists 1%nat, (fun x => x), [1%Q], [(-1)%Q], (mkMemory [[1]] 0).
  exists (mkMemory [[0]; [0]] 1), [0%nat; 1%nat], (mkMemory [[0]; [PI / 2]; [PI / 2]] 2), [1%nat; 2%nat].
  split; [simpl; lia|]. split; [reflexivity|]. split; [reflexivity|]. cbn. intros E. injection E as E. pose proof PI_RGT_0. lra.
Qed.
Print Assumptions C139_result_changes_refuted.
