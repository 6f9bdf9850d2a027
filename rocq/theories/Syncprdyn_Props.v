(** C282: simulate_dynamic of the pattern recognition network syncpr. *)
From Verif Require Import Base Kmeans_Model Kuramoto_Model Kuramoto_Proofs Kuramoto_Props Syncpr_Model Syncpr_Proofs Syncpr_Props.
From Coq Require Import Reals Qreals Lra.
Open Scope R_scope.

(** the memory order of a state for the pattern, as memory_order() returns it *)
Definition recalled (n : nat) (pattern : list Q) (state : list R) (v : R) : Prop := memory_order n pattern state = Ok v.

Lemma recalled_value n pattern state : (0 < n)%nat -> is_pattern n pattern -> recalled n pattern state (memory_order_value n pattern state).
Proof. intros Hn H. unfold recalled, memory_order. rewrite (proj2 (validate_iff n pattern) H). cbn [bind]. destruct (n =? 0)%nat eqn:E; auto. apply Nat.eqb_eq in E. lia. Qed.
Lemma recalled_is n pattern state v : (0 < n)%nat -> is_pattern n pattern -> recalled n pattern state v -> v = memory_order_value n pattern state.
Proof. intros Hn H E. pose proof (recalled_value n pattern state Hn H) as E'. unfold recalled in *. congruence. Qed.

(** C282.  The simulation starts with phase 0 for the features 1 and pi/2 for the features -1, records the states that follow each other, goes on
    exactly as long as the memory order of the pattern is below the requested one, and ends when that is reached or the order changed by less than the
    threshold in the last step. *)
Theorem C282_dynamic n next fuel pattern collect order step threshold final out times : (0 < n)%nat -> is_pattern n pattern ->
  syncpr_simulate_dynamic n next fuel pattern collect order step threshold = Ok (final, (out, times)) ->
  exists s l, length s = n /\ (forall i, (i < n)%nat -> nth i s 0 = if Qeq_bool (nth i pattern 0%Q) 1 then 0 else PI / 2) /\
    chain next s l /\ final = last l s /\
    (collect = true -> out = s :: l /\ length times = length out /\ forall k, (k < length times)%nat -> nth k times 0 = INR k * step) /\
    (collect = false -> out = [final] /\ times = [INR (length l) * step]) /\
    (forall k v, (k < length l)%nat -> recalled n pattern (nth k (s :: l) []) v -> v < order) /\
    (forall k v w, (S k < length l)%nat -> recalled n pattern (nth k (s :: l) []) v -> recalled n pattern (nth (S k) (s :: l) []) w -> threshold <= Rabs (w - v)) /\
    exists w, recalled n pattern final w /\ (order <= w \/ (l <> [] /\ exists v, recalled n pattern (nth (length l - 1) (s :: l) []) v /\ Rabs (w - v) < threshold)).
Proof.
  intros Hn H E. unfold syncpr_simulate_dynamic in E. rewrite (proj2 (validate_iff n pattern) H) in E. cbn [bind] in E. destruct (Nat.eqb_spec n 0) as [|_]; [lia|].
  destruct (C123_simulate_dynamic _ _ _ _ _ _ _ _ _ _ _ E) as (l & A1 & A2 & A3 & A4 & A5 & A6 & A7). pose proof H as [L F].
  exists (load_pattern pattern), l. split; [unfold load_pattern; rewrite map_length; exact L|]. split.
  { intros i Hi. unfold load_pattern. rewrite (nth_indep _ 0 (if Qltb 0 0 then 0 else PI / 2)) by (rewrite map_length; lia). rewrite (map_nth (fun f => if Qltb 0 f then 0 else PI / 2)).
    rewrite Forall_forall in F. assert (Hin : In (nth i pattern 0%Q) pattern) by (apply nth_In; lia). specialize (F _ Hin). set (f := nth i pattern 0%Q) in *. destruct F as [F | F].
    - assert (B1 : Qltb 0 f = true) by (apply Qltb_true; rewrite F; reflexivity). assert (B2 : Qeq_bool f 1 = true) by (apply Qeq_bool_iff; exact F). rewrite B1, B2. reflexivity.
    - assert (B1 : Qltb 0 f = false) by (apply Qltb_false; rewrite F; discriminate). rewrite B1. destruct (Qeq_bool f 1) eqn:B2; [|reflexivity]. apply Qeq_bool_iff in B2. rewrite F in B2. discriminate. }
  split; [exact A1|]. split; [exact A2|]. split; [exact A3|]. split; [exact A4|].
  split; [intros k v Hk R; rewrite (recalled_is _ _ _ _ Hn H R); apply A5; exact Hk|].
  split; [intros k v w Hk R1 R2; rewrite (recalled_is _ _ _ _ Hn H R1), (recalled_is _ _ _ _ Hn H R2); apply A6; exact Hk|].
  exists (memory_order_value n pattern final). split; [apply recalled_value; assumption|]. destruct A7 as [A7 | [A7 A8]]; [left; exact A7|right; split; [exact A7|]]. eexists. split; [apply recalled_value; assumption|exact A8].
Qed.
Print Assumptions C282_dynamic.

(** A pattern of equal features is there from the start: nothing is simulated. *)
Theorem C282_equal_features n next fuel f collect order step threshold : (0 < n)%nat -> (f == 1 \/ f == -1)%Q -> order <= 1 ->
  exists s, syncpr_simulate_dynamic n next fuel (repeat f n) collect order step threshold = Ok (s, ([s], [0])) /\ (s = repeat 0 n \/ s = repeat (PI / 2) n).
Proof.
  intros Hn Hf Ho. assert (H : is_pattern n (repeat f n)) by (split; [apply repeat_length|]; apply Forall_forall; intros x Hx; apply repeat_spec in Hx; subst; exact Hf).
  unfold syncpr_simulate_dynamic. rewrite (proj2 (validate_iff n _) H). cbn [bind]. destruct (Nat.eqb_spec n 0) as [|_]; [lia|].
  assert (Ls : exists t, load_pattern (repeat f n) = repeat t n /\ (t = 0 \/ t = PI / 2)).
  { exists (if Qltb 0 f then 0 else PI / 2). split; [unfold load_pattern; clear; induction n; cbn [repeat map]; congruence|]. destruct (Qltb 0 f); auto. }
  destruct Ls as (t & Ls & Ht). rewrite Ls. exists (repeat t n). split; [|destruct Ht; subst; auto]. apply C123_already_ordered.
  destruct (C137_memory_order n (repeat f n) (repeat t n) Hn H) as (v & Ev & _ & Hv). apply (recalled_is n (repeat f n) (repeat t n) v Hn H) in Ev. rewrite <- Ev. assert (v = 1); [|lra]. apply Hv.
  intros i j Hi Hj. assert (N : forall k, (k < n)%nat -> nth k (repeat t n) 0 = t /\ feature (repeat f n) k = Q2R f).
  { intros k Hk. split; [apply (repeat_spec n t); apply nth_In; rewrite repeat_length; exact Hk|]. unfold feature. f_equal. apply (repeat_spec n f). apply nth_In. rewrite repeat_length. exact Hk. }
  destruct (N i Hi) as [-> ->]. destruct (N j Hj) as [-> ->]. rewrite Rminus_diag_eq by reflexivity. rewrite cos_0. destruct Hf as [Hf | Hf]; rewrite (Qeq_eqR _ _ Hf); unfold Q2R; cbn; lra.
Qed.
Print Assumptions C282_equal_features.

(** Anything that is no pattern of 1 and -1 of the size of the network is refused; a network without oscillators fails. *)
Theorem C282_refused n next fuel pattern collect order step threshold :
  (~ is_pattern n pattern -> syncpr_simulate_dynamic n next fuel pattern collect order step threshold = Raise NameError) /\
  syncpr_simulate_dynamic 0 next fuel [] collect order step threshold = Raise ZeroDivisionError.
Proof. split; [|reflexivity]. intro H. unfold syncpr_simulate_dynamic. rewrite (validate_raise n pattern H). reflexivity. Qed.
Print Assumptions C282_refused.

Example C282_example : is_pattern 2 [1; -1]%Q /\ ~ is_pattern 2 [1; 0]%Q /\
  exists r, syncpr_simulate_dynamic 2 (fun _ => Ok [0; PI]) 5 [1; -1]%Q true 1 (1 / 10) (1 / 100) = Ok r.
Proof.
  assert (H : is_pattern 2 [1; -1]%Q) by (split; [reflexivity|constructor; [left; reflexivity|constructor; [right; reflexivity|constructor]]]).
  split; [exact H|]. split; [intros [_ F]; inversion F as [|? ? _ F1]; subst; inversion F1 as [|? ? [E | E] _]; discriminate|].
  unfold syncpr_simulate_dynamic. rewrite (proj2 (validate_iff 2 _) H). cbn [bind Nat.eqb]. unfold simulate_dynamic. cbn [dynamic_loop].
  assert (One : memory_order_value 2 [1; -1]%Q [0; PI] = 1).
  { destruct (C137_memory_order 2 [1; -1]%Q [0; PI] ltac:(lia) H) as (v & Ev & _ & Hv). apply (recalled_is 2 _ _ v ltac:(lia) H) in Ev. rewrite <- Ev. apply Hv.
    intros i j Hi Hj. assert (C : forall a, cos (a - a) = 1) by (intro a; rewrite Rminus_diag_eq by reflexivity; apply cos_0).
    destruct i as [|[|i]], j as [|[|j]]; try lia; cbn [nth feature]; unfold feature; cbn [nth]; unfold Q2R; cbn; rewrite ?C; try lra; [replace (0 - PI) with (- PI) by lra; rewrite cos_neg, cos_PI; lra|rewrite Rminus_0_r, cos_PI; lra]. }
  destruct (Rlt_dec (memory_order_value 2 [1; -1]%Q (load_pattern [1; -1]%Q)) 1); cbn [bind]; [|eexists; reflexivity]. rewrite One. destruct (Rlt_dec _ (1 / 100)); cbn [bind]; [eexists; reflexivity|].
  destruct (Rlt_dec 1 1); [lra|]. cbn [bind]. eexists. reflexivity.
Qed.
