(** Proofs about the hysteresis network *)
From Verif Require Import Base Topology_Model Gcolor_Model Gcolor_Proofs Kuramoto_Model Kuramoto_Proofs Odesync_Proofs Hyst_Model.
From Verif Require Legion_Proofs.
From Coq Require Import Reals Lra Qreals.
Open Scope nat_scope.

(** * Specification *)
(** the input of a neuron: its own weighted output and those of the neurons connected with it *)
Definition input (h : hyst_network) (outputs : list R) (i : nat) : R :=
  (weight h i i * rnth outputs i + rsum (fun j => weight h i j * rnth outputs j)%R (filter (fun j => has_connection (y_net h) j i) (seq 0 (n_osc (y_net h)))))%R.
(** the largest input for outputs between -1 and 1 *)
Definition reach (h : hyst_network) (i : nat) : R :=
  (Rabs (weight h i i) + rsum (fun j => Rabs (weight h i j)) (filter (fun j => has_connection (y_net h) j i) (seq 0 (n_osc (y_net h)))))%R.
Definition binary (outputs : list R) : Prop := forall x, In x outputs -> (x = 1 \/ x = -1)%R.

Lemma impact_input h i : impact h i = input h (y_outputs h) i.
Proof. unfold impact, input. apply (fold_sum_if (fun j => has_connection (y_net h) j i) (fun j => weight h i j * rnth (y_outputs h) j)%R). Qed.

Lemma rsum_abs (f g : nat -> R) l : (forall j, In j l -> Rabs (f j) <= g j)%R -> (Rabs (rsum f l) <= rsum g l)%R.
Proof.
  induction l as [|j l IH]; intros H; unfold rsum; cbn [fold_right]; [rewrite Rabs_R0; lra|].
  eapply Rle_trans; [apply Rabs_triang|]. apply Rplus_le_compat; [apply H; now left|apply IH; intros; apply H; now right].
Qed.

Lemma abs_binary x : (x = 1 \/ x = -1 \/ x = 0 -> Rabs x <= 1)%R.
Proof. intros [-> | [-> | ->]]; unfold Rabs; destruct (Rcase_abs _); lra. Qed.

Lemma input_reach h outputs i : binary outputs -> (Rabs (input h outputs i) <= reach h i)%R.
Proof.
  intros B. assert (A : forall j, (Rabs (rnth outputs j) <= 1)%R).
  { intros j. apply abs_binary. unfold rnth. destruct (Nat.lt_ge_cases j (length outputs)) as [Hj|Hj]; [destruct (B _ (nth_In _ 0%R Hj)); auto|right; right; now apply nth_overflow]. }
  assert (M : forall w x, (Rabs x <= 1 -> Rabs (w * x) <= Rabs w)%R) by (intros w x Hx; rewrite Rabs_mult; pose proof (Rabs_pos w); nra).
  unfold input, reach. eapply Rle_trans; [apply Rabs_triang|]. apply Rplus_le_compat; [apply M, A|]. apply rsum_abs. intros j _. apply M, A.
Qed.

Section Solver.
Variables odeint evaluated : (R -> R -> R) -> R -> list R -> list R.

Lemma states_nth h times : forall indexes xs, neuron_states odeint h times indexes = Ok xs -> length xs = length indexes /\
  forall k, k < length indexes -> exists before, odeint (neuron_field h (nth k indexes 0)) (rnth (y_states h) (nth k indexes 0)) times = before ++ [rnth xs k].
Proof.
  induction indexes as [|i l IH]; intros xs E; cbn [neuron_states] in E; [apply Ok_inj in E; subst; split; auto; cbn; intros; lia|].
  destruct (rev _) as [|x b] eqn:Er; [discriminate|]. destruct (neuron_states _ _ _ l) as [r|e]; cbn [bind] in E; [|discriminate]. apply Ok_inj in E. subst xs. destruct (IH _ eq_refl) as [L H].
  split; [cbn [length]; now rewrite L|]. intros [|k] Hk; cbn [nth length] in *; [|apply H; lia]. exists (rev b). apply (f_equal (@rev R)) in Er. rewrite rev_involutive in Er. exact Er.
Qed.

Lemma states_total h times : Legion_Proofs.total odeint -> times <> [] -> forall indexes, exists xs, neuron_states odeint h times indexes = Ok xs.
Proof.
  intros T Hne. induction indexes as [|i l (xs & IH)]; cbn [neuron_states]; [eauto|].
  destruct (rev _) as [|x b] eqn:Er; [|rewrite IH; cbn [bind]; eauto]. apply (f_equal (@length R)) in Er. rewrite rev_length, T in Er. destruct times; [congruence|discriminate].
Qed.

Lemma hyst_step_ok t step int_step h next : hyst_step odeint evaluated t step int_step h = Ok next ->
  y_net next = y_net h /\ y_weight next = y_weight h /\ length (y_states next) = n_osc (y_net h) /\ y_buffer next = y_outputs next /\ length (y_outputs next) = n_osc (y_net h) /\
  forall i, i < n_osc (y_net h) -> let times := map Q2R (arange (t - step) t int_step) in
    (exists before, odeint (neuron_field h i) (rnth (y_states h) i) times = before ++ [rnth (y_states next) i]) /\
    rnth (y_outputs next) i = fold_left switch (evaluated (neuron_field h i) (rnth (y_states h) i) times) (rnth (y_buffer h) i).
Proof.
  intros E. unfold hyst_step in E. destruct (neuron_states _ _ _ _) as [xs|e] eqn:Es; cbn [bind] in E; [|discriminate]. apply Ok_inj in E. subst next. cbn [y_net y_weight y_states y_outputs y_buffer].
  destruct (states_nth _ _ _ _ Es) as [L H]. rewrite seq_length in L, H. do 4 (split; [first [assumption|reflexivity]|]). split; [now rewrite map_length, seq_length|].
  intros i Hi. set (times := map Q2R _) in *. specialize (H i Hi). rewrite seq_nth in H by exact Hi. split; [exact H|].
  set (f := fun i => fold_left switch (evaluated (neuron_field h i) (rnth (y_states h) i) times) (rnth (y_buffer h) i)). unfold rnth at 1. rewrite (nth_indep _ 0%R (f 0)) by (rewrite map_length, seq_length; exact Hi). rewrite map_nth, seq_nth by exact Hi. reflexivity.
Qed.

Lemma hyst_steps_ok step int_step : forall times h hs, hyst_steps odeint evaluated step int_step times h = Ok hs ->
  length hs = length times /\ forall j, j < length times -> hyst_step odeint evaluated (nth j times 0%Q) step int_step (nth j (h :: hs) h) = Ok (nth (S j) (h :: hs) h).
Proof.
  induction times as [|t times IH]; intros h hs E; cbn [hyst_steps] in E.
  - apply Ok_inj in E. subst. split; auto. cbn [length]. intros; lia.
  - destruct (hyst_step _ _ _ _ _ _) as [next|e] eqn:En; cbn [bind] in E; [|discriminate].
    destruct (hyst_steps _ _ _ _ times next) as [r|e] eqn:Er; cbn [bind] in E; [|discriminate]. apply Ok_inj in E. subst hs.
    destruct (IH _ _ Er) as [L H]. split; [cbn [length]; now rewrite L|]. intros [|j] Hj; cbn [nth length] in *; [exact En|].
    specialize (H j ltac:(lia)). cbn [nth] in H. replace (nth j r h) with (nth j r next) by (apply nth_indep; lia).
    destruct j as [|j]; cbn [nth] in *; [exact H|]. rewrite (nth_indep r h next) by lia. exact H.
Qed.

Lemma hyst_steps_total step : Legion_Proofs.total odeint -> (0 < step)%Q -> forall times h, exists hs, hyst_steps odeint evaluated step (step / 10) times h = Ok hs.
Proof.
  intros T Hs. induction times as [|t times IH]; intros h; cbn [hyst_steps]; [eauto|].
  assert (C : exists next, hyst_step odeint evaluated t step (step / 10) h = Ok next).
  { unfold hyst_step. rewrite (arange_step t step Hs). set (ts := map Q2R _). assert (Hne : ts <> []) by (unfold ts; cbn [seq map]; discriminate).
    destruct (states_total h ts T Hne (seq 0 (n_osc (y_net h)))) as (xs & ->). cbn [bind]. eauto. }
  destruct C as (next & ->). cbn [bind]. destruct (IH next) as (r & ->). cbn [bind]. eauto.
Qed.

Lemma step_relaxes t step h next i : Legion_Proofs.exact_relax odeint -> (0 < step)%Q -> hyst_step odeint evaluated t step (step / 10) h = Ok next -> i < n_osc (y_net h) ->
  rnth (y_states next) i = (input h (y_outputs h) i + (rnth (y_states h) i - input h (y_outputs h) i) * exp (- (9 / 10 * Q2R step)))%R.
Proof.
  intros Hx Hs E Hi. apply hyst_step_ok in E as (_ & _ & _ & _ & _ & H). destruct (H i Hi) as [(before & B) _]. cbv zeta in B.
  destruct (Legion_Proofs.step_times t step Hs) as (t0 & ts & Et & b & Eb). rewrite Et in B.
  rewrite (Hx _ 1%R (impact h i)) in B by (intros; unfold neuron_field; ring). rewrite Eb, map_app in B. cbn [map] in B. apply app_inj_tail in B as [_ B]. rewrite <- B, impact_input. unfold Legion_Proofs.relax.
  f_equal. f_equal. f_equal. ring.
Qed.

(** * Switching *)
Lemma switch_cases o x : ((1 < x)%R /\ switch o x = 1%R) \/ ((x < -1)%R /\ switch o x = (-1)%R) \/ ((-1 <= x <= 1)%R /\ switch o x = o).
Proof. unfold switch. destruct (Rlt_dec 1 x), (Rlt_dec x (-1)); try (left; split; auto; lra); try (right; left; split; auto; lra); try (right; right; split; auto; lra). Qed.

(** the output after the evaluations is decided by the last one outside [-1, 1] *)
Lemma switch_spec l : forall o, (Forall (fun x => -1 <= x <= 1)%R l /\ fold_left switch l o = o) \/
  exists before x after, l = before ++ x :: after /\ Forall (fun x => -1 <= x <= 1)%R after /\ ((1 < x)%R /\ fold_left switch l o = 1%R \/ (x < -1)%R /\ fold_left switch l o = (-1)%R).
Proof.
  induction l as [|y l IH]; intros o; cbn [fold_left]; [left; split; constructor|]. destruct (IH (switch o y)) as [[F E]|(b & x & a & -> & F & H)].
  - destruct (switch_cases o y) as [[Y S]|[[Y S]|[Y S]]]; rewrite S in *.
    + right. exists [], y, l. split; auto.
    + right. exists [], y, l. split; auto.
    + left. split; [now constructor|exact E].
  - right. exists (y :: b), x, a. split; auto.
Qed.
End Solver.
