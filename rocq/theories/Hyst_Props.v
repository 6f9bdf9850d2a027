(** C160 - C162: dynamics of the hysteresis network *)
From Verif Require Import Base Topology_Model Gcolor_Model Gcolor_Proofs Kuramoto_Model Kuramoto_Proofs Odesync_Proofs Hyst_Model Hyst_Proofs.
From Verif Require Legion_Proofs.
From Coq Require Import Reals Lra Qreals.
Open Scope nat_scope.

Lemma step_pos steps time : (0 < time)%Q -> 1 <= steps -> (0 < time / inject_Z (Z.of_nat steps))%Q.
Proof. intros Ht Hs. apply Qlt_shift_div_l; [change 0%Q with (inject_Z 0); rewrite <- Zlt_Qlt; lia|]. rewrite Qmult_0_l. exact Ht. Qed.

Lemma sim_inv odeint evaluated steps time h h' outs times : (0 < time)%Q -> hyst_simulate odeint evaluated steps time h = Ok (h', (outs, times)) ->
  1 <= steps /\ exists hs, let step := (time / inject_Z (Z.of_nat steps))%Q in length hs = steps /\ h' = last hs h /\ outs = y_states h :: map y_states hs /\
    times = 0%Q :: map (fun k => (step + inject_Z (Z.of_nat k) * step)%Q) (seq 0 steps) /\
    forall j, j < steps -> hyst_step odeint evaluated (nth (S j) times 0%Q) step (step / 10) (nth j (h :: hs) h) = Ok (nth (S j) (h :: hs) h).
Proof.
  intros Ht E. unfold hyst_simulate in E. destruct (Nat.eqb_spec steps 0); [discriminate|]. split; [lia|]. cbv zeta in E.
  destruct (hyst_steps _ _ _ _ _ _) as [hs|e] eqn:Es; cbn [bind] in E; [|discriminate]. apply Ok_inj in E. injection E as <- <- <-.
  apply hyst_steps_ok in Es as [L H]. pose proof (arange_length _ time steps Ht ltac:(lia) eq_refl) as A. rewrite A in L, H. rewrite A. rewrite map_length, seq_length in L, H.
  exists hs. cbv zeta. repeat (split; [first [assumption|reflexivity]|]). exact H.
Qed.

Lemma nth_states (h : hyst_network) hs k : k <= length hs -> nth k (y_states h :: map y_states hs) [] = y_states (nth k (h :: hs) h).
Proof.
  intros Hk. change (y_states h :: map y_states hs) with (map y_states (h :: hs)). rewrite (nth_indep _ [] (y_states h)) by (rewrite map_length; cbn [length]; lia). now rewrite map_nth.
Qed.

Section Run.
Variables (odeint evaluated : (R -> R -> R) -> R -> list R -> list R) (step : Q) (h : hyst_network) (hs : list hyst_network) (t : nat -> Q) (steps : nat).
Hypothesis run : forall j, j < steps -> hyst_step odeint evaluated (t j) step (step / 10) (nth j (h :: hs) h) = Ok (nth (S j) (h :: hs) h).

Lemma run_fixed k : k <= steps -> y_net (nth k (h :: hs) h) = y_net h /\ y_weight (nth k (h :: hs) h) = y_weight h.
Proof.
  induction k as [|k IH]; intros Hk; [split; reflexivity|]. destruct (IH ltac:(lia)) as [A B]. destruct (hyst_step_ok _ _ _ _ _ _ _ (run k ltac:(lia))) as (N & W & _). rewrite N, W. auto.
Qed.

Lemma run_buffer k : y_buffer h = y_outputs h -> k <= steps -> y_buffer (nth k (h :: hs) h) = y_outputs (nth k (h :: hs) h).
Proof. intros Hb Hk. destruct k as [|k]; [exact Hb|]. destruct (hyst_step_ok _ _ _ _ _ _ _ (run k ltac:(lia))) as (_ & _ & _ & B & _). exact B. Qed.

Lemma run_binary k : y_buffer h = y_outputs h -> length (y_outputs h) = n_osc (y_net h) -> binary (y_outputs h) -> k <= steps -> binary (y_outputs (nth k (h :: hs) h)) /\ length (y_outputs (nth k (h :: hs) h)) = n_osc (y_net h).
Proof.
  intros Hb Hl B. induction k as [|k IH]; intros Hk; [auto|]. destruct (IH ltac:(lia)) as [Bk Lk]. pose proof (run_fixed k ltac:(lia)) as [N _].
  destruct (hyst_step_ok _ _ _ _ _ _ _ (run k ltac:(lia))) as (_ & _ & _ & _ & L & H). rewrite N in *. split; [|exact L]. intros x Hx. apply (In_nth _ _ 0%R) in Hx as (i & Hi & <-). rewrite L in Hi.
  destruct (H i Hi) as [_ E]. cbv zeta in E. unfold rnth at 1 in E. rewrite E. destruct (switch_spec (evaluated (neuron_field (nth k (h :: hs) h) i) (rnth (y_states (nth k (h :: hs) h)) i) (map Q2R (arange (t k - step) (t k) (step / 10)))) (rnth (y_buffer (nth k (h :: hs) h)) i)) as [[_ ->]|(b & y & a & _ & _ & [[_ ->]|[_ ->]])]; auto.
  rewrite (run_buffer k Hb) by lia. apply Bk. apply nth_In. lia.
Qed.
End Run.

(** C160: every state relaxes towards the input of the neuron: with outputs [os k] during step k+1 *)
Theorem C160_relaxation :
  forall odeint evaluated steps time h h' outs times, Legion_Proofs.exact_relax odeint -> (0 < time)%Q -> hyst_simulate odeint evaluated steps time h = Ok (h', (outs, times)) ->
  length outs = S steps /\ length times = S steps /\ nth 0 outs [] = y_states h /\ exists os, length os = S steps /\ nth 0 os [] = y_outputs h /\ last os [] = y_outputs h' /\
  forall k i, k < steps -> i < n_osc (y_net h) ->
    (nth (S k) times 0 == time * inject_Z (Z.of_nat (S k)) / inject_Z (Z.of_nat steps))%Q /\
    rnth (nth (S k) outs []) i = (input h (nth k os []) i + (rnth (nth k outs []) i - input h (nth k os []) i) * exp (- (9 / 10 * (Q2R time / INR steps))))%R.
Proof.
  intros odeint evaluated steps time h h' outs times Hx Ht E. apply sim_inv in E as (Hs & hs & L & -> & -> & Et & H); auto. cbv zeta in *. set (step := (time / inject_Z (Z.of_nat steps))%Q) in *.
  assert (Hst : (0 < step)%Q) by (apply step_pos; auto).
  assert (Es : Q2R step = (Q2R time / INR steps)%R).
  { unfold step. rewrite Q2R_div; [f_equal; unfold Q2R, inject_Z; cbn [Qnum Qden]; rewrite INR_IZR_INZ; field|]. change 0%Q with (inject_Z 0). rewrite inject_Z_injective. lia. }
  assert (Ps : (0 < inject_Z (Z.of_nat steps))%Q) by (change 0%Q with (inject_Z 0); rewrite <- Zlt_Qlt; lia).
  split; [cbn [length]; now rewrite map_length, L|]. split; [rewrite Et; cbn [length]; now rewrite map_length, seq_length|]. split; [reflexivity|].
  exists (map y_outputs (h :: hs)). split; [rewrite map_length; cbn [length]; now rewrite L|]. split; [reflexivity|]. split.
  { destruct hs as [|x hs] using rev_ind; [cbn in L; lia|]. cbn [map]. rewrite map_app. cbn [map]. rewrite app_comm_cons, !last_last. reflexivity. }
  intros k i Hk Hi. split.
  - rewrite Et. cbn [nth]. set (f := fun k => (step + inject_Z (Z.of_nat k) * step)%Q). rewrite (nth_indep _ 0%Q (f 0)) by (rewrite map_length, seq_length; lia). rewrite map_nth, seq_nth by lia. unfold f, step. cbn [Nat.add].
    rewrite <- (Nat.add_1_r k), Nat2Z.inj_add, inject_Z_plus. change (inject_Z (Z.of_nat 1)) with 1%Q. field. intros Z; rewrite Z in Ps; apply (Qlt_irrefl _ Ps).
  - pose proof (run_fixed _ _ _ _ _ _ _ H k ltac:(lia)) as [N W]. rewrite !nth_states by lia. specialize (H k Hk). apply step_relaxes with (i := i) in H; auto; [|rewrite N; exact Hi]. rewrite Es in H. rewrite H.
    rewrite (nth_indep (map y_outputs (h :: hs)) [] (y_outputs h)) by (rewrite map_length; cbn [length]; lia). rewrite map_nth.
    assert (I : forall o, input (nth k (h :: hs) h) o i = input h o i) by (intros o; unfold input, weight; rewrite N, W; reflexivity). rewrite !I. reflexivity.
Qed.
Print Assumptions C160_relaxation.

(** the recorded times are not those of the solution: the states are those after 9/10 of the time *)
Definition case_net : network := mkNet 2 CAllToAll (create_structure CAllToAll RMatrix 2 1) 1 1.
Definition case_hyst : hyst_network := set_states (hyst_create case_net (-4) (-1)) [0; 1 / 2]%R.
Lemma case_input : input case_hyst [-1; -1]%R 0 = 5%R.
Proof. unfold input, weight, rnth. cbn. unfold Q2R. cbn. lra. Qed.

Theorem C160_time_refuted :
  exists h steps time, (0 < time)%Q /\ 1 <= steps /\ forall odeint evaluated h' outs times, Legion_Proofs.exact_relax odeint -> hyst_simulate odeint evaluated steps time h = Ok (h', (outs, times)) ->
    (nth 1 times 0 == 1)%Q /\ rnth (nth 1 outs []) 0 <> (input h (y_outputs h) 0 + (rnth (nth 0 outs []) 0 - input h (y_outputs h) 0) * exp (- 1))%R.
Proof.
  exists case_hyst, 1, 1%Q. split; [reflexivity|]. split; [lia|]. intros odeint evaluated h' outs times Hx E.
  destruct (C160_relaxation odeint evaluated 1 1 case_hyst h' outs times Hx ltac:(reflexivity) E) as (_ & _ & O0 & os & Lo & S0 & _ & H). destruct (H 0 0 ltac:(lia) ltac:(cbn; lia)) as [T V].
  split; [rewrite T; reflexivity|]. rewrite V, O0, S0. change (y_outputs case_hyst) with [-1; -1]%R. rewrite case_input. change (rnth (y_states case_hyst) 0) with 0%R. intros X.
  assert (P : (exp (-1) < exp (- (9 / 10 * (Q2R 1 / INR 1))))%R) by (apply exp_increasing; unfold Q2R; cbn; lra). lra.
Qed.
Print Assumptions C160_time_refuted.

(** a solver that is exact, evaluating the derivative at the recorded states *)
Definition case_odeint (f : R -> R -> R) (y0 : R) (ts : list R) : list R :=
  let a := (f 0 0 - f 1 0)%R in map (fun t => Legion_Proofs.relax a (f 0 0 / a) y0 (t - hd 0 ts))%R ts.
Lemma case_exact : Legion_Proofs.exact_relax case_odeint.
Proof.
  intros f a b y0 t0 ts H. unfold case_odeint. rewrite !H. cbn [hd]. apply map_ext. intros t. unfold Legion_Proofs.relax. replace (a * (b - 0) - a * (b - 1))%R with a by ring.
  destruct (Req_dec a 0) as [->|Ha]; [replace (- 0 * (t - t0))%R with 0%R by ring; rewrite exp_0; ring|]. replace (a * (b - 0) / a)%R with b by (field; exact Ha). reflexivity.
Qed.
Lemma case_total : Legion_Proofs.total case_odeint.
Proof. intros f y ts. apply map_length. Qed.

Lemma simulate_total odeint evaluated steps time h : Legion_Proofs.total odeint -> (0 < time)%Q -> 1 <= steps -> exists h' outs times, hyst_simulate odeint evaluated steps time h = Ok (h', (outs, times)).
Proof.
  intros T Ht Hs. unfold hyst_simulate. destruct (Nat.eqb_spec steps 0); [lia|]. cbv zeta.
  destruct (hyst_steps_total odeint evaluated (time / inject_Z (Z.of_nat steps)) T (step_pos _ _ Ht Hs) (arange (time / inject_Z (Z.of_nat steps)) (time + time / inject_Z (Z.of_nat steps)) (time / inject_Z (Z.of_nat steps))) h) as (hs & ->). cbn [bind]. do 3 eexists. reflexivity.
Qed.

Example C160_case : exists h' outs times, hyst_simulate case_odeint case_odeint 10 5 case_hyst = Ok (h', (outs, times)).
Proof. apply simulate_total; [exact case_total|reflexivity|lia]. Qed.

(** C161: outputs *)
Theorem C161_outputs :
  forall odeint evaluated steps time h h' outs times, (0 < time)%Q -> hyst_simulate odeint evaluated steps time h = Ok (h', (outs, times)) ->
  y_buffer h = y_outputs h -> length (y_outputs h) = n_osc (y_net h) -> binary (y_outputs h) ->
  exists os es, length os = S steps /\ nth 0 os [] = y_outputs h /\ last os [] = y_outputs h' /\ (forall o, In o os -> length o = n_osc (y_net h) /\ binary o) /\
  forall k i, k < steps -> i < n_osc (y_net h) ->
    (exists f ts, (forall x t, f x t = - x + input h (nth k os []) i)%R /\ es k i = evaluated f (rnth (nth k outs []) i) ts) /\
    ((Forall (fun x => -1 <= x <= 1)%R (es k i) /\ rnth (nth (S k) os []) i = rnth (nth k os []) i) \/
     exists before x after, es k i = before ++ x :: after /\ Forall (fun x => -1 <= x <= 1)%R after /\ ((1 < x)%R /\ rnth (nth (S k) os []) i = 1%R \/ (x < -1)%R /\ rnth (nth (S k) os []) i = (-1)%R)).
Proof.
  intros odeint evaluated steps time h h' outs times Ht E Hb Hl B. apply sim_inv in E as (Hs & hs & L & -> & -> & Et & H); auto. cbv zeta in *. set (step := (time / inject_Z (Z.of_nat steps))%Q) in *.
  exists (map y_outputs (h :: hs)), (fun k i => evaluated (neuron_field (nth k (h :: hs) h) i) (rnth (y_states (nth k (h :: hs) h)) i) (map Q2R (arange (nth (S k) times 0%Q - step) (nth (S k) times 0%Q) (step / 10)))).
  assert (Nth : forall k, k <= steps -> nth k (map y_outputs (h :: hs)) [] = y_outputs (nth k (h :: hs) h)).
  { intros k Hk. rewrite (nth_indep (map y_outputs (h :: hs)) [] (y_outputs h)) by (rewrite map_length; cbn [length]; lia). apply map_nth. }
  split; [rewrite map_length; cbn [length]; now rewrite L|]. split; [reflexivity|]. split.
  { clear -L Hs. destruct hs as [|x hs] using rev_ind; [cbn in L; lia|]. cbn [map]. rewrite map_app. cbn [map]. rewrite app_comm_cons, !last_last. reflexivity. }
  split.
  { intros o Ho. apply (In_nth _ _ []) in Ho as (k & Hk & <-). rewrite map_length in Hk. cbn [length] in Hk. rewrite Nth by lia. destruct (run_binary _ _ _ _ _ _ _ H k Hb Hl B ltac:(lia)); auto. }
  intros k i Hk Hi. pose proof (run_fixed _ _ _ _ _ _ _ H k ltac:(lia)) as [N W]. pose proof (run_buffer _ _ _ _ _ _ _ H k Hb ltac:(lia)) as Bk. rewrite !Nth by lia. split.
  - do 2 eexists. split; [|rewrite nth_states by lia; reflexivity]. intros x t. unfold neuron_field. rewrite impact_input. unfold input, weight. rewrite N, W. reflexivity.
  - destruct (hyst_step_ok _ _ _ _ _ _ _ (H k Hk)) as (_ & _ & _ & _ & _ & G). rewrite N in G. destruct (G i Hi) as [_ O]. cbv zeta in O. rewrite O, Bk. apply switch_spec.
Qed.
Print Assumptions C161_outputs.

(** C162: states between -B and B stay there if no neuron can get more input *)
Theorem C162_bounded :
  forall odeint evaluated steps time h h' outs times bound, Legion_Proofs.exact_relax odeint -> (0 < time)%Q -> hyst_simulate odeint evaluated steps time h = Ok (h', (outs, times)) ->
  y_buffer h = y_outputs h -> length (y_outputs h) = n_osc (y_net h) -> binary (y_outputs h) ->
  (forall i, i < n_osc (y_net h) -> (Rabs (rnth (y_states h) i) <= bound i)%R /\ (reach h i <= bound i)%R) ->
  forall k i, k <= steps -> i < n_osc (y_net h) -> (Rabs (rnth (nth k outs []) i) <= bound i)%R.
Proof.
  intros odeint evaluated steps time h h' outs times bound Hx Ht E Hb Hl B H0. pose proof E as E'.
  destruct (sim_inv _ _ _ _ _ _ _ _ Ht E') as (Hs & hs & L & _ & Eo & Et & H). cbv zeta in *. set (step := (time / inject_Z (Z.of_nat steps))%Q) in *. assert (Hst : (0 < step)%Q) by (apply step_pos; auto).
  subst outs. induction k as [|k IH]; intros i Hk Hi; [apply H0; exact Hi|]. specialize (IH i ltac:(lia) Hi). destruct (H0 i Hi) as [_ Hr]. rewrite nth_states in * by lia.
  pose proof (run_fixed _ _ _ _ _ _ _ H k ltac:(lia)) as [N W]. destruct (run_binary _ _ _ _ _ _ _ H k Hb Hl B ltac:(lia)) as [Bk _].
  pose proof (H k ltac:(lia)) as Hstep. apply step_relaxes with (i := i) in Hstep; auto; [|rewrite N; exact Hi]. rewrite Hstep.
  pose proof (input_reach (nth k (h :: hs) h) (y_outputs (nth k (h :: hs) h)) i Bk) as I. assert (R : reach (nth k (h :: hs) h) i = reach h i) by (unfold reach, weight; rewrite N, W; reflexivity). rewrite R in I.
  set (c := input _ _ _) in *. set (x := rnth (y_states (nth k (h :: hs) h)) i) in *.
  assert (X : (0 < exp (- (9 / 10 * Q2R step)) <= 1)%R).
  { split; [apply exp_pos|]. rewrite <- exp_0. left. apply exp_increasing. apply Qlt_Rlt in Hst. rewrite RMicromega.Q2R_0 in Hst. lra. }
  set (e := exp _) in *. apply Rabs_le. assert (Ic : (Rabs c <= bound i)%R) by lra.
  assert (Inv : forall a b, (Rabs a <= b -> - b <= a <= b)%R) by (intros a b Hab; pose proof (Rle_abs a); pose proof (Rle_abs (- a)) as P; rewrite Rabs_Ropp in P; lra).
  apply Inv in IH, Ic. split; nra.
Qed.
Print Assumptions C162_bounded.

(** a new network meets the hypotheses *)
Example C162_case : y_buffer case_hyst = y_outputs case_hyst /\ length (y_outputs case_hyst) = 2 /\ binary (y_outputs case_hyst) /\ (forall i, i < 2 -> (Rabs (rnth (y_states case_hyst) i) <= 5)%R /\ (reach case_hyst i <= 5)%R).
Proof.
  split; [reflexivity|]. split; [reflexivity|]. split; [intros x Hx; cbn in Hx; right; destruct Hx as [<-|[<-|[]]]; reflexivity|].
  intros i Hi. assert (i = 0 \/ i = 1) as [->| ->] by lia; unfold reach, weight, rnth; cbn; unfold Q2R; cbn; split; unfold Rabs; repeat destruct (Rcase_abs _); lra.
Qed.

(** C160: the weights given to the constructor: a neuron without connection to itself receives its own output with [own_weight] and
    every connected output with [neigh_weight] *)
Theorem C160_weights :
  forall net own neigh outputs i, i < n_osc net -> has_connection net i i = false ->
  input (hyst_create net own neigh) outputs i = (Q2R own * rnth outputs i + Q2R neigh * rsum (fun j => rnth outputs j) (filter (fun j => has_connection net j i) (seq 0 (n_osc net))))%R.
Proof.
  intros net own neigh outputs i Hi Hn.
  assert (W : forall j, j < n_osc net -> weight (hyst_create net own neigh) i j = Q2R (if j =? i then own else neigh)).
  { intros j Hj. unfold weight, hyst_create. cbn [y_weight]. rewrite (nth_indep _ [] ((fun i => upd (repeat neigh (n_osc net)) i own) 0)) by (rewrite map_length, seq_length; exact Hi).
    rewrite (map_nth (fun i => upd (repeat neigh (n_osc net)) i own)), seq_nth by exact Hi. cbn [Nat.add]. f_equal. destruct (Nat.eqb_spec j i) as [->|Hne].
    - rewrite upd_nth_eq by (rewrite repeat_length; exact Hi). reflexivity.
    - rewrite upd_nth_neq by auto. rewrite (nth_indep _ 0%Q neigh) by (rewrite repeat_length; exact Hj). apply nth_repeat. }
  unfold input. rewrite (W i Hi), Nat.eqb_refl. f_equal. cbn [y_net hyst_create].
  assert (S : forall l, (forall j, In j l -> j < n_osc net /\ has_connection net j i = true) -> rsum (fun j => weight (hyst_create net own neigh) i j * rnth outputs j)%R l = (Q2R neigh * rsum (fun j => rnth outputs j) l)%R).
  { induction l as [|j l IH]; intros H; unfold rsum in *; cbn [fold_right]; [ring|]. rewrite IH by (intros; apply H; now right). destruct (H j (or_introl eq_refl)) as [Hj Hc]. rewrite (W j Hj).
    destruct (Nat.eqb_spec j i) as [->|Hne]; [congruence|]. ring. }
  apply S. intros j Hj. apply filter_In in Hj as [Hj Hc]. apply in_seq in Hj. split; [lia|exact Hc].
Qed.
Print Assumptions C160_weights.
Example C160_weights_case : has_connection case_net 0 0 = false /\ input (hyst_create case_net (-4) (-1)) [1; -1]%R 0 = (-3)%R.
Proof.
  split; [reflexivity|]. rewrite C160_weights by (reflexivity || (cbn; lia)). unfold rsum, rnth, Q2R. cbn. lra.
Qed.

(** C161: what a user can do with a network: create it, set outputs (+1 or -1) and states, simulate *)
Inductive used (odeint evaluated : (R -> R -> R) -> R -> list R -> list R) (net : network) : hyst_network -> Prop :=
| used_create own neigh : used odeint evaluated net (hyst_create net own neigh)
| used_outputs h values : used odeint evaluated net h -> binary values -> length values = n_osc net -> used odeint evaluated net (set_outputs h values)
| used_states h values : used odeint evaluated net h -> used odeint evaluated net (set_states h values)
| used_simulate h steps time h' outs times : used odeint evaluated net h -> (0 < time)%Q -> hyst_simulate odeint evaluated steps time h = Ok (h', (outs, times)) -> used odeint evaluated net h'.

(** so the conditions of C161_outputs and C162_bounded hold in every network in use *)
Theorem C161_in_use :
  forall odeint evaluated net h, used odeint evaluated net h ->
  y_net h = net /\ y_buffer h = y_outputs h /\ length (y_outputs h) = n_osc (y_net h) /\ binary (y_outputs h).
Proof.
  intros odeint evaluated net h U. induction U as [own neigh|h values U IH B L|h values U IH|h steps time h' outs times U IH Ht E].
  - cbn [hyst_create y_net y_buffer y_outputs]. rewrite repeat_length. repeat split; auto. intros x Hx. apply repeat_spec in Hx. now right.
  - destruct IH as (N & _ & _ & _). cbn [set_outputs y_net y_buffer y_outputs]. rewrite N. auto.
  - exact IH.
  - destruct IH as (N & Hb & Hl & B). apply sim_inv in E as (Hs & hs & L & -> & -> & Et & H); auto. cbv zeta in *. set (step := (time / inject_Z (Z.of_nat steps))%Q) in *.
    assert (Ln : last hs h = nth steps (h :: hs) h).
    { destruct hs as [|a hs0]; [cbn in L; lia|]. rewrite <- L. cbn [length nth]. symmetry. change (nth (length hs0) (a :: hs0) h = last (a :: hs0) h). clear. revert a. induction hs0 as [|b l IH]; intros a; [reflexivity|]. exact (IH b). }
    rewrite Ln. destruct (run_fixed _ _ _ _ _ _ _ H steps ltac:(lia)) as [N' _]. destruct (run_binary _ _ _ _ _ _ _ H steps Hb Hl B ltac:(lia)) as [Bk Lk]. rewrite N'.
    repeat split; auto. apply (run_buffer _ _ _ _ _ _ _ H steps Hb). lia.
Qed.
Print Assumptions C161_in_use.
Example C161_in_use_case : used case_odeint case_odeint case_net (set_outputs case_hyst [1; -1]%R).
Proof. apply used_outputs; [apply used_states, used_create| |reflexivity]. intros x [<-|[<-|[]]]; auto. Qed.
