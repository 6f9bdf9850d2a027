(** C122, C123, C134: the simulation of phase oscillators (sync_network and syncnet). *)
From Verif Require Import Base Topology_Model Topology_Proofs Kuramoto_Model Kuramoto_Proofs.
From Coq Require Import Reals Lra.
Open Scope R_scope.

(** [S] is a group of oscillators of the network that no connection leaves *)
Definition group_of_network (net : network) (S : nat -> Prop) : Prop :=
  forall i k, S i -> (i < n_osc net)%nat -> In k (get_neighbors net i) -> S k /\ (k < n_osc net)%nat.

(** the step of syncnet and of sync_network *)
Definition syncnet_step (fuel : nat) (net : network) weight conn_weight freq (phases : list R) : res (list R) :=
  calculate_phases fuel (phase_kuramoto_syncnet net weight conn_weight freq phases) phases (seq 0 (n_osc net)).
Definition sync_step (fuel : nat) (net : network) weight freq (phases : list R) : res (list R) :=
  calculate_phases fuel (phase_kuramoto net weight freq phases) phases (seq 0 (n_osc net)).

(** C122: oscillators of a group whose phases lie within an arc shorter than a half circle never leave this arc, whatever
    the other oscillators do, and the step never fails for them. *)
Theorem C122_arc_kept_syncnet :
  forall fuel net weight conn_weight freq (S : nat -> Prop) lo hi s l,
  group_of_network net S -> 0 <= lo -> hi <= 2 * PI -> hi - lo < PI -> 0 <= weight <= 1 ->
  (forall m a b, conn_weight = Some m -> 0 <= m a b <= 1) -> (forall i, S i -> nth i freq 0 = 0) ->
  length s = n_osc net -> within_arc S lo hi s ->
  chain (syncnet_step fuel net weight conn_weight freq) s l -> Forall (within_arc S lo hi) l.
Proof.
  intros fuel net weight cw freq S lo hi s l Hg Hlo Hhi Hd Hw Hcw Hf Hl Ha Hc. revert Hl Ha. induction Hc as [s|s s' l E Hc IH]; intros Hl Ha; [constructor|].
  unfold syncnet_step in E. apply calculate_nth in E as [E1 E2]. rewrite seq_length in E1, E2.
  assert (Ha' : within_arc S lo hi s').
  { intros i Hi Si. rewrite E1 in Hi. specialize (E2 i Hi). rewrite seq_nth0 in E2 by auto.
    assert (B : lo <= rnth s i + phase_kuramoto_syncnet net weight cw freq s i (rnth s i) <= hi).
    { apply (kuramoto_syncnet_arc net weight cw freq s (fun k => S k /\ (k < n_osc net)%nat)); auto.
      - intros a k [H1 H2] Hk. eapply Hg; eauto.
      - intros k [H1 H2]. apply Ha; auto. lia.
      - apply Hf; auto. }
    rewrite normalization_id in E2 by lra. apply Ok_inj in E2. unfold rnth in *. rewrite <- E2. exact B. }
  constructor; auto.
Qed.
Print Assumptions C122_arc_kept_syncnet.

Theorem C122_arc_kept_sync :
  forall fuel net weight freq (S : nat -> Prop) lo hi s l,
  (forall i k, S i -> (i < n_osc net)%nat -> (k < n_osc net)%nat -> has_connection net i k = true -> S k) ->
  0 <= lo -> hi <= 2 * PI -> hi - lo < PI -> 0 <= weight <= 1 -> (forall i, S i -> nth i freq 0 = 0) ->
  length s = n_osc net -> within_arc S lo hi s ->
  chain (sync_step fuel net weight freq) s l -> Forall (within_arc S lo hi) l.
Proof.
  intros fuel net weight freq S lo hi s l Hg Hlo Hhi Hd Hw Hf Hl Ha Hc. revert Hl Ha. induction Hc as [s|s s' l E Hc IH]; intros Hl Ha; [constructor|].
  unfold sync_step in E. apply calculate_nth in E as [E1 E2]. rewrite seq_length in E1, E2.
  assert (Ha' : within_arc S lo hi s').
  { intros i Hi Si. rewrite E1 in Hi. specialize (E2 i Hi). rewrite seq_nth0 in E2 by auto.
    assert (B : lo <= rnth s i + phase_kuramoto net weight freq s i (rnth s i) <= hi).
    { apply (kuramoto_arc net weight freq s (fun k => S k /\ (k < n_osc net)%nat)); auto.
      - intros a k [H1 H2] Hk Hc'. split; auto. eapply Hg; eauto.
      - intros k [H1 H2]. apply Ha; auto. lia.
      - apply Hf; auto. }
    rewrite normalization_id in E2 by lra. apply Ok_inj in E2. unfold rnth in *. rewrite <- E2. exact B. }
  constructor; auto.
Qed.
Print Assumptions C122_arc_kept_sync.

(** C122: synchronised groups and isolated oscillators stay as they are *)
Theorem C122_synchronised_stays :
  forall fuel net weight conn_weight freq (S : nat -> Prop) c s l,
  group_of_network net S -> 0 <= c <= 2 * PI -> 0 <= weight <= 1 ->
  (forall m a b, conn_weight = Some m -> 0 <= m a b <= 1) -> (forall i, S i -> nth i freq 0 = 0) ->
  length s = n_osc net -> (forall i, (i < length s)%nat -> S i -> nth i s 0 = c) ->
  chain (syncnet_step fuel net weight conn_weight freq) s l ->
  Forall (fun st => forall i, (i < length st)%nat -> S i -> nth i st 0 = c) l.
Proof.
  intros fuel net weight cw freq S c s l Hg Hcc Hw Hcw Hf Hl Hs Hc.
  pose proof PI_RGT_0 as HP.
  assert (H : Forall (within_arc S c c) l).
  { eapply C122_arc_kept_syncnet; [exact Hg|lra|lra|lra|exact Hw|exact Hcw|exact Hf|exact Hl| |exact Hc]. intros i Hi Si. rewrite Hs; auto. lra. }
  eapply Forall_impl; [|exact H]. intros st Hst i Hi Si. specialize (Hst i Hi Si). lra.
Qed.
Print Assumptions C122_synchronised_stays.

(** C122: a step whose oscillators all lie in such an arc always succeeds (no normalisation is needed) *)
Theorem C122_step_succeeds :
  forall fuel net weight conn_weight freq lo hi s,
  (forall i k, (i < n_osc net)%nat -> In k (get_neighbors net i) -> (k < n_osc net)%nat) ->
  0 <= lo -> hi <= 2 * PI -> hi - lo < PI -> 0 <= weight <= 1 ->
  (forall m a b, conn_weight = Some m -> 0 <= m a b <= 1) -> (forall i, nth i freq 0 = 0) ->
  length s = n_osc net -> within_arc (fun _ => True) lo hi s ->
  exists s', syncnet_step fuel net weight conn_weight freq s = Ok s' /\ length s' = n_osc net.
Proof.
  intros fuel net weight cw freq lo hi s Hn Hlo Hhi Hd Hw Hcw Hf Hl Ha. unfold syncnet_step.
  destruct (calculate_total fuel (phase_kuramoto_syncnet net weight cw freq s) s (seq 0 (n_osc net))) as [ps E].
  - intros i Hi. apply in_seq in Hi. eexists. apply normalization_id.
    assert (B : lo <= rnth s i + phase_kuramoto_syncnet net weight cw freq s i (rnth s i) <= hi).
    { apply (kuramoto_syncnet_arc net weight cw freq s (fun k => (k < n_osc net)%nat) lo hi i); try assumption.
      - apply Hi.
      - intros k Hk. apply Ha; auto. lia.
      - apply Hf. }
    lra.
  - exists ps. split; auto. apply calculate_nth in E as [E _]. rewrite seq_length in E. auto.
Qed.
Print Assumptions C122_step_succeeds.

(** every phase that is recorded after a step lies in [0, 2 pi] *)
Theorem C122_phases_normalised :
  forall fuel net weight conn_weight freq s s', syncnet_step fuel net weight conn_weight freq s = Ok s' ->
  length s' = n_osc net /\ forall i, (i < n_osc net)%nat -> 0 <= nth i s' 0 <= 2 * PI.
Proof.
  intros fuel net weight cw freq s s' E. apply calculate_nth in E as [E1 E2]. rewrite seq_length in E1, E2. split; auto.
  intros i Hi. specialize (E2 i Hi). eapply normalization_range. exact E2.
Qed.
Print Assumptions C122_phases_normalised.

(** C134: the step is the Kuramoto equation: the new phase is, up to full turns, the old phase plus the own frequency plus the
    coupling times the sum of the sines of the phase differences to the connected oscillators, divided by the size of the
    network (sync_network) or by the number of neighbours (syncnet) *)
Theorem C134_sync_equation :
  forall fuel net weight freq s s', sync_step fuel net weight freq s = Ok s' ->
  length s' = n_osc net /\ forall i, (i < n_osc net)%nat -> 0 <= nth i s' 0 <= 2 * PI /\ exists turns : Z,
    nth i s' 0 = nth i s 0 + nth i freq 0 +
      weight * rsum (fun k => sin (nth k s 0 - nth i s 0)) (filter (has_connection net i) (seq 0 (n_osc net))) / INR (n_osc net) + IZR turns * (2 * PI).
Proof.
  intros fuel net weight freq s s' E. apply calculate_nth in E as [E1 E2]. rewrite seq_length in E1, E2. split; auto.
  intros i Hi. specialize (E2 i Hi). rewrite seq_nth0 in E2 by auto. split; [eapply normalization_range; exact E2|].
  apply normalization_same_angle in E2 as (k & E). exists k. unfold phase_kuramoto in E. rewrite (fold_sum_if (has_connection net i)) in E.
  unfold rnth in E. rewrite E. unfold Rdiv. ring.
Qed.
Print Assumptions C134_sync_equation.

Theorem C134_syncnet_equation :
  forall fuel net weight conn_weight freq s s', syncnet_step fuel net weight conn_weight freq s = Ok s' ->
  length s' = n_osc net /\ forall i, (i < n_osc net)%nat -> 0 <= nth i s' 0 <= 2 * PI /\ exists turns : Z,
    nth i s' 0 = nth i s 0 + nth i freq 0 +
      (if Nat.eqb (length (get_neighbors net i)) 0 then 0 else
       weight * rsum (fun k => match conn_weight with None => 1 | Some w => w i k end * sin (nth k s 0 - nth i s 0)) (get_neighbors net i)
         / INR (length (get_neighbors net i))) + IZR turns * (2 * PI).
Proof.
  intros fuel net weight cw freq s s' E. apply calculate_nth in E as [E1 E2]. rewrite seq_length in E1, E2. split; auto.
  intros i Hi. specialize (E2 i Hi). rewrite seq_nth0 in E2 by auto. split; [eapply normalization_range; exact E2|].
  apply normalization_same_angle in E2 as (k & E). exists k. unfold phase_kuramoto_syncnet in E. cbv zeta in E. rewrite fold_sum in E.
  unfold rnth in E. rewrite E. rewrite (rsum_ext _ (fun k => weight * (match cw with None => 1 | Some w => w i k end * sin (nth k s 0 - nth i s 0)))) by (intros; ring).
  rewrite rsum_scale. destruct (get_neighbors net i) as [|x t]; cbn [length Nat.eqb]; [cbn [rsum fold_right]; unfold Rdiv; ring|unfold Rdiv; ring].
Qed.
Print Assumptions C134_syncnet_equation.

(** the normalisation always comes to an end *)
Theorem C134_step_ends :
  forall net weight conn_weight freq s, exists m, forall fuel, (m <= fuel)%nat ->
  (exists s', sync_step fuel net weight freq s = Ok s') /\ exists s', syncnet_step fuel net weight conn_weight freq s = Ok s'.
Proof.
  intros net weight cw freq s. destruct (calculate_ends (phase_kuramoto net weight freq s) s (seq 0 (n_osc net))) as (m1 & H1).
  destruct (calculate_ends (phase_kuramoto_syncnet net weight cw freq s) s (seq 0 (n_osc net))) as (m2 & H2).
  exists (Nat.max m1 m2). intros fuel Hf. split; [apply H1|apply H2]; lia.
Qed.
Print Assumptions C134_step_ends.

Definition line_net : network := mkNet 4 CListBidir (create_structure CListBidir RList 4 0) 0 0.

Example C122_meets_hypotheses :
  group_of_network line_net (fun _ => True) /\ within_arc (fun _ => True) 1 2 [1; 2; 1; 3 / 2] /\ 2 - 1 < PI /\
  exists s', syncnet_step 0 line_net 1 None [0; 0; 0; 0] [1; 2; 1; 3 / 2] = Ok s'.
Proof.
  assert (G : group_of_network line_net (fun _ => True)).
  { intros i k _ Hi Hk. split; auto. cbn in *. destruct i as [|[|[|[|i]]]]; cbn in Hk; try lia. }
  assert (A : within_arc (fun _ => True) 1 2 [1; 2; 1; 3 / 2]).
  { intros i Hi _. destruct i as [|[|[|[|i]]]]; cbn [nth]; try lra. cbn in Hi. lia. }
  assert (P : 2 - 1 < PI) by (pose proof PI2_1; lra).
  split; [exact G|]. split; [exact A|]. split; [exact P|].
  destruct (C122_step_succeeds 0 line_net 1 None [0; 0; 0; 0] 1 2 [1; 2; 1; 3 / 2]) as (s' & E & _); try exact A; try lra; try discriminate; auto.
  - intros i k Hi Hk. apply (G i k I Hi Hk).
  - intros i. destruct i as [|[|[|[|[|i]]]]]; reflexivity.
  - exists s'. exact E.
Qed.

(** C123: what simulate_dynamic records: the given state and its successors, as long as the order is too small and still
    changes; it ends when the order is reached or the change falls below the threshold. *)
Theorem C123_simulate_dynamic :
  forall next local_order fuel collect order step threshold s final out times,
  simulate_dynamic next local_order fuel collect order step threshold s = Ok (final, (out, times)) ->
  exists l, chain next s l /\ final = last l s /\
    (collect = true -> out = s :: l /\ length times = length out /\
       forall k, (k < length times)%nat -> nth k times 0 = INR k * step) /\
    (collect = false -> out = [final] /\ times = [INR (length l) * step]) /\
    (forall k, (k < length l)%nat -> local_order (nth k (s :: l) []) < order) /\
    (forall k, (S k < length l)%nat -> threshold <= Rabs (local_order (nth (S k) (s :: l) []) - local_order (nth k (s :: l) []))) /\
    (order <= local_order final \/ (l <> [] /\ Rabs (local_order final - local_order (nth (length l - 1) (s :: l) [])) < threshold)).
Proof.
  intros next lo fuel collect order step threshold s final out times E. unfold simulate_dynamic in E.
  destruct (dynamic_loop next lo fuel collect order step threshold s (lo s) 0 (if collect then ([s], [0]) else ([], []))) as [r|e] eqn:El; cbn [bind] in E; [|discriminate].
  apply dynamic_loop_spec in El as (l & Hc & Hr). destruct r as [[f t] d]. destruct Hr as (R1 & R2 & R3 & R4 & R5 & R6 & R7 & R8).
  apply Ok_inj in E. exists l. split; [exact Hc|].
  assert (Ef : f = final) by congruence. rewrite Ef in *. clear Ef. split; [exact R1|]. split; [|split; [|split; [exact R6|split; [exact R7|exact R8]]]].
  - intros ->. assert (Ed : d = (out, times)) by congruence. subst d. cbn [fst snd] in *. specialize (R3 eq_refl). split; [exact R2|]. rewrite R2, R3. cbn [length app].
    rewrite map_length, seq_length. split; [reflexivity|]. intros [|k] Hk; cbn [nth]; [simpl; lra|].
    rewrite (nth_indep _ 0 (0 + INR 1 * step)) by (rewrite map_length, seq_length; lia).
    rewrite (map_nth (fun k => 0 + INR (S k) * step)). rewrite seq_nth by lia. rewrite Nat.add_0_l. lra.
  - intros ->. specialize (R4 eq_refl). cbn [fst snd] in *. rewrite R2, R4, R5 in E. cbn [app] in E. injection E as E1 E2. split; [congruence|]. rewrite <- E2. f_equal. lra.
Qed.
Print Assumptions C123_simulate_dynamic.

(** C123: a network that already has the requested order is not simulated *)
Theorem C123_already_ordered :
  forall next local_order fuel collect order step threshold s, order <= local_order s ->
  simulate_dynamic next local_order fuel collect order step threshold s = Ok (s, ([s], [0])).
Proof.
  intros next lo fuel collect order step threshold s H. unfold simulate_dynamic. destruct fuel; cbn [dynamic_loop];
    (destruct (Rlt_dec (lo s) order) as [H1|_]; [lra|]); cbn [bind]; destruct collect; reflexivity.
Qed.
Print Assumptions C123_already_ordered.

Example C123_meets_hypotheses :
  let next ph := Ok (map (fun x => x + 1) ph) in let order_of ph := rnth ph 0 in
  simulate_dynamic next order_of 5 true 2 1 (1 / 2) [0; 0] = Ok ([0 + 1 + 1; 0 + 1 + 1], ([[0; 0]; [0 + 1; 0 + 1]; [0 + 1 + 1; 0 + 1 + 1]], [0; 0 + 1; 0 + 1 + 1])).
Proof.
  cbv zeta. unfold simulate_dynamic. cbn [dynamic_loop bind map rnth nth fst snd app].
  destruct (Rlt_dec 0 2); [|lra]. destruct (Rlt_dec (Rabs (0 + 1 - 0)) (1 / 2)) as [H|_]; [rewrite Rabs_right in H; lra|].
  destruct (Rlt_dec (0 + 1) 2); [|lra]. destruct (Rlt_dec (Rabs (0 + 1 + 1 - (0 + 1))) (1 / 2)) as [H|_]; [rewrite Rabs_right in H; lra|].
  destruct (Rlt_dec (0 + 1 + 1) 2) as [H|_]; [lra|]. reflexivity.
Qed.
