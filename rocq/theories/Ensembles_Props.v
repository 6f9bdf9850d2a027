(** C40, C41, C42 and the related C59-C62: ensembles extracted from recorded dynamics. *)
From Verif Require Import Base Ensembles_Model Ensembles_Proofs.

(** * C40: sync ensembles *)

(** full statement of C40 for one dynamic (circle of length [period]) *)
Definition circle_ensembles (period tolerance : Q) (state : list Q) (gs : list (list nat)) : Prop :=
  partitions (length state) gs /\ no_empty gs /\
  Forall (chained (fun v u => (circle_dist period (phase state v) (phase state u) < tolerance)%Q)) gs.

(** false: phases are reflected, not shifted; oscillators in antiphase are put in one ensemble *)
Theorem C40_sync_antiphase (period tolerance : Q) :
  (0 < tolerance <= (1#2) * period)%Q ->
  let state := [(1#4) * period; (3#4) * period]%Q in
  sync_ensembles period [state] tolerance None None = Ok [[0; 1]] /\
  (circle_dist period (phase state 1) (phase state 0) == (1#2) * period)%Q /\
  ~ circle_ensembles period tolerance state [[0; 1]].
Proof.
  intros [Ht Hp] state.
  assert (Hp0 : (0 < period)%Q) by lra.
  assert (Hd : (circle_dist period (phase state 1) (phase state 0) == (1#2) * period)%Q).
  { unfold circle_dist, phase, state. cbn [nth]. cbv zeta.
    destruct (Qle_bool _ _); rewrite Qabs_pos by lra; lra. }
  split; [|split; auto].
  - assert (Hc : sync_close period state tolerance 1 0 = true); [apply sync_close_spec|
      exact (sync_two _ _ _ _ Hc)].
    right. unfold phase, state. cbn [nth]. rewrite (Qabs_neg ((3#4) * period - period)) by lra.
    rewrite Qabs_lt_iff. split; lra.
  - intros (_ & _ & H). inversion H as [|g l Hc _]; subst.
    destruct (Hc [0] 1 [] eq_refl ltac:(discriminate)) as [u [[<-|[]] Hu]]. lra.
Qed.
Print Assumptions C40_sync_antiphase.
Theorem C40_sync_circle_refuted : exists (period tolerance : Q) state gs,
  (0 < tolerance <= (1#2) * period)%Q /\ sync_ensembles period [state] tolerance None None = Ok gs /\ ~ circle_ensembles period tolerance state gs.
Proof.
  exists 6%Q, (1 # 100), [(1#4) * 6; (3#4) * 6]%Q, [[0; 1]]. assert (H : (0 < 1 # 100 <= (1#2) * 6)%Q) by (split; reflexivity || (vm_compute; discriminate)).
  destruct (C40_sync_antiphase 6 (1 # 100) H) as (E & _ & N). auto.
Qed.
Print Assumptions C40_sync_circle_refuted.


Example C40_refuted_case : (0 < 1 # 100 <= (1#2) * 6)%Q.
Proof. split; reflexivity || (vm_compute; discriminate). Qed.

(** with [indexes] the numbers of founders and members are mixed: no partition of the indexes *)
Theorem C40_sync_indexes_refuted :
  exists (period tolerance : Q) state indexes gs,
    (0 < tolerance)%Q /\ (tolerance < period)%Q /\ NoDup indexes /\ length indexes = length state /\
    sync_ensembles period [state] tolerance (Some indexes) None = Ok gs /\
    ~ Permutation (concat gs) indexes.
Proof.
  exists 6%Q, (1 # 10), [1; 1]%Q, [1; 0], [[0; 0]].
  split; [reflexivity|]. split; [reflexivity|]. split; [repeat constructor; simpl; intuition discriminate|].
  split; [reflexivity|]. split; [reflexivity|]. intros H.
  apply Permutation_sym, (Permutation_in 1) in H; simpl in *; intuition discriminate.
Qed.
Print Assumptions C40_sync_indexes_refuted.

(** and it may read outside the state *)
Theorem C40_sync_indexes_fail_refuted :
  exists (period tolerance : Q) state indexes,
    (0 < tolerance)%Q /\ (tolerance < period)%Q /\ NoDup indexes /\ length indexes = length state /\
    sync_ensembles period [state] tolerance (Some indexes) None = Raise IndexError.
Proof.
  exists 6%Q, (1 # 10), [1; 1; 2]%Q, [10; 11; 12]. repeat split; try reflexivity.
  repeat constructor; simpl; intuition discriminate.
Qed.
Print Assumptions C40_sync_indexes_fail_refuted.

(** * C59: what is true of the sync ensembles *)
Theorem C59_sync_ensembles_partition period tolerance dynamic it state n :
  nth_error dynamic (match it with None => length dynamic - 1 | Some k => k end) = Some state ->
  (forall st, In st dynamic -> length st = S n) ->
  exists gs, sync_ensembles period dynamic tolerance None it = Ok gs /\
    partitions (S n) gs /\ no_empty gs /\ Forall (StronglySorted lt) gs /\
    Forall (chained (fun v u => sync_accepts period tolerance (phase state v) (phase state u))) gs /\
    first_fit (fun v u => sync_accepts period tolerance (phase state v) (phase state u)) gs.
Proof. exact (sync_ensembles_spec period tolerance dynamic it state n). Qed.
Print Assumptions C59_sync_ensembles_partition.

(** oscillators that are near on the circle never end in ensembles such that the later one
    is placed behind the earlier one *)
Theorem C59_sync_near_not_separated period tolerance dynamic it state n gs :
  nth_error dynamic (match it with None => length dynamic - 1 | Some k => k end) = Some state ->
  (forall st, In st dynamic -> length st = S n) ->
  (forall i : nat, i <= n -> (0 <= phase state i <= period)%Q) ->
  sync_ensembles period dynamic tolerance None it = Ok gs ->
  forall l1 g1 l2 g2 l3 u v, gs = l1 ++ g1 :: l2 ++ g2 :: l3 -> In u g1 -> In v g2 -> u < v ->
    (tolerance <= circle_dist period (phase state v) (phase state u))%Q.
Proof.
  intros Hs Hl Hr E l1 g1 l2 g2 l3 u v Eg Hu Hv Huv.
  destruct (sync_ensembles_spec period tolerance dynamic it state n Hs Hl) as [gs' [E' (Hp & _ & _ & _ & Hf)]].
  rewrite E in E'. apply Ok_inj in E'. subst gs'.
  destruct (Qlt_le_dec (circle_dist period (phase state v) (phase state u)) tolerance) as [H|H]; auto.
  exfalso. apply (Hf l1 g1 l2 g2 l3 u v Eg Hu Hv Huv).
  assert (In g1 gs /\ In g2 gs) as [H1 H2].
  { rewrite Eg. split; rewrite in_app_iff; simpl; rewrite ?in_app_iff; simpl; auto. }
  apply circle_near_accepts; auto; apply Hr.
  - pose proof (in_groups_lt _ _ _ _ Hp H2 Hv). lia.
  - pose proof (in_groups_lt _ _ _ _ Hp H1 Hu). lia.
Qed.
Print Assumptions C59_sync_near_not_separated.

Theorem C59_phase_matrix dynamic w h it state :
  nth_error dynamic (match it with None => length dynamic - 1 | Some k => k end) = Some state ->
  (length state = w * h ->
   exists m, phase_matrix dynamic w h it = Ok m /\ length m = h /\
     Forall (fun r => length r = w) m /\ concat m = state) /\
  (length state <> w * h -> phase_matrix dynamic w h it = Raise NameError).
Proof. exact (phase_matrix_spec dynamic w h it state). Qed.
Print Assumptions C59_phase_matrix.

Example C59_case :
  sync_ensembles 6%Q [[0; 3; 1#20; 59#10; 31#10]%Q] (1 # 5) None None = Ok [[0; 2; 3]; [1; 4]]
  /\ phase_matrix [[0; 1; 2; 3; 4; 5]%Q] 3 2 None = Ok [[0; 1; 2]; [3; 4; 5]]%Q.
Proof. split; reflexivity. Qed.

(** * C41: hysteresis ensembles *)

(** false: oscillators with the same output are separated *)
Theorem C41_hysteresis_equal_refuted :
  exists dynamic tolerance steps gs i j,
    (0 < tolerance)%Q /\ hyst_ensembles dynamic tolerance steps = Ok gs /\
    i <> j /\ (forall st, In st dynamic -> i < length st /\ j < length st /\ phase st i = phase st j) /\
    ~ exists g, In g gs /\ In i g /\ In j g.
Proof.
  exists [[1; -1; -1]%Q], (1 # 10), 1, [[0]; [1]; [2]], 1, 2.
  split; [reflexivity|]. split; [reflexivity|]. split; [discriminate|]. split.
  - intros st [<-|[]]. simpl. repeat split; lia.
  - intros [g [[<-|[<-|[<-|[]]]] [Hi Hj]]]; simpl in *; intuition discriminate.
Qed.
Print Assumptions C41_hysteresis_equal_refuted.

(** what is built: the followers of oscillator 0, and singletons *)
Theorem C41_hysteresis_actual dynamic tolerance steps n :
  dynamic <> [] -> length (hd [] dynamic) = S n ->
  exists g singles, hyst_ensembles dynamic tolerance steps = Ok ((0 :: g) :: map (fun i => [i]) singles) /\
    (forall i, In i g <-> 1 <= i <= n /\ follows dynamic tolerance steps 0 i) /\
    (forall i, In i singles <-> 1 <= i <= n /\ ~ follows dynamic tolerance steps 0 i) /\
    partitions (S n) ((0 :: g) :: map (fun i => [i]) singles).
Proof. exact (hyst_ensembles_spec dynamic tolerance steps n). Qed.
Print Assumptions C41_hysteresis_actual.

Example C41_case : hyst_ensembles [[5; 5; 5; 5]; [1; 0; 1; -1]; [1; -1; 1; -1]]%Q (1 # 10) 2 = Ok [[0; 2]; [1]; [3]].
Proof. reflexivity. Qed.

(** * C42: PCNN *)
Theorem C42_pcnn_sync_ensembles dynamic : dynamic <> [] ->
  exists es, pcnn_sync_ensembles dynamic = Ok es /\ no_empty es /\ NoDup (concat es) /\
    (forall i, In i (concat es) <->
       i < length (hd [] dynamic) /\ exists t, 1 <= t < length dynamic /\ fires dynamic t i) /\
    (forall e i j, In e es -> In i e ->
       (In j e <-> j < length (hd [] dynamic) /\ exists t, last_fire dynamic i t /\ last_fire dynamic j t)).
Proof. exact (pcnn_sync_spec dynamic). Qed.
Print Assumptions C42_pcnn_sync_ensembles.

Theorem C42_pcnn_spike_ensembles dynamic : dynamic <> [] ->
  exists es, pcnn_spike_ensembles dynamic = Ok es /\
    no_empty es /\ Forall (StronglySorted lt) es /\
    exists ts, StronglySorted lt ts /\ length ts = length es /\
      (forall t, In t ts <-> t < length dynamic /\ exists i, i < length (hd [] dynamic) /\ fires dynamic t i) /\
      (forall k, k < length es -> forall i, In i (nth k es []) <->
         i < length (hd [] dynamic) /\ fires dynamic (nth k ts 0) i).
Proof. exact (pcnn_spike_spec dynamic). Qed.
Print Assumptions C42_pcnn_spike_ensembles.

Theorem C42_pcnn_time_signal dynamic :
  Forall (Forall (fun v => v = 0 \/ v = 1)) dynamic ->
  length (pcnn_time_signal dynamic) = length dynamic /\
  forall t, t < length dynamic -> nth t (pcnn_time_signal dynamic) 0 = count_occ Nat.eq_dec (nth t dynamic []) 1.
Proof. exact (pcnn_time_signal_spec dynamic). Qed.
Print Assumptions C42_pcnn_time_signal.

Example C42_case :
  let d := [[1; 1; 0; 0]; [0; 0; 0; 0]; [0; 1; 0; 1]; [1; 1; 0; 0]] in
  pcnn_sync_ensembles d = Ok [[0; 1]; [3]] /\
  pcnn_spike_ensembles d = Ok [[0; 1]; [1; 3]; [0; 1]] /\
  pcnn_time_signal d = [2; 0; 2; 2].
Proof. repeat split. Qed.

(** * C60: pulses *)
Theorem C60_oscillations_counted dyn index threshold v0 rest :
  (forall st, In st dyn -> index < length st) ->
  map (fun st => phase st index) dyn = v0 :: rest ->
  extract_number_oscillations dyn index threshold =
  Ok (if Qltb threshold v0 then pred (falls threshold v0 rest) else falls threshold v0 rest).
Proof. exact (oscillations_spec dyn index threshold v0 rest). Qed.
Print Assumptions C60_oscillations_counted.

Theorem C60_pulse_ensembles dynamic tolerance threshold ignore : dynamic <> [] ->
  exists es, utils_sync_ensembles dynamic tolerance threshold ignore = Ok es /\
    no_empty es /\ NoDup (concat es) /\
    forall i, In i (concat es) <->
      i < length (hd [] dynamic) /\ ~ In i ignore /\ whole_pulse threshold dynamic i.
Proof. exact (utils_ensembles_spec dynamic tolerance threshold ignore). Qed.
Print Assumptions C60_pulse_ensembles.

(** the last finished pulses of the members of a group are near the one of its first member and near the one of the first
    member of no earlier group *)
Theorem C60_groups_near dynamic tolerance threshold ignore es : dynamic <> [] ->
  utils_sync_ensembles dynamic tolerance threshold ignore = Ok es ->
  exists founders, length founders = length es /\
    forall k, k < length es ->
      last_pulse threshold (fun t => phase (nth t dynamic []) (hd 0 (nth k es []))) (length dynamic)
        (fst (nth k founders (0, 0))) (snd (nth k founders (0, 0))) /\
      forall i, In i (nth k es []) -> exists e s,
        last_pulse threshold (fun t => phase (nth t dynamic []) i) (length dynamic) e s /\
        (i <> hd 0 (nth k es []) -> pulse_near tolerance (e, s) (nth k founders (0, 0))) /\
        forall j, j < k -> ~ pulse_near tolerance (e, s) (nth j founders (0, 0)).
Proof. exact (utils_ensembles_near dynamic tolerance threshold ignore es). Qed.
Print Assumptions C60_groups_near.

Example C60_case :
  let d := [[0; 2; 0; 0]; [2; 2; 2; 0]; [2; 0; 2; 0]; [0; 0; 0; 0]; [0; 2; 0; 2]]%Q in
  extract_number_oscillations d 0 1%Q = Ok 1 /\ extract_number_oscillations d 1 1%Q = Ok 0 /\
  utils_sync_ensembles d (1 # 10) 1%Q [] = Ok [[0; 2]; [1]].
Proof. repeat split. Qed.

(** * C61: legion, "sum of weights of dynamic connections to a single oscillator can not be
      bigger than Wt" (legion.py:81) *)
Theorem C61_legion_weights_refuted :
  exists Wt stim n nb i, (0 < Wt)%Q /\ NoDup nb /\ (forall j, In j nb -> j < n) /\ length stim = n /\
    (Wt < qsum (legion_row Wt (legion_stimulus 1 stim) n nb i))%Q.
Proof.
  exists 8%Q, [1; 1; 0]%Q, 3, [1; 2], 0. repeat split.
  - repeat constructor; simpl; intuition discriminate.
  - intros j [<-|[<-|[]]]; lia.
Qed.
Print Assumptions C61_legion_weights_refuted.

Theorem C61_legion_weights_actual Wt stim n nb i : NoDup nb -> (forall j, In j nb -> j < n) ->
  let k := length (filter (fun j => Qltb 0 (nth j stim 0%Q)) nb) in
  length (legion_row Wt stim n nb i) = n /\
  forall j, j < n -> nth j (legion_row Wt stim n nb i) 0%Q =
    if (Qltb 0 (nth i stim 0%Q) && (0 <? k) && existsb (Nat.eqb j) nb)
    then (Wt / inject_Z (Z.of_nat k))%Q else 0%Q.
Proof. exact (legion_row_spec Wt stim n nb i). Qed.
Print Assumptions C61_legion_weights_actual.

Example C61_case : legion_row 8 (legion_stimulus 1 [1; 1; 0; 1]%Q) 4 [1; 3] 0 = [0; 8 / 2; 0; 8 / 2]%Q.
Proof. reflexivity. Qed.
