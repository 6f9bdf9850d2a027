(** Properties of the network of Hodgkin-Huxley neurons (C155 - C159) *)
From Verif Require Import Base Topology_Model Gcolor_Model Gcolor_Proofs Kuramoto_Model Kuramoto_Proofs Odesync_Proofs Hhn_Model Hhn_Proofs.
From Coq Require Import Reals Lra Qreals.
Open Scope nat_scope.

(** ** C155: gating of the channels *)
Theorem C155_gating :
  forall net v t index, exists rm gm rh gh rn gn, gate rm gm /\ gate rh gh /\ gate rn gn /\
  forall m h n dv dm dh dn, hnn_state net (v, m, h, n) t index = Ok (dv, dm, dh, dn) -> (dm = rm * (gm - m) /\ dh = rh * (gh - h) /\ dn = rn * (gn - n))%R.
Proof. exact gating. Qed.
Print Assumptions C155_gating.

Theorem C155_membrane :
  forall net v m h n t index dv dm dh dn, hnn_state net (v, m, h, n) t index = Ok (dv, dm, dh, dn) ->
  let p := h_params net in
  exists Iext Isyn, currents net v t index = Ok (Iext, Isyn) /\
    (dv = Q2R (gNa p) * m ^ 3 * h * (Q2R (vNa p) - v) + Q2R (gK p) * n ^ 4 * (Q2R (vK p) - v) + Q2R (gL p) * (Q2R (vL p) - v) + Iext - Isyn)%R /\
    (index < length (h_pn net) -> Iext = (Q2R (nth index (h_stimulus net) 0%Q) * Q2R (nth index (h_noise net) 0%Q))%R) /\
    (index = length (h_pn net) -> Iext = Q2R (Icn1 p)) /\ (index = S (length (h_pn net)) -> Iext = Q2R (Icn2 p) /\ Isyn = 0%R) /\ index <= S (length (h_pn net)).
Proof.
  intros net v m h n t index dv dm dh dn E p. unfold hnn_state in E. fold p in E. destruct (currents net v t index) as [[a b]|e] eqn:Ec; cbn [bind] in E; [|discriminate].
  destruct (Req_EM_T _ 0); [discriminate|]. destruct (Req_EM_T _ 0); [discriminate|]. apply Ok_inj in E. injection E as <- _ _ _. exists a, b. split; auto. split; [ring|].
  unfold currents in Ec. destruct (Nat.ltb_spec index (length (h_pn net))); [apply Ok_inj in Ec; injection Ec as <- <-; repeat split; intros; try lia|].
  destruct (Nat.eqb_spec index (length (h_pn net))); [apply Ok_inj in Ec; injection Ec as <- <-; repeat split; intros; lia|].
  destruct (Nat.eqb_spec index (S (length (h_pn net)))); [apply Ok_inj in Ec; injection Ec as <- <-; repeat split; intros; lia|discriminate].
Qed.
Print Assumptions C155_membrane.

(** a new network without a stimulus: every oscillator is a membrane on its own *)
Theorem C155_without_stimulus :
  forall size p noise v m h n t index dv dm dh dn, index < size ->
  hnn_state (hhn_create size None p noise) (v, m, h, n) t index = Ok (dv, dm, dh, dn) ->
  (dv = Q2R (gNa p) * m ^ 3 * h * (Q2R (vNa p) - v) + Q2R (gK p) * n ^ 4 * (Q2R (vK p) - v) + Q2R (gL p) * (Q2R (vL p) - v))%R.
Proof.
  intros size p noise v m h n t index dv dm dh dn Hi E. apply C155_membrane in E. cbv zeta in E.
  cbn [hhn_create h_params h_pn h_stimulus h_noise] in E. rewrite repeat_length in E.
  destruct E as (Iext & Isyn & Ec & -> & He & _). rewrite (He Hi), nth_repeat.
  unfold currents in Ec. cbn [hhn_create h_params h_pn h_stimulus h_noise h_cn1 h_cn2 new_central c_times] in Ec. rewrite repeat_length in Ec.
  replace (index <? size) with true in Ec by (symmetry; apply Nat.ltb_lt; lia). apply Ok_inj in Ec.
  unfold memory_impact in Ec. cbn [fold_left] in Ec. injection Ec as _ <-. replace (Q2R 0) with 0%R by (unfold Q2R; cbn; lra). ring.
Qed.
Print Assumptions C155_without_stimulus.

Theorem C155_defined :
  forall net v m h n t index, index <= S (length (h_pn net)) -> let potential := (v - Q2R (vRest (h_params net)))%R in
  (hnn_state net (v, m, h, n) t index = Raise ZeroDivisionError <-> (potential = 25 \/ potential = 10)%R) /\ ((potential <> 25 /\ potential <> 10)%R -> exists d, hnn_state net (v, m, h, n) t index = Ok d).
Proof. intros. apply state_raises; auto. Qed.
Print Assumptions C155_defined.

(** the equations have limits there, the function has no value: v = -40 with the default parameters *)
Theorem C155_every_potential_refuted :
  exists net v m h n t index, index < length (h_pn net) /\ hnn_state net (v, m, h, n) t index = Raise ZeroDivisionError.
Proof.
  exists (hhn_create 1 None (default_hhn 0) [1%Q]), (-40)%R, 0%R, 0%R, 0%R, 0%R, 0. split; [cbn; lia|]. apply state_raises; [cbn; lia|]. left. unfold Q2R. cbn. lra.
Qed.
Print Assumptions C155_every_potential_refuted.

Definition case_net : hhn_network := hhn_create 2 (Some [30; 0]%Q) (default_hhn 0) [1; 1]%Q.
Example C155_case : exists d, hnn_state case_net (0, 0, 0, 0)%R 1 0 = Ok d.
Proof. apply state_raises; [cbn; lia|]. unfold Q2R. cbn. lra. Qed.

(** ** C156: central elements inhibit, peripheral neurons excite *)
Theorem C156_inhibition :
  forall net s t index d d0, index < length (h_pn net) -> hnn_state net s t index = Ok d -> hnn_state (silent net) s t index = Ok d0 ->
  (0 <= alfa_inh (h_params net))%Q -> (0 <= w2 (h_params net))%Q -> (0 <= p_weight3 (nth index (h_pn net) new_peripheral))%Q -> (Q2R (Vsyninh (h_params net)) <= membrane s)%R ->
  (forall tp, In tp (c_times (h_cn1 net)) \/ In tp (c_times (h_cn2 net)) -> Q2R tp <= t)%R -> (membrane d <= membrane d0)%R.
Proof.
  intros net s t index d d0 Hi E E0 Ha Hw2 Hw3 Hv Ht. rewrite (silent_peripheral net s t index d d0 Hi E E0). apply Qle_Rle in Hw2, Hw3. rewrite RMicromega.Q2R_0 in Hw2, Hw3.
  pose proof (impact_ge t (c_times (h_cn1 net)) _ (betta_inh (h_params net)) Ha 0 ltac:(intros; apply Ht; auto)) as I1. pose proof (impact_ge t (c_times (h_cn2 net)) _ (betta_inh (h_params net)) Ha 0 ltac:(intros; apply Ht; auto)) as I2.
  fold (memory_impact t (c_times (h_cn1 net)) (alfa_inh (h_params net)) (betta_inh (h_params net))) in I1. fold (memory_impact t (c_times (h_cn2 net)) (alfa_inh (h_params net)) (betta_inh (h_params net))) in I2.
  set (i1 := memory_impact _ _ _ _) in *. set (i2 := memory_impact t (c_times (h_cn2 net)) _ _) in *.
  assert (0 <= Q2R (w2 (h_params net)) * i1)%R by (apply Rmult_le_pos; lra). assert (0 <= Q2R (p_weight3 (nth index (h_pn net) new_peripheral)) * i2)%R by (apply Rmult_le_pos; lra).
  assert (0 <= (membrane s - Q2R (Vsyninh (h_params net))) * (Q2R (w2 (h_params net)) * i1 + Q2R (p_weight3 (nth index (h_pn net) new_peripheral)) * i2))%R by (apply Rmult_le_pos; lra). lra.
Qed.
Print Assumptions C156_inhibition.

Theorem C156_excitation :
  forall net s t d d0, hnn_state net s t (length (h_pn net)) = Ok d -> hnn_state (silent net) s t (length (h_pn net)) = Ok d0 ->
  (0 <= alfa_exc (h_params net))%Q -> (0 <= w1 (h_params net))%Q -> (membrane s <= Q2R (Vsynexc (h_params net)))%R ->
  (forall pn, In pn (h_pn net) -> forall tp, In tp (p_times pn) -> Q2R tp <= t)%R -> (membrane d0 <= membrane d)%R.
Proof.
  intros net s t d d0 E E0 Ha Hw Hv Ht. rewrite (silent_central1 net s t d d0 E E0). apply Qle_Rle in Hw. rewrite RMicromega.Q2R_0 in Hw.
  pose proof (exc_ge t _ (betta_exc (h_params net)) _ Ha Ht 0%R) as G. set (x := fold_left _ _ _) in *.
  assert (0 <= (Q2R (Vsynexc (h_params net)) - membrane s) * (Q2R (w1 (h_params net)) * x))%R by (apply Rmult_le_pos; [lra|]; apply Rmult_le_pos; lra). lra.
Qed.
Print Assumptions C156_excitation.

(** the second central element does not listen to the peripheral neurons *)
Theorem C156_cn2_independent :
  forall net s t, hnn_state net s t (S (length (h_pn net))) = hnn_state (silent net) s t (S (length (h_pn net))).
Proof.
  intros net [[[v m] h] n] t. unfold hnn_state, currents, silent. cbn [h_params h_stimulus h_noise h_pn h_cn1 h_cn2 c_times]. rewrite map_length.
  destruct (Nat.ltb_spec (S (length (h_pn net))) (length (h_pn net))); [lia|]. destruct (Nat.eqb_spec (S (length (h_pn net))) (length (h_pn net))); [lia|]. rewrite Nat.eqb_refl. reflexivity.
Qed.
Print Assumptions C156_cn2_independent.

(** ** simulate *)
Lemma sim_inv odeint noise steps time solution net net' times pn cn : (0 < time)%Q -> hhn_simulate odeint noise steps time solution net = Ok (net', (times, pn, cn)) ->
  solution = RK4 /\ 1 <= steps /\ exists nets, let step := (time / inject_Z (Z.of_nat steps))%Q in
    length nets = steps /\ net' = last nets net /\ times = 0%Q :: map (fun k => (step + inject_Z (Z.of_nat k) * step)%Q) (seq 0 steps) /\ pn = potentials net :: map potentials nets /\ cn = [0; 0]%R :: map central_potentials nets /\
    forall j, j < steps -> calculate_states odeint (noise j) (nth (S j) times 0%Q) step (step / 10) (nth j (net :: nets) net) = Ok (nth (S j) (net :: nets) net).
Proof.
  intros Ht E. unfold hhn_simulate in E. destruct solution; try discriminate. destruct (Nat.eqb_spec steps 0); [discriminate|]. split; auto. split; [lia|]. cbv zeta in E.
  destruct (hhn_steps _ _ _ _ _ _ _) as [nets|e] eqn:Es; cbn [bind] in E; [|discriminate]. apply Ok_inj in E. injection E as <- <- <- <-.
  apply hhn_steps_ok in Es as [L H]. pose proof (arange_length _ time steps Ht ltac:(lia) eq_refl) as A. rewrite A in L, H. rewrite A. rewrite map_length, seq_length in L, H. exists nets. cbv zeta. repeat (split; [first [assumption|reflexivity]|]). exact H.
Qed.

Lemma step_pos steps time : (0 < time)%Q -> 1 <= steps -> (0 < time / inject_Z (Z.of_nat steps))%Q.
Proof. intros Ht Hs. apply Qlt_shift_div_l; [change 0%Q with (inject_Z 0); rewrite <- Zlt_Qlt; lia|]. rewrite Qmult_0_l. exact Ht. Qed.

Lemma last_nth {A} (l : list A) (d : A) : last l d = nth (length l) (d :: l) d.
Proof.
  destruct l as [|x l] using rev_ind; [reflexivity|]. rewrite last_last, app_length. cbn [length]. rewrite Nat.add_1_r. cbn [nth]. rewrite app_nth2, Nat.sub_diag by lia. reflexivity.
Qed.

(** ** C157: recorded pulses *)
(** the potential [row] times of one neuron; step k+1 starts a pulse: not negative, and negative before or the first step *)
Definition fires (pots : list R) (k : nat) : bool := above0 (nth (S k) pots 0%R) && ((k =? 0) || negb (above0 (nth k pots 0%R))).

Lemma crossings_filter (t : nat -> Q) (v : nat -> R) : forall n b, 
  crossings b (map (fun k => (t k, v (S k))) (seq 0 n)) = map t (filter (fun k => above0 (v (S k)) && (if k =? 0 then negb b else negb (above0 (v k)))) (seq 0 n)).
Proof.
  intros n b.
  enough (G : forall m a, crossings (if a =? 0 then b else above0 (v a)) (map (fun k => (t k, v (S k))) (seq a m)) =
    map t (filter (fun k => above0 (v (S k)) && (if k =? 0 then negb b else negb (above0 (v k)))) (seq a m))) by apply (G n 0).
  induction m as [|m IH]; intros a; cbn [seq map crossings filter]; [reflexivity|]. specialize (IH (S a)). cbn [Nat.eqb] in IH. rewrite IH.
  destruct (a =? 0); destruct (above0 (v (S a)) && _); reflexivity.
Qed.

Lemma chain_fires (flag : nat -> bool) (times : nat -> list Q) (v : nat -> R) (t : nat -> Q) n :
  (forall k, k < n -> (flag (S k), times (S k)) = pulse (t k) (v (S k)) (flag k) (times k)) -> flag 0 = false ->
  times n = times 0 ++ map t (filter (fun k => above0 (v (S k)) && ((k =? 0) || negb (above0 (v k)))) (seq 0 n)).
Proof.
  intros H F. pose proof (f_equal snd (chain_pulses flag times v t n H)) as E. cbn [snd] in E. rewrite E, record_crossings, crossings_filter, F. f_equal.
Qed.

Section Run.
Variables (odeint : (quad -> R -> res quad) -> quad -> list R -> list quad) (noise : nat -> list Q) (step : Q) (net : hhn_network) (nets : list hhn_network) (t : nat -> Q) (steps : nat).
Hypothesis run : forall j, j < steps -> calculate_states odeint (noise j) (t j) step (step / 10) (nth j (net :: nets) net) = Ok (nth (S j) (net :: nets) net).
Let at_ k := nth k (net :: nets) net.

Lemma run_static k : k <= steps -> h_params (at_ k) = h_params net /\ h_stimulus (at_ k) = h_stimulus net /\ length (h_pn (at_ k)) = length (h_pn net).
Proof.
  induction k as [|k IH]; intros Hk; [auto|]. destruct (IH ltac:(lia)) as (A & B & C). destruct (step_ok _ _ _ _ _ _ _ (run k ltac:(lia))) as (P & S & _ & L & _). unfold at_ in *. rewrite P, S, L. auto.
Qed.

Lemma run_peripheral i k : i < length (h_pn net) -> k < steps -> exists s, nth i (h_pn (at_ (S k))) new_peripheral = update_peripheral (h_params net) (t k) step (nth i (h_pn (at_ k)) new_peripheral) s.
Proof.
  intros Hi Hk. destruct (run_static k ltac:(lia)) as (A & _ & C). destruct (step_ok _ _ _ _ _ _ _ (run k Hk)) as (_ & _ & _ & _ & P & _). unfold at_ in *. destruct (P i ltac:(lia)) as (s & E & _). rewrite A in E. eauto.
Qed.

Lemma run_pulses i : i < length (h_pn net) -> p_pulse (nth i (h_pn net) new_peripheral) = false ->
  p_times (nth i (h_pn (at_ steps)) new_peripheral) = p_times (nth i (h_pn net) new_peripheral) ++
    map t (filter (fun k => above0 (membrane (p_state (nth i (h_pn (at_ (S k))) new_peripheral))) && ((k =? 0) || negb (above0 (membrane (p_state (nth i (h_pn (at_ k)) new_peripheral)))))) (seq 0 steps)).
Proof.
  intros Hi F. apply (chain_fires (fun k => p_pulse (nth i (h_pn (at_ k)) new_peripheral)) (fun k => p_times (nth i (h_pn (at_ k)) new_peripheral)) (fun k => membrane (p_state (nth i (h_pn (at_ k)) new_peripheral))) t steps); [|exact F].
  intros k Hk. destruct (run_peripheral i k Hi Hk) as (s & ->). rewrite update_peripheral_state. apply update_peripheral_pulse.
Qed.

Lemma run_central1 : c_pulse (h_cn1 net) = false -> c_times (h_cn1 (at_ steps)) = c_times (h_cn1 net) ++
    map t (filter (fun k => above0 (membrane (c_state (h_cn1 (at_ (S k))))) && ((k =? 0) || negb (above0 (membrane (c_state (h_cn1 (at_ k))))))) (seq 0 steps)).
Proof.
  intros F. apply (chain_fires (fun k => c_pulse (h_cn1 (at_ k))) (fun k => c_times (h_cn1 (at_ k))) (fun k => membrane (c_state (h_cn1 (at_ k)))) t steps); [|exact F].
  intros k Hk. destruct (step_ok _ _ _ _ _ _ _ (run k Hk)) as (_ & _ & _ & _ & _ & (s & E & _) & _). unfold at_. rewrite E, update_central_state. apply update_central_pulse.
Qed.

Lemma run_central2 : c_pulse (h_cn2 net) = false -> c_times (h_cn2 (at_ steps)) = c_times (h_cn2 net) ++
    map t (filter (fun k => above0 (membrane (c_state (h_cn2 (at_ (S k))))) && ((k =? 0) || negb (above0 (membrane (c_state (h_cn2 (at_ k))))))) (seq 0 steps)).
Proof.
  intros F. apply (chain_fires (fun k => c_pulse (h_cn2 (at_ k))) (fun k => c_times (h_cn2 (at_ k))) (fun k => membrane (c_state (h_cn2 (at_ k)))) t steps); [|exact F].
  intros k Hk. destruct (step_ok _ _ _ _ _ _ _ (run k Hk)) as (_ & _ & _ & _ & _ & _ & (s & E & _)). unfold at_. rewrite E, update_central_state. apply update_central_pulse.
Qed.
End Run.

Lemma nth_row (net : hhn_network) nets k i : k <= length nets -> rnth (nth k (potentials net :: map potentials nets) []) i = membrane (p_state (nth i (h_pn (nth k (net :: nets) net)) new_peripheral)).
Proof.
  intros Hk. change (potentials net :: map potentials nets) with (map potentials (net :: nets)). rewrite (nth_indep _ [] (potentials net)) by (rewrite map_length; cbn [length]; lia). rewrite map_nth.
  unfold rnth, potentials. apply (map_nth (fun pn => membrane (p_state pn)) _ new_peripheral i).
Qed.

Definition column (rows : list (list R)) (i : nat) : list R := map (fun row => rnth row i) rows.
Lemma nth_column rows i k : nth k (column rows i) 0%R = rnth (nth k rows []) i.
Proof. unfold column. rewrite <- (map_nth (fun row => rnth row i)). f_equal. unfold rnth. destruct i; reflexivity. Qed.

(** after the first simulation of a network the pulse times of every neuron are the times of the dynamic at which its potential
    becomes non-negative *)
Theorem C157_pulses :
  forall odeint noise n stimulus p draw steps time net' times pn cn, (0 < time)%Q ->
  hhn_simulate odeint noise steps time RK4 (hhn_create n stimulus p draw) = Ok (net', (times, pn, cn)) ->
  let recorded pots := map (fun k => nth (S k) times 0%Q) (filter (fires pots) (seq 0 steps)) in
  (forall i, i < n -> p_times (nth i (h_pn net') new_peripheral) = recorded (column pn i)) /\
  c_times (h_cn1 net') = recorded (column cn 0) /\ c_times (h_cn2 net') = recorded (column cn 1).
Proof.
  intros odeint noise n stimulus p draw steps time net' times pn cn Ht E. apply sim_inv in E as (_ & Hs & nets & L & -> & Et & -> & -> & H); auto. cbv zeta in *.
  set (net := hhn_create n stimulus p draw) in *. rewrite last_nth, L.
  set (t := fun j => nth (S j) times 0%Q) in *. split; [|split].
  - intros i Hi. assert (Ln : length (h_pn net) = n) by apply repeat_length.
    assert (N : nth i (h_pn net) new_peripheral = new_peripheral) by (cbn; apply nth_repeat).
    rewrite (run_pulses odeint noise _ net nets t steps H i ltac:(lia)) by (rewrite N; reflexivity). rewrite N. cbn [p_times new_peripheral app]. f_equal. apply filter_ext_in. intros k Hk. apply in_seq in Hk.
    unfold fires. rewrite !nth_column, !nth_row by lia. reflexivity.
  - rewrite (run_central1 odeint noise _ net nets t steps H) by reflexivity. cbn [c_times net hhn_create h_cn1 new_central app]. f_equal. apply filter_ext_in. intros k Hk. apply in_seq in Hk.
    unfold fires. rewrite !nth_column. cbn [nth]. rewrite (nth_indep _ [] (central_potentials net)), map_nth by (rewrite map_length; lia). destruct k as [|k]; [reflexivity|]. cbn [nth]. rewrite (nth_indep _ [] (central_potentials net)), map_nth by (rewrite map_length; lia). reflexivity.
  - rewrite (run_central2 odeint noise _ net nets t steps H) by reflexivity. cbn [c_times net hhn_create h_cn2 new_central app]. f_equal. apply filter_ext_in. intros k Hk. apply in_seq in Hk.
    unfold fires. rewrite !nth_column. cbn [nth]. rewrite (nth_indep _ [] (central_potentials net)), map_nth by (rewrite map_length; lia). destruct k as [|k]; [reflexivity|]. cbn [nth]. rewrite (nth_indep _ [] (central_potentials net)), map_nth by (rewrite map_length; lia). reflexivity.
Qed.
Print Assumptions C157_pulses.

(** ** C158: the connection from the second central element *)
Section Link.
Variables (odeint : (quad -> R -> res quad) -> quad -> list R -> list quad) (noise : nat -> list Q) (step : Q) (net : hhn_network) (nets : list hhn_network) (t : nat -> Q) (steps : nat).
Hypothesis run : forall j, j < steps -> calculate_states odeint (noise j) (t j) step (step / 10) (nth j (net :: nets) net) = Ok (nth (S j) (net :: nets) net).
Let pn k i := nth i (h_pn (nth k (net :: nets) net)) new_peripheral.

Lemma run_link i k : i < length (h_pn net) -> k < steps ->
  (p_activation (pn (S k) i), p_counter (pn (S k) i), p_weight3 (pn (S k) i)) = link (h_params net) (t k) step (membrane (p_state (pn (S k) i))) (p_activation (pn k i)) (p_counter (pn k i)) (p_weight3 (pn k i)).
Proof.
  intros Hi Hk. destruct (run_peripheral odeint noise step net nets t steps run i k Hi Hk) as (s & E). unfold pn. rewrite E, update_peripheral_state. apply update_peripheral_link.
Qed.
End Link.

(** number of the first [k] steps after which the potential is above the threshold *)
Definition hot (p : hhn_params) (v : nat -> R) (k : nat) : nat := length (filter (fun j => if Rlt_dec (Q2R (threshold p)) (v (S j)) then true else false) (seq 0 k)).
Lemma hot_S p v k : hot p v (S k) = hot p v k + (if Rlt_dec (Q2R (threshold p)) (v (S k)) then 1 else 0).
Proof. unfold hot. rewrite seq_S, filter_app, app_length. cbn [Nat.add filter]. destruct (Rlt_dec _ _); reflexivity. Qed.

Lemma chain_off p step (t : nat -> Q) (v : nat -> R) (act cnt w : nat -> Q) n :
  (forall k, k < n -> (act (S k), cnt (S k), w (S k)) = link p (t k) step (v (S k)) (act k) (cnt k) (w k)) -> (cnt 0%nat == 0)%Q -> w 0 = 0%Q ->
  (forall k, k <= n -> (inject_Z (Z.of_nat (hot p v k)) * step < 1 / eps p)%Q) -> forall k, k <= n -> w k = 0%Q /\ (cnt k == inject_Z (Z.of_nat (hot p v k)) * step)%Q.
Proof.
  intros H C0 W0 Hot. induction k as [|k IH]; intros Hk; [split; [exact W0|rewrite C0; unfold hot; cbn [seq filter length]; ring]|].
  destruct (IH ltac:(lia)) as [W C]. specialize (H k ltac:(lia)). unfold link in H. rewrite W in H. cbn [Qeq_bool Qnum Qden Z.mul Z.eqb Zeq_bool Z.compare] in H. change (Qeq_bool 0 0) with true in H. cbn iota in H.
  specialize (Hot (S k) Hk). rewrite hot_S in *. destruct (Rlt_dec _ _).
  - assert (E : (cnt k + step == inject_Z (Z.of_nat (hot p v k + 1)) * step)%Q) by (rewrite C, Nat2Z.inj_add, inject_Z_plus; change (inject_Z (Z.of_nat 1)) with 1%Q; ring).
    destruct (Qle_bool _ _) eqn:El.
    + apply Qle_bool_iff in El. rewrite E in El. exfalso. apply (Qlt_not_le _ _ Hot El).
    + injection H as _ -> ->. split; [reflexivity|exact E].
  - rewrite Nat.add_0_r in *. injection H as _ -> ->. split; [reflexivity|exact C].
Qed.

Lemma chain_on p step (t : nat -> Q) (v : nat -> R) (act cnt w : nat -> Q) n :
  (forall k, k < S n -> (act (S k), cnt (S k), w (S k)) = link p (t k) step (v (S k)) (act k) (cnt k) (w k)) -> (cnt 0%nat == 0)%Q -> w 0 = 0%Q ->
  (forall k, k <= n -> (inject_Z (Z.of_nat (hot p v k)) * step < 1 / eps p)%Q) -> (1 / eps p <= inject_Z (Z.of_nat (hot p v (S n))) * step)%Q -> w (S n) = w3 p /\ act (S n) = t n.
Proof.
  intros H C0 W0 Hot Now. destruct (chain_off p step t v act cnt w n (fun k Hk => H k ltac:(lia)) C0 W0 Hot n (le_n _)) as [W C]. specialize (H n ltac:(lia)). unfold link in H. rewrite W in H. change (Qeq_bool 0 0) with true in H. cbn iota in H.
  specialize (Hot n (le_n _)). rewrite hot_S in Now. destruct (Rlt_dec _ _).
  - assert (E : (cnt n + step == inject_Z (Z.of_nat (hot p v n + 1)) * step)%Q) by (rewrite C, Nat2Z.inj_add, inject_Z_plus; change (inject_Z (Z.of_nat 1)) with 1%Q; ring).
    destruct (Qle_bool _ _) eqn:El; [injection H as -> _ ->; auto|]. exfalso. rewrite <- E in Now. apply Qle_bool_iff in Now. congruence.
  - exfalso. rewrite Nat.add_0_r in Now. apply (Qlt_not_le _ _ Hot Now).
Qed.

(** in the first simulation of a network: the connection from CN2 to a neuron is off as long as its potential was above the
    threshold for less than 1/eps units of time, and is switched on in the step in which this time is reached *)
Theorem C158_switched_on :
  forall odeint noise n stimulus p draw step times nets i, let net := hhn_create n stimulus p draw in
  hhn_steps odeint noise step (step / 10) 0 times net = Ok nets -> i < n ->
  let neuron k := nth i (h_pn (nth k (net :: nets) net)) new_peripheral in
  let hot_time k := (inject_Z (Z.of_nat (hot p (fun k => membrane (p_state (neuron k))) k)) * step)%Q in
  forall k, k <= length times -> (forall j, j < k -> (hot_time j < 1 / eps p)%Q) ->
    ((hot_time k < 1 / eps p)%Q -> p_weight3 (neuron k) = 0%Q) /\
    (1 <= k -> (1 / eps p <= hot_time k)%Q -> p_weight3 (neuron k) = w3 p /\ p_activation (neuron k) = nth (k - 1) times 0%Q).
Proof.
  intros odeint noise n stimulus p draw step times nets i net E Hi neuron hot_time k Hk Hot. destruct (hhn_steps_ok _ _ _ _ _ _ _ _ E) as [L H].
  assert (N : neuron 0 = new_peripheral) by (unfold neuron; cbn; apply nth_repeat).
  assert (C : forall j, j < length times -> (p_activation (neuron (S j)), p_counter (neuron (S j)), p_weight3 (neuron (S j))) =
     link p (nth j times 0%Q) step (membrane (p_state (neuron (S j)))) (p_activation (neuron j)) (p_counter (neuron j)) (p_weight3 (neuron j))).
  { intros j Hj. apply (run_link odeint noise step net nets (fun j => nth j times 0%Q) (length times)); auto. cbn. rewrite repeat_length. exact Hi. }
  split.
  - intros Now. apply (chain_off p step (fun j => nth j times 0%Q) (fun k => membrane (p_state (neuron k))) (fun k => p_activation (neuron k)) (fun k => p_counter (neuron k)) (fun k => p_weight3 (neuron k)) k); auto; try (rewrite N; reflexivity).
    + intros j Hj. apply C. lia.
    + intros j Hj. destruct (Nat.eq_dec j k) as [->|]; [exact Now|apply Hot; lia].
  - intros H1 Now. destruct k as [|k]; [lia|]. replace (S k - 1) with k by lia.
    apply (chain_on p step (fun j => nth j times 0%Q) (fun k => membrane (p_state (neuron k))) (fun k => p_activation (neuron k)) (fun k => p_counter (neuron k)) (fun k => p_weight3 (neuron k)) k); auto; try (rewrite N; reflexivity).
    + intros j Hj. apply C. lia.
    + intros j Hj. apply Hot. lia.
Qed.
Print Assumptions C158_switched_on.

(** and it stays on until deltah units of time later *)
Theorem C158_stays_on :
  forall odeint noise step times net nets i, hhn_steps odeint noise step (step / 10) 0 times net = Ok nets -> i < length (h_pn net) ->
  let neuron k := nth i (h_pn (nth k (net :: nets) net)) new_peripheral in let time k := nth (k - 1) times 0%Q in
  forall a k, 1 <= a -> a < k -> k <= length times -> p_activation (neuron a) = time a -> ~ (p_weight3 (neuron a) == 0)%Q -> (forall j, a < j < k -> (time a < time j < time a + deltah (h_params net))%Q) ->
    ((time a < time k < time a + deltah (h_params net))%Q -> p_weight3 (neuron k) = p_weight3 (neuron a) /\ p_activation (neuron k) = time a) /\
    ((time a + deltah (h_params net) <= time k)%Q -> p_weight3 (neuron k) = 0%Q /\ p_counter (neuron k) = 0%Q).
Proof.
  intros odeint noise step times net nets i E Hi neuron time a k Ha Hak Hk Act On Between. destruct (hhn_steps_ok _ _ _ _ _ _ _ _ E) as [L H].
  assert (C : forall j, j < length times -> (p_activation (neuron (S j)), p_counter (neuron (S j)), p_weight3 (neuron (S j))) =
     link (h_params net) (nth j times 0%Q) step (membrane (p_state (neuron (S j)))) (p_activation (neuron j)) (p_counter (neuron j)) (p_weight3 (neuron j))).
  { intros j Hj. apply (run_link odeint noise step net nets (fun j => nth j times 0%Q) (length times)); auto. }
  assert (G : forall j, a <= j -> j < k -> p_weight3 (neuron j) = p_weight3 (neuron a) /\ p_activation (neuron j) = time a).
  { induction j as [|j IH]; intros H1 H2; [lia|]. destruct (Nat.eq_dec a (S j)) as [->|]; [auto|]. destruct (IH ltac:(lia) ltac:(lia)) as [W A]. specialize (C j ltac:(lia)). unfold link in C. rewrite W, A in C.
    destruct (Qeq_bool (p_weight3 (neuron a)) 0) eqn:Ew; [apply Qeq_bool_iff in Ew; contradiction|]. destruct (Between (S j) ltac:(lia)) as [B1 B2]. unfold time in B1, B2 at 2. unfold time in B2. replace (S j - 1) with j in B1, B2 by lia.
    fold (time a) in B1, B2. rewrite (proj2 (Qltb_true _ _) B1), (proj2 (Qltb_true _ _) B2) in C. cbn [andb negb] in C. injection C as -> _ ->. auto. }
  destruct k as [|k]; [lia|]. destruct (G k ltac:(lia) ltac:(lia)) as [W A]. specialize (C k ltac:(lia)). unfold link in C. rewrite W, A in C.
  destruct (Qeq_bool (p_weight3 (neuron a)) 0) eqn:Ew; [apply Qeq_bool_iff in Ew; contradiction|]. assert (Tk : time (S k) = nth k times 0%Q) by (unfold time; f_equal; lia). rewrite Tk. split.
  - intros [B1 B2]. rewrite (proj2 (Qltb_true _ _) B1), (proj2 (Qltb_true _ _) B2) in C. cbn [andb negb] in C. injection C as -> _ ->. auto.
  - intros B. assert (F : Qltb (nth k times 0%Q) (time a + deltah (h_params net)) = false).
    { apply Qltb_false. exact B. }
    rewrite F, Bool.andb_false_r in C. cbn [negb] in C. injection C as _ -> ->. auto.
Qed.
Print Assumptions C158_stays_on.

(** ** C156 again: pulses are kept between simulations while the time starts anew *)
Theorem C156_future_pulses :
  forall net s t index d d0, index < length (h_pn net) -> hnn_state net s t index = Ok d -> hnn_state (silent net) s t index = Ok d0 ->
  (0 <= alfa_inh (h_params net))%Q -> (0 <= w2 (h_params net))%Q -> (0 <= p_weight3 (nth index (h_pn net) new_peripheral))%Q -> (Q2R (Vsyninh (h_params net)) <= membrane s)%R ->
  (forall tp, In tp (c_times (h_cn1 net)) \/ In tp (c_times (h_cn2 net)) -> t <= Q2R tp)%R -> (membrane d0 <= membrane d)%R.
Proof.
  intros net s t index d d0 Hi E E0 Ha Hw2 Hw3 Hv Ht. rewrite (silent_peripheral net s t index d d0 Hi E E0). apply Qle_Rle in Hw2, Hw3. rewrite RMicromega.Q2R_0 in Hw2, Hw3.
  pose proof (impact_le t (c_times (h_cn1 net)) _ (betta_inh (h_params net)) Ha 0 ltac:(intros; apply Ht; auto)) as I1. pose proof (impact_le t (c_times (h_cn2 net)) _ (betta_inh (h_params net)) Ha 0 ltac:(intros; apply Ht; auto)) as I2.
  fold (memory_impact t (c_times (h_cn1 net)) (alfa_inh (h_params net)) (betta_inh (h_params net))) in I1. fold (memory_impact t (c_times (h_cn2 net)) (alfa_inh (h_params net)) (betta_inh (h_params net))) in I2.
  set (i1 := memory_impact _ _ _ _) in *. set (i2 := memory_impact t (c_times (h_cn2 net)) _ _) in *.
  assert (Q2R (w2 (h_params net)) * i1 <= 0)%R by nra. assert (Q2R (p_weight3 (nth index (h_pn net) new_peripheral)) * i2 <= 0)%R by nra.
  assert ((membrane s - Q2R (Vsyninh (h_params net))) * (Q2R (w2 (h_params net)) * i1 + Q2R (p_weight3 (nth index (h_pn net) new_peripheral)) * i2) <= 0)%R by nra. lra.
Qed.
Print Assumptions C156_future_pulses.

(** a solver for which the states do not move *)
Definition hold (f : quad -> R -> res quad) (y : quad) (ts : list R) : list quad := map (fun _ => y) ts.
Lemma hold_total : total hold.
Proof. intros f y ts. apply map_length. Qed.


Lemma hold_last f y ts before (s : quad) : hold f y ts = before ++ [s] -> s = y.
Proof.
  intros H. assert (I : In s (hold f y ts)) by (rewrite H; apply in_or_app; right; now left). apply in_map_iff in I as (x & E & _). auto.
Qed.

Lemma simulate_total odeint noise steps time net : total odeint -> (0 < time)%Q -> 1 <= steps -> exists net' times pn cn, hhn_simulate odeint noise steps time RK4 net = Ok (net', (times, pn, cn)).
Proof.
  intros T Ht Hs. unfold hhn_simulate. destruct (Nat.eqb_spec steps 0); [lia|]. cbv zeta.
  destruct (hhn_steps_total odeint noise (time / inject_Z (Z.of_nat steps)) T (step_pos _ _ Ht Hs) (arange (time / inject_Z (Z.of_nat steps)) (time + time / inject_Z (Z.of_nat steps)) (time / inject_Z (Z.of_nat steps))) 0 net) as (nets & ->). cbn [bind]. do 4 eexists. reflexivity.
Qed.

Lemma hold_simulation : exists net' times pn cn, hhn_simulate hold (fun _ => [1; 1]%Q) 1 1 RK4 case_net = Ok (net', (times, pn, cn)) /\
  h_params net' = default_hhn 0 /\ length (h_pn net') = 2 /\ p_weight3 (nth 0 (h_pn net') new_peripheral) = 0%Q /\ (exists tp, c_times (h_cn1 net') = [tp] /\ (tp == 1)%Q) /\ (exists tp, c_times (h_cn2 net') = [tp] /\ (tp == 1)%Q).
Proof.
  destruct (simulate_total hold (fun _ => [1; 1]%Q) 1 1 case_net hold_total ltac:(reflexivity) (le_n _)) as (net' & times & pn & cn & E). exists net', times, pn, cn. split; [exact E|].
  destruct (C157_pulses hold (fun _ => [1; 1]%Q) 2 (Some [30; 0]%Q) (default_hhn 0) [1; 1]%Q 1 1 net' times pn cn ltac:(reflexivity) E) as (_ & P1 & P2).
  apply sim_inv in E as (_ & _ & nets & L & -> & Et & -> & -> & H); [|reflexivity]. destruct nets as [|next [|]]; try discriminate. clear L. cbn [last].
  specialize (H 0 ltac:(lia)). cbn [nth] in H. destruct (step_ok _ _ _ _ _ _ _ H) as (Hp & _ & _ & Hl & Hpn & (s1 & E1 & b1 & F1) & (s2 & E2 & b2 & F2)). apply hold_last in F1, F2. subst s1 s2.
  cbn [last] in P1, P2. cbn [seq filter map] in P1, P2. unfold fires in P1, P2. cbn [column map nth] in P1, P2. unfold central_potentials, rnth in P1, P2. cbn [nth] in P1, P2.
  rewrite E1, update_central_state in P1. rewrite E2, update_central_state in P2. cbn [case_net hhn_create h_cn1 h_cn2 new_central c_state membrane] in P1, P2.
  assert (A : above0 0 = true) by (unfold above0; destruct (Rle_dec 0 0); auto; lra). rewrite A in P1, P2. cbn [Nat.eqb orb andb] in P1, P2.
  split; [rewrite Hp; reflexivity|]. split; [rewrite Hl; reflexivity|]. split.
  - destruct (Hpn 0 ltac:(cbn; lia)) as (s & Es & _). pose proof (f_equal p_weight3 Es) as W. pose proof (update_peripheral_link (h_params case_net) (nth 1 times 0%Q) (1 / inject_Z (Z.of_nat 1)) (nth 0 (h_pn case_net) new_peripheral) s) as K. apply (f_equal snd) in K. cbn [snd] in K. rewrite W, K.
    cbn [case_net hhn_create h_pn repeat nth new_peripheral p_activation p_counter p_weight3 h_params]. unfold link. change (Qeq_bool 0 0) with true. cbn iota. destruct (Rlt_dec _ _); [|reflexivity]. 
    change (Qle_bool (1 / eps (default_hhn 0)) (0 + 1 / inject_Z (Z.of_nat 1))) with false. reflexivity.
  - rewrite Et in P1, P2, E1, E2. cbn [seq map nth] in P1, P2, E1, E2. split; [rewrite E1|rewrite E2]; cbn [case_net hhn_create h_cn1 h_cn2 new_central c_state]; [setoid_rewrite P1|setoid_rewrite P2]; eexists; (split; [reflexivity|reflexivity]).
Qed.

(** after a simulation in which the central elements pulsed at time 1, at time 1/2 of the next simulation these pulses raise the
    membrane potentials of the peripheral neurons *)
Theorem C156_second_simulation_refuted :
  exists odeint noise net steps time net' dynamic s t d d0, total odeint /\ (0 < time)%Q /\ hhn_simulate odeint noise steps time RK4 net = Ok (net', dynamic) /\ (0 < t < Q2R time)%R /\
    hnn_state net' s t 0 = Ok d /\ hnn_state (silent net') s t 0 = Ok d0 /\ (Q2R (Vsyninh (h_params net')) < membrane s)%R /\ (membrane d0 < membrane d)%R.
Proof.
  destruct hold_simulation as (net' & times & pn & cn & E & Hp & Hl & Hw & (tp & T1 & Etp) & (tp2 & T2 & Etp2)).
  assert (D : forall net, length (h_pn net) = 2 -> h_params net = default_hhn 0 -> exists d, hnn_state net (0, 0, 0, 0)%R (1 / 2) 0 = Ok d).
  { intros net L P. apply state_raises; [lia|]. rewrite P. unfold Q2R. cbn. lra. }
  destruct (D net' Hl Hp) as (d & Ed). destruct (D (silent net')) as (d0 & Ed0); [cbn; rewrite map_length; exact Hl|exact Hp|].
  exists hold, (fun _ => [1; 1]%Q), case_net, 1, 1%Q, net', (times, pn, cn), (0, 0, 0, 0)%R, (1 / 2)%R, d, d0. split; [exact hold_total|]. split; [reflexivity|]. split; [exact E|]. split; [unfold Q2R; cbn; lra|].
  split; [exact Ed|]. split; [exact Ed0|]. split; [rewrite Hp; unfold Q2R; cbn; lra|].
  rewrite (silent_peripheral net' _ _ 0 d d0 ltac:(lia) Ed Ed0). rewrite Hw, Hp, T1. unfold memory_impact, alfa_function. cbn [fold_left membrane]. rewrite (Qeq_eqR _ _ Etp).
  replace (Q2R 1) with 1%R by (unfold Q2R; cbn; lra). replace (Q2R 0) with 0%R by (unfold Q2R; cbn; lra).
  assert (W : Q2R (w2 (default_hhn 0)) = 9%R) by (unfold Q2R; cbn; lra). assert (V : Q2R (Vsyninh (default_hhn 0)) = (-80)%R) by (unfold Q2R; cbn; lra). assert (A : Q2R (alfa_inh (default_hhn 0)) = 6%R) by (unfold Q2R; cbn; lra). rewrite W, V, A.
  pose proof (exp_pos (- Q2R (betta_inh (default_hhn 0)) * (1 / 2 - 1))) as P. set (x := exp _) in *. clearbody x. nra.
Qed.
Print Assumptions C156_second_simulation_refuted.

(** the hypotheses of C156_inhibition hold at the end of that simulation *)
Example C156_case : exists net' dynamic d d0, hhn_simulate hold (fun _ => [1; 1]%Q) 1 1 RK4 case_net = Ok (net', dynamic) /\ hnn_state net' (0, 0, 0, 0)%R 2 0 = Ok d /\ hnn_state (silent net') (0, 0, 0, 0)%R 2 0 = Ok d0 /\ (membrane d <= membrane d0)%R.
Proof.
  destruct hold_simulation as (net' & times & pn & cn & E & Hp & Hl & Hw & (tp & T1 & Etp) & (tp2 & T2 & Etp2)).
  assert (D : forall net, length (h_pn net) = 2 -> h_params net = default_hhn 0 -> exists d, hnn_state net (0, 0, 0, 0)%R 2 0 = Ok d).
  { intros net L P. apply state_raises; [lia|]. rewrite P. unfold Q2R. cbn. lra. }
  destruct (D net' Hl Hp) as (d & Ed). destruct (D (silent net')) as (d0 & Ed0); [cbn; rewrite map_length; exact Hl|exact Hp|].
  exists net', (times, pn, cn), d, d0. split; [exact E|]. split; [exact Ed|]. split; [exact Ed0|].
  apply (C156_inhibition net' (0, 0, 0, 0)%R 2 0 d d0); auto; try lia; rewrite ?Hp, ?Hw; try (cbn; discriminate).
  - unfold Q2R; cbn; lra.
  - intros x [Hx|Hx]; [rewrite T1 in Hx|rewrite T2 in Hx]; destruct Hx as [<-|[]]; [rewrite (Qeq_eqR _ _ Etp)|rewrite (Qeq_eqR _ _ Etp2)]; unfold Q2R; cbn; lra.
Qed.

(** ** C159: results of simulate *)
Theorem C159_simulate :
  forall odeint noise steps time net, total odeint -> (0 < time)%Q -> 1 <= steps ->
  exists net' times pn cn, hhn_simulate odeint noise steps time RK4 net = Ok (net', (times, pn, cn)) /\
    length times = S steps /\ length pn = S steps /\ length cn = S steps /\ (forall row, In row pn -> length row = length (h_pn net)) /\ (forall row, In row cn -> length row = 2) /\
    (forall k, k <= steps -> (nth k times 0 == time * inject_Z (Z.of_nat k) / inject_Z (Z.of_nat steps))%Q) /\
    nth 0 pn [] = potentials net /\ last pn [] = potentials net' /\ last cn [] = central_potentials net' /\ h_stimulus net' = h_stimulus net /\ h_params net' = h_params net.
Proof.
  intros odeint noise steps time net T Ht Hs. destruct (simulate_total odeint noise steps time net T Ht Hs) as (net' & times & pn & cn & E). exists net', times, pn, cn. split; [exact E|].
  apply sim_inv in E as (_ & _ & nets & L & -> & Et & -> & -> & H); auto. cbv zeta in *. set (step := (time / inject_Z (Z.of_nat steps))%Q) in *.
  assert (Lt : length times = S steps) by (rewrite Et; cbn [length]; now rewrite map_length, seq_length).
  assert (RS := run_static odeint noise step net nets (fun j => nth (S j) times 0%Q) steps H). split; [exact Lt|]. split; [cbn [length]; now rewrite map_length, L|]. split; [cbn [length]; now rewrite map_length, L|].
  assert (Rows : forall row, In row (potentials net :: map potentials nets) -> length row = length (h_pn net)).
  { intros row Hr. change (potentials net :: map potentials nets) with (map potentials (net :: nets)) in Hr. apply in_map_iff in Hr as (x & <- & Hx). apply (In_nth _ _ net) in Hx as (k & Hk & <-). cbn [length] in Hk. unfold potentials. rewrite map_length. apply RS. lia. }
  split; [exact Rows|]. split; [intros row [<-|Hr]; [reflexivity|apply in_map_iff in Hr as (x & <- & _); reflexivity]|].
  assert (Ps : (0 < inject_Z (Z.of_nat steps))%Q) by (change 0%Q with (inject_Z 0); rewrite <- Zlt_Qlt; lia).
  split; [|split; [reflexivity|]].
  - intros k Hk. rewrite Et. destruct k as [|k]; cbn [nth]; [change (inject_Z (Z.of_nat 0)) with 0%Q; field; intros Z; rewrite Z in Ps; apply (Qlt_irrefl _ Ps)|].
    set (f := fun k => (step + inject_Z (Z.of_nat k) * step)%Q). rewrite (nth_indep _ 0%Q (f 0)) by (rewrite map_length, seq_length; lia). rewrite map_nth, seq_nth by lia. unfold f, step. cbn [Nat.add].
    rewrite <- (Nat.add_1_r k), Nat2Z.inj_add, inject_Z_plus. change (inject_Z (Z.of_nat 1)) with 1%Q. field. intros Z; rewrite Z in Ps; apply (Qlt_irrefl _ Ps).
  - destruct nets as [|x nets] using rev_ind; [cbn in L; lia|]. clear IHnets. rewrite !map_app. cbn [map]. rewrite !app_comm_cons, !last_last.
    split; [reflexivity|]. split; [reflexivity|]. specialize (RS steps (le_n _)). rewrite <- L, <- last_nth, last_last in RS. tauto.
Qed.
Print Assumptions C159_simulate.

Theorem C159_refused :
  forall odeint noise steps time net, hhn_simulate odeint noise steps time FAST net = Raise NameError /\ hhn_simulate odeint noise steps time RKF45 net = Raise NameError /\ hhn_simulate odeint noise 0 time RK4 net = Raise ZeroDivisionError.
Proof. intros. repeat split. Qed.
Print Assumptions C159_refused.

(** the dynamic of the central elements always starts with zeros, also if they are in another state *)
Definition rest (f : quad -> R -> res quad) (y : quad) (ts : list R) : list quad := map (fun _ => (-65, 0, 0, 0)%R) ts.
Theorem C159_central_start_refuted :
  exists odeint noise net steps time first dynamic second times pn cn, total odeint /\ net = hhn_create 2 (Some [30; 0]%Q) (default_hhn 0) [1; 1]%Q /\ (0 < time)%Q /\
    hhn_simulate odeint noise steps time RK4 net = Ok (first, dynamic) /\ hhn_simulate odeint noise steps time RK4 first = Ok (second, (times, pn, cn)) /\ nth 0 cn [] <> central_potentials first.
Proof.
  assert (T : total rest) by (intros f y ts; apply map_length).
  destruct (simulate_total rest (fun _ => [1; 1]%Q) 1 1 case_net T ltac:(reflexivity) (le_n _)) as (first & times1 & pn1 & cn1 & E1). destruct (simulate_total rest (fun _ => [1; 1]%Q) 1 1 first T ltac:(reflexivity) (le_n _)) as (second & times & pn & cn & E2).
  exists rest, (fun _ => [1; 1]%Q), case_net, 1, 1%Q, first, (times1, pn1, cn1), second, times, pn, cn. split; [exact T|]. split; [reflexivity|]. split; [reflexivity|]. split; [exact E1|]. split; [exact E2|].
  apply sim_inv in E2 as (_ & _ & nets & _ & _ & _ & _ & -> & _); [|reflexivity]. cbn [nth]. 
  apply sim_inv in E1 as (_ & _ & nets1 & L & -> & _ & _ & _ & H); [|reflexivity]. destruct nets1 as [|next [|]]; try discriminate. cbn [last].
  specialize (H 0 ltac:(lia)). cbn [nth] in H. destruct (step_ok _ _ _ _ _ _ _ H) as (_ & _ & _ & _ & _ & (s1 & Es & b1 & F1) & _).
  assert (I : In s1 (b1 ++ [s1])) by (apply in_or_app; right; now left). rewrite <- F1 in I. apply in_map_iff in I as (x & I & _). subst s1.
  unfold central_potentials. rewrite Es, update_central_state. cbn [membrane]. intros X. injection X as X _. lra.
Qed.
Print Assumptions C159_central_start_refuted.

(** neurons that stay at 0 are above the threshold -10: the connection is off after six and on after seven units of time *)
Example C158_case : exists nets, hhn_steps hold (fun _ => [1; 1]%Q) 1 (1 / 10) 0 [1; 2; 3; 4; 5; 6; 7]%Q case_net = Ok nets /\
  p_weight3 (nth 1 (h_pn (nth 6 (case_net :: nets) case_net)) new_peripheral) = 0%Q /\ p_weight3 (nth 1 (h_pn (nth 7 (case_net :: nets) case_net)) new_peripheral) = 5%Q.
Proof.
  destruct (hhn_steps_total hold (fun _ => [1; 1]%Q) 1 hold_total ltac:(reflexivity) [1; 2; 3; 4; 5; 6; 7]%Q 0 case_net) as (nets & E). exists nets. split; [exact E|].
  pose proof (C158_switched_on hold (fun _ => [1; 1]%Q) 2 (Some [30; 0]%Q) (default_hhn 0) [1; 1]%Q 1 [1; 2; 3; 4; 5; 6; 7]%Q nets 1 E ltac:(lia)) as G. cbv zeta in G. fold case_net in G.
  set (v := fun k => membrane (p_state (nth 1 (h_pn (nth k (case_net :: nets) case_net)) new_peripheral))) in *.
  destruct (hhn_steps_ok _ _ _ _ _ _ _ _ E) as [L H].
  assert (Z : forall k, k <= 7 -> v k = 0%R /\ length (h_pn (nth k (case_net :: nets) case_net)) = 2).
  { induction k as [|k IH]; intros Hk; [split; reflexivity|]. destruct (IH ltac:(lia)) as [V N]. specialize (H k ltac:(cbn; lia)). destruct (step_ok _ _ _ _ _ _ _ H) as (_ & _ & _ & Hl & P & _).
    destruct (P 1 ltac:(lia)) as (s & Es & b & F). apply hold_last in F. subst s. split; [|congruence]. unfold v. rewrite Es, update_peripheral_state. exact V. }
  assert (Hh : forall k, k <= 7 -> hot (default_hhn 0) v k = k).
  { induction k as [|k IH]; intros Hk; [reflexivity|]. rewrite hot_S, IH by lia. rewrite (proj1 (Z (S k) Hk)). destruct (Rlt_dec _ _) as [_|X]; [lia|]. exfalso. apply X. unfold Q2R. cbn. lra. }
  assert (B : forall k, k <= 6 -> (inject_Z (Z.of_nat (hot (default_hhn 0) v k)) * 1 < 1 / eps (default_hhn 0))%Q).
  { intros k Hk. rewrite Hh by lia. do 7 (destruct k as [|k]; [reflexivity|]). lia. }
  split.
  - apply (G 6); [cbn; lia|intros; apply B; lia|apply B; lia].
  - apply (G 7); [cbn; lia|intros; apply B; lia|lia|]. rewrite Hh by lia. cbn. discriminate.
Qed.
