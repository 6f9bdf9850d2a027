(** Proofs about the network of Hodgkin-Huxley neurons *)
From Verif Require Import Base Topology_Model Gcolor_Model Gcolor_Proofs Kuramoto_Model Kuramoto_Proofs Odesync_Proofs Hhn_Model.
From Coq Require Import Reals Lra Qreals.
Open Scope nat_scope.

(** * Specification *)
(** y' = rate * (goal - y) with a positive rate and a goal strictly between 0 and 1 *)
Definition gate (rate goal : R) : Prop := (0 < rate)%R /\ (0 < goal < 1)%R.
(** the network without the pulses of the past *)
Definition silent (net : hhn_network) : hhn_network :=
  mkNetwork (h_params net) (h_stimulus net) (h_noise net)
    (map (fun pn => mkPeripheral (p_state pn) (p_activation pn) (p_counter pn) (p_weight3 pn) [] (p_pulse pn)) (h_pn net))
    (mkCentral (c_state (h_cn1 net)) (c_pulse (h_cn1 net)) []) (mkCentral (c_state (h_cn2 net)) (c_pulse (h_cn2 net)) []).
Definition total (odeint : (quad -> R -> res quad) -> quad -> list R -> list quad) : Prop := forall f y ts, length (odeint f y ts) = length ts.

(** * Gating *)
Lemma exp_1 x : (exp x - 1 = 0)%R -> x = 0%R.
Proof. intros H. apply exp_inv. rewrite exp_0. lra. Qed.

Lemma rate_pos x : (exp x - 1 <> 0)%R -> (0 < x / (exp x - 1))%R.
Proof.
  intros H. destruct (Rtotal_order x 0) as [L|[->|G]].
  - assert (exp x < 1)%R by (rewrite <- exp_0; apply exp_increasing; exact L). replace (x / (exp x - 1))%R with ((- x) / (1 - exp x))%R by (field; split; lra). apply Rdiv_lt_0_compat; lra.
  - rewrite exp_0 in H. lra.
  - assert (1 < exp x)%R by (rewrite <- exp_0; apply exp_increasing; exact G). apply Rdiv_lt_0_compat; lra.
Qed.

Lemma gate_of a b : (0 < a)%R -> (0 < b)%R -> gate (a + b) (a / (a + b)) /\ forall y, (a * (1 - y) - b * y = (a + b) * (a / (a + b) - y))%R.
Proof.
  intros Ha Hb. split.
  - split; [lra|]. split; [apply Rdiv_lt_0_compat; lra|]. apply Rmult_lt_reg_r with (a + b)%R; [lra|]. unfold Rdiv. rewrite Rmult_assoc, Rinv_l by lra. lra.
  - intros y. field. lra.
Qed.

Theorem gating net v t index : exists rm gm rh gh rn gn, gate rm gm /\ gate rh gh /\ gate rn gn /\
  forall m h n dv dm dh dn, hnn_state net (v, m, h, n) t index = Ok (dv, dm, dh, dn) -> (dm = rm * (gm - m) /\ dh = rh * (gh - h) /\ dn = rn * (gn - n))%R.
Proof.
  set (potential := (v - Q2R (vRest (h_params net)))%R).
  destruct (Req_EM_T (exp (5 / 2 - 1 / 10 * potential) - 1) 0) as [Ea|Ea].
  { exists 1%R, (1 / 2)%R, 1%R, (1 / 2)%R, 1%R, (1 / 2)%R. assert (G : gate 1 (1 / 2)) by (split; lra). split; auto. split; auto. split; auto. intros m h n dv dm dh dn E. exfalso.
    unfold hnn_state in E. fold potential in E. destruct (currents net v t index) as [[a b]|e]; cbn [bind] in E; [|discriminate]. destruct (Req_EM_T _ 0); [discriminate|contradiction]. }
  destruct (Req_EM_T (exp (1 - 1 / 10 * potential) - 1) 0) as [Eb|Eb].
  { exists 1%R, (1 / 2)%R, 1%R, (1 / 2)%R, 1%R, (1 / 2)%R. assert (G : gate 1 (1 / 2)) by (split; lra). split; auto. split; auto. split; auto. intros m h n dv dm dh dn E. exfalso.
    unfold hnn_state in E. fold potential in E. destruct (currents net v t index) as [[a b]|e]; cbn [bind] in E; [|discriminate]. destruct (Req_EM_T _ 0); [discriminate|]. destruct (Req_EM_T _ 0); [discriminate|contradiction]. }
  destruct (gate_of ((5 / 2 - 1 / 10 * potential) / (exp (5 / 2 - 1 / 10 * potential) - 1)) (4 * exp (- potential / 18))) as [G1 F1]; [apply rate_pos; exact Ea|pose proof (exp_pos (- potential / 18)); lra|].
  destruct (gate_of (7 / 100 * exp (- potential / 20)) (1 / (exp (3 - 1 / 10 * potential) + 1))) as [G2 F2]; [pose proof (exp_pos (- potential / 20)); lra|apply Rdiv_lt_0_compat; [lra|]; pose proof (exp_pos (3 - 1 / 10 * potential)); lra|].
  destruct (gate_of ((1 / 10 - 1 / 100 * potential) / (exp (1 - 1 / 10 * potential) - 1)) (1 / 8 * exp (- potential / 80))) as [G3 F3].
  { pose proof (rate_pos _ Eb) as P. replace (1 / 10 - 1 / 100 * potential)%R with (1 / 10 * (1 - 1 / 10 * potential))%R by field. unfold Rdiv in *. rewrite Rmult_assoc. apply Rmult_lt_0_compat; [lra|exact P]. }
  { pose proof (exp_pos (- potential / 80)); lra. }
  do 6 eexists. split; [exact G1|]. split; [exact G2|]. split; [exact G3|]. intros m h n dv dm dh dn E.
  unfold hnn_state in E. fold potential in E. destruct (currents net v t index) as [[a b]|e]; cbn [bind] in E; [|discriminate].
  destruct (Req_EM_T _ 0) as [|_]; [contradiction|]. destruct (Req_EM_T _ 0) as [|_]; [contradiction|]. apply Ok_inj in E. injection E as _ <- <- <-. rewrite <- F1, <- F2, <- F3. auto.
Qed.

Lemma state_raises net v m h n t index : index <= S (length (h_pn net)) ->
  let potential := (v - Q2R (vRest (h_params net)))%R in
  (hnn_state net (v, m, h, n) t index = Raise ZeroDivisionError <-> (potential = 25 \/ potential = 10)%R) /\ ((potential <> 25 /\ potential <> 10)%R -> exists d, hnn_state net (v, m, h, n) t index = Ok d).
Proof.
  intros Hi potential. assert (C : exists c, currents net v t index = Ok c).
  { unfold currents. destruct (Nat.ltb_spec index (length (h_pn net))); [eauto|]. destruct (Nat.eqb_spec index (length (h_pn net))); [eauto|]. destruct (Nat.eqb_spec index (S (length (h_pn net)))); [eauto|lia]. }
  destruct C as ([a b] & C). unfold hnn_state. rewrite C. cbn [bind]. fold potential.
  destruct (Req_EM_T (exp (5 / 2 - 1 / 10 * potential) - 1) 0) as [Ea|Ea].
  { apply exp_1 in Ea. split; [split; auto; intros _; left; lra|]. intros [X _]. exfalso. apply X. lra. }
  destruct (Req_EM_T (exp (1 - 1 / 10 * potential) - 1) 0) as [Eb|Eb].
  { apply exp_1 in Eb. split; [split; auto; intros _; right; lra|]. intros [_ X]. exfalso. apply X. lra. }
  split; [|eauto]. split; [discriminate|]. intros [X|X]; exfalso; rewrite X in *.
  - apply Ea. replace (5 / 2 - 1 / 10 * 25)%R with 0%R by field. rewrite exp_0. ring.
  - apply Eb. replace (1 - 1 / 10 * 10)%R with 0%R by field. rewrite exp_0. ring.
Qed.

(** * Synaptic currents *)
Lemma alfa_sign time alfa betta : (0 <= alfa)%Q -> ((0 <= time -> 0 <= alfa_function time alfa betta) /\ (time <= 0 -> alfa_function time alfa betta <= 0))%R.
Proof.
  intros H. apply Qle_Rle in H. rewrite RMicromega.Q2R_0 in H. unfold alfa_function. pose proof (exp_pos (- Q2R betta * time)) as P. split; intros Ht.
  - apply Rmult_le_pos; [|lra]. apply Rmult_le_pos; lra.
  - assert (Q2R alfa * time <= 0)%R by nra. nra.
Qed.

Lemma impact_ge t times alfa betta : (0 <= alfa)%Q -> forall acc, (forall tp, In tp times -> Q2R tp <= t)%R -> (acc <= fold_left (fun acc tp => acc + alfa_function (t - Q2R tp) alfa betta) times acc)%R.
Proof.
  intros Ha. induction times as [|tp times IH]; intros acc H; cbn [fold_left]; [lra|]. pose proof (H tp (or_introl eq_refl)) as Htp.
  eapply Rle_trans; [|apply IH; intros; apply H; now right]. pose proof (proj1 (alfa_sign (t - Q2R tp) alfa betta Ha)). lra.
Qed.

Lemma impact_le t times alfa betta : (0 <= alfa)%Q -> forall acc, (forall tp, In tp times -> t <= Q2R tp)%R -> (fold_left (fun acc tp => acc + alfa_function (t - Q2R tp) alfa betta) times acc <= acc)%R.
Proof.
  intros Ha. induction times as [|tp times IH]; intros acc H; cbn [fold_left]; [lra|]. pose proof (H tp (or_introl eq_refl)) as Htp.
  eapply Rle_trans; [apply IH; intros; apply H; now right|]. pose proof (proj2 (alfa_sign (t - Q2R tp) alfa betta Ha)). lra.
Qed.

Definition derivative (d : quad) : R := membrane d.

(** the difference between the membrane derivatives with and without the pulses *)
Lemma silent_peripheral net s t index d d0 : index < length (h_pn net) -> hnn_state net s t index = Ok d -> hnn_state (silent net) s t index = Ok d0 ->
  (membrane d = membrane d0 - (membrane s - Q2R (Vsyninh (h_params net))) *
     (Q2R (w2 (h_params net)) * memory_impact t (c_times (h_cn1 net)) (alfa_inh (h_params net)) (betta_inh (h_params net)) +
      Q2R (p_weight3 (nth index (h_pn net) new_peripheral)) * memory_impact t (c_times (h_cn2 net)) (alfa_inh (h_params net)) (betta_inh (h_params net))))%R.
Proof.
  intros Hi E E0. destruct s as [[[v m] h] n]. unfold hnn_state, currents, silent in *. cbn [h_params h_stimulus h_noise h_pn h_cn1 h_cn2 c_times] in *. rewrite map_length in E0.
  destruct (Nat.ltb_spec index (length (h_pn net))); [|lia]. cbn [bind] in *.
  destruct (Req_EM_T _ 0); [discriminate|]. destruct (Req_EM_T _ 0); [discriminate|]. apply Ok_inj in E, E0. subst d d0. cbn [membrane memory_impact fold_left]. ring.
Qed.

Lemma silent_central1 net s t d d0 : hnn_state net s t (length (h_pn net)) = Ok d -> hnn_state (silent net) s t (length (h_pn net)) = Ok d0 ->
  (membrane d = membrane d0 - (membrane s - Q2R (Vsynexc (h_params net))) * (Q2R (w1 (h_params net)) *
     fold_left (fun acc pn => fold_left (fun acc tp => acc + alfa_function (t - Q2R tp) (alfa_exc (h_params net)) (betta_exc (h_params net))) (p_times pn) acc) (h_pn net) 0))%R.
Proof.
  intros E E0. destruct s as [[[v m] h] n]. unfold hnn_state, currents, silent in *. cbn [h_params h_stimulus h_noise h_pn h_cn1 h_cn2 c_times] in *. rewrite map_length in E0.
  rewrite Nat.ltb_irrefl, Nat.eqb_refl in *. cbn [bind] in *.
  destruct (Req_EM_T _ 0); [discriminate|]. destruct (Req_EM_T _ 0); [discriminate|]. apply Ok_inj in E, E0. subst d d0. cbn [membrane].
  match goal with |- context [fold_left ?f (map ?g (h_pn net)) 0%R] => assert (Z : fold_left f (map g (h_pn net)) 0%R = 0%R) end.
  { clear. generalize 0%R as a. induction (h_pn net) as [|pn l IH]; intros a; cbn [map fold_left p_times]; auto. }
  rewrite Z. ring.
Qed.

Lemma exc_ge t alfa betta pns : (0 <= alfa)%Q -> (forall pn, In pn pns -> forall tp, In tp (p_times pn) -> Q2R tp <= t)%R -> forall acc,
  (acc <= fold_left (fun acc pn => fold_left (fun acc tp => acc + alfa_function (t - Q2R tp) alfa betta) (p_times pn) acc) pns acc)%R.
Proof.
  intros Ha. induction pns as [|pn pns IH]; intros H acc; cbn [fold_left]; [lra|]. eapply Rle_trans; [|apply IH; intros; eapply H; eauto; now right].
  apply impact_ge; auto. intros tp Htp. apply (H pn); [now left|exact Htp].
Qed.

(** * The steps *)
Section Steps.
Variable odeint : (quad -> R -> res quad) -> quad -> list R -> list quad.

Lemma next_length net times : forall l vs, next_states odeint net times l = Ok vs -> length vs = length l.
Proof.
  induction l as [|[i s] l IH]; intros vs E; cbn [next_states] in E; [apply Ok_inj in E; now subst|].
  destruct (last_row _) as [v|e]; cbn [bind] in E; [|discriminate]. destruct (next_states odeint net times l) as [r|e]; cbn [bind] in E; [|discriminate]. apply Ok_inj in E. subst. cbn [length]. f_equal. auto.
Qed.

Lemma next_total net times : total odeint -> times <> [] -> forall l, exists vs, next_states odeint net times l = Ok vs.
Proof.
  intros T Hne. induction l as [|[i s] l (vs & IH)]; cbn [next_states]; [eauto|].
  destruct (last_row (odeint (fun s t => hnn_state net s t i) s times)) as [v|e] eqn:E; cbn [bind]; [rewrite IH; cbn [bind]; eauto|]. exfalso. unfold last_row in E.
  destruct (rev _) as [|y r] eqn:Er; [|discriminate]. apply (f_equal (@length quad)) in Er. rewrite rev_length, T in Er. destruct times; [congruence|discriminate].
Qed.

Lemma next_nth net times : forall l vs j, next_states odeint net times l = Ok vs -> j < length l ->
  exists before, odeint (fun s t => hnn_state net s t (fst (nth j l (0, (0, 0, 0, 0)%R)))) (snd (nth j l (0, (0, 0, 0, 0)%R))) times = before ++ [nth j vs (0, 0, 0, 0)%R].
Proof.
  induction l as [|[i s] l IH]; intros vs j E Hj; cbn [next_states length] in *; [lia|].
  destruct (last_row _) as [v|e] eqn:Ev; cbn [bind] in E; [|discriminate]. destruct (next_states odeint net times l) as [r|e]; cbn [bind] in E; [|discriminate]. apply Ok_inj in E. subst vs.
  destruct j as [|j]; cbn [nth fst snd]; [|apply IH; auto; lia]. unfold last_row in Ev. destruct (rev _) as [|y b] eqn:Er; [discriminate|]. apply Ok_inj in Ev. subst y.
  exists (rev b). apply (f_equal (@rev quad)) in Er. rewrite rev_involutive in Er. exact Er.
Qed.

(** one step: every neuron is updated with the last row of the solver *)
Lemma step_ok noise t step int_step net next : calculate_states odeint noise t step int_step net = Ok next ->
  h_params next = h_params net /\ h_stimulus next = h_stimulus net /\ h_noise next = noise /\ length (h_pn next) = length (h_pn net) /\
  (forall i, i < length (h_pn net) -> exists s, nth i (h_pn next) new_peripheral = update_peripheral (h_params net) t step (nth i (h_pn net) new_peripheral) s /\
     exists before, odeint (fun s t => hnn_state net s t i) (p_state (nth i (h_pn net) new_peripheral)) (map Q2R (arange (t - step) t int_step)) = before ++ [s]) /\
  (exists s, h_cn1 next = update_central t (h_cn1 net) s /\
     exists before, odeint (fun s t => hnn_state net s t (length (h_pn net))) (c_state (h_cn1 net)) (map Q2R (arange (t - step) t int_step)) = before ++ [s]) /\
  (exists s, h_cn2 next = update_central t (h_cn2 net) s /\
     exists before, odeint (fun s t => hnn_state net s t (S (length (h_pn net)))) (c_state (h_cn2 net)) (map Q2R (arange (t - step) t int_step)) = before ++ [s]).
Proof.
  intros E. unfold calculate_states in E. destruct (next_states _ _ _ (combine _ _)) as [ps|e] eqn:Ep; cbn [bind] in E; [|discriminate].
  destruct (next_states _ _ _ [_; _]) as [cs|e] eqn:Ec; cbn [bind] in E; [|discriminate]. apply Ok_inj in E. subst next. cbn [h_params h_stimulus h_noise h_pn h_cn1 h_cn2].
  pose proof (next_nth _ _ _ _ 0 Ec ltac:(cbn; lia)) as C0. pose proof (next_nth _ _ _ _ 1 Ec ltac:(cbn; lia)) as C1. cbn [nth fst snd] in C0, C1.
  pose proof Ep as Ep0. apply next_length in Ep. rewrite combine_length, seq_length, map_length, Nat.min_id in Ep.
  split; auto. split; auto. split; auto. split; [rewrite map_length, combine_length; lia|]. split; [|split; eauto].
  intros i Hi. exists (nth i ps (0, 0, 0, 0)%R).
  set (f := fun q : peripheral * quad => update_peripheral (h_params net) t step (fst q) (snd q)).
  assert (L : length (combine (h_pn net) ps) = length (h_pn net)) by (rewrite combine_length; unfold quad in *; lia).
  rewrite (nth_indep _ new_peripheral (f (new_peripheral, (0, 0, 0, 0)%R))) by (rewrite map_length; unfold quad in *; lia). rewrite map_nth, combine_nth by (symmetry; exact Ep). split; [reflexivity|].
  destruct (next_nth _ _ _ _ i Ep0) as (before & Hb); [rewrite combine_length, seq_length, map_length; lia|]. exists before. rewrite <- Hb. rewrite combine_nth by (rewrite seq_length, map_length; reflexivity). cbn [fst snd]. rewrite seq_nth by exact Hi.
  rewrite (nth_indep (map p_state _) _ (p_state new_peripheral)) by (rewrite map_length; exact Hi). rewrite map_nth. reflexivity.
Qed.

Lemma hhn_steps_ok noise step int_step : forall times k net nets, hhn_steps odeint noise step int_step k times net = Ok nets ->
  length nets = length times /\ forall j, j < length times -> calculate_states odeint (noise (k + j)) (nth j times 0%Q) step int_step (nth j (net :: nets) net) = Ok (nth (S j) (net :: nets) net).
Proof.
  induction times as [|t times IH]; intros k net nets E; cbn [hhn_steps] in E.
  - apply Ok_inj in E. subst. split; auto. cbn [length]. intros; lia.
  - destruct (calculate_states _ _ _ _ _ _) as [next|e] eqn:En; cbn [bind] in E; [|discriminate].
    destruct (hhn_steps _ _ _ _ _ times next) as [r|e] eqn:Er; cbn [bind] in E; [|discriminate]. apply Ok_inj in E. subst nets.
    destruct (IH _ _ _ Er) as [L H]. split; [cbn [length]; now rewrite L|]. intros [|j] Hj; cbn [nth length] in *; [now rewrite Nat.add_0_r|].
    specialize (H j ltac:(lia)). rewrite Nat.add_succ_r. cbn [Nat.add nth] in H.
    replace (nth j r net) with (nth j r next) by (apply nth_indep; lia).
    destruct j as [|j]; cbn [nth] in *; [exact H|]. rewrite (nth_indep r net next) by lia. exact H.
Qed.

Lemma hhn_steps_total noise step : total odeint -> (0 < step)%Q -> forall times k net, exists nets, hhn_steps odeint noise step (step / 10) k times net = Ok nets.
Proof.
  intros T Hs. induction times as [|t times IH]; intros k net; cbn [hhn_steps]; [eauto|].
  assert (C : exists next, calculate_states odeint (noise k) t step (step / 10) net = Ok next).
  { unfold calculate_states. rewrite (arange_step t step Hs). set (ts := map Q2R _). assert (Hne : ts <> []) by (unfold ts; cbn [seq map]; discriminate).
    destruct (next_total net ts T Hne (combine (seq 0 (length (h_pn net))) (map p_state (h_pn net)))) as (ps & ->). cbn [bind].
    destruct (next_total net ts T Hne [(length (h_pn net), c_state (h_cn1 net)); (S (length (h_pn net)), c_state (h_cn2 net))]) as (cs & ->). cbn [bind]. eauto. }
  destruct C as (next & ->). cbn [bind]. destruct (IH (S k) next) as (r & ->). cbn [bind]. eauto.
Qed.
End Steps.

(** * Pulses of one neuron along its membrane potentials *)
Definition record_pulse (acc : bool * list Q) (tv : Q * R) : bool * list Q := pulse (fst tv) (snd tv) (fst acc) (snd acc).

Definition above0 (v : R) : bool := if Rle_dec 0 v then true else false.

Lemma pulse_spec t v flag times : pulse t v flag times = (above0 v, if above0 v && negb flag then times ++ [t] else times).
Proof. unfold pulse, above0. destruct flag, (Rlt_dec v 0), (Rle_dec 0 v); cbn [andb negb]; auto; lra. Qed.

(** times at which the potential is not negative after having been negative (or at the first time, [before] = false) *)
Fixpoint crossings (before : bool) (tvs : list (Q * R)) : list Q :=
  match tvs with
  | [] => []
  | (t, v) :: rest => (if above0 v && negb before then [t] else []) ++ crossings (above0 v) rest
  end.

Lemma record_crossings : forall tvs flag times, snd (fold_left record_pulse tvs (flag, times)) = times ++ crossings flag tvs.
Proof.
  induction tvs as [|[t v] tvs IH]; intros flag times; cbn [fold_left crossings]; [now rewrite app_nil_r|]. unfold record_pulse at 2. cbn [fst snd]. rewrite pulse_spec, IH.
  destruct (above0 v && negb flag); cbn [app]; [now rewrite <- app_assoc|reflexivity].
Qed.

(** [t] is one of them *)
Lemma crossings_In : forall tvs before t, In t (crossings before tvs) <->
  exists k, k < length tvs /\ t = fst (nth k tvs (0%Q, 0%R)) /\ above0 (snd (nth k tvs (0%Q, 0%R))) = true /\ (k = 0 /\ before = false \/ exists j, k = S j /\ above0 (snd (nth j tvs (0%Q, 0%R))) = false).
Proof.
  induction tvs as [|[s v] tvs IH]; intros before t; cbn [crossings]; [split; [intros []|intros (k & Hk & _); cbn in Hk; lia]|].
  rewrite in_app_iff, IH. split.
  - intros [H|(k & Hk & E & H1 & H2)].
    + destruct (above0 v) eqn:En, before; cbn in H; try tauto. destruct H as [<-|[]]. exists 0. cbn [length nth fst snd]. split; [lia|]. auto.
    + exists (S k). cbn [length nth]. split; [lia|]. split; [exact E|]. split; [exact H1|]. right. destruct H2 as [[-> Hn]|(j & -> & Hn)]; [exists 0; auto|exists (S j); auto].
  - intros ([|k] & Hk & E & H1 & H2); cbn [length nth] in *.
    + left. destruct H2 as [[_ ->]|(j & Hj & _)]; [|lia]. cbn [fst snd] in *. rewrite H1. cbn. auto.
    + right. exists k. split; [lia|]. split; auto. split; auto. destruct H2 as [[? _]|(j & Ej & Hn)]; [lia|]. injection Ej as <-. destruct k as [|k]; [left; cbn [nth snd] in Hn; auto|right; exists k; split; [reflexivity|exact Hn]].
Qed.

(** one recorded pulse after the other along a chain of neurons *)
Lemma chain_pulses (flag : nat -> bool) (times : nat -> list Q) (v : nat -> R) (t : nat -> Q) n :
  (forall k, k < n -> (flag (S k), times (S k)) = pulse (t k) (v (S k)) (flag k) (times k)) ->
  (flag n, times n) = fold_left record_pulse (map (fun k => (t k, v (S k))) (seq 0 n)) (flag 0, times 0).
Proof.
  induction n as [|n IH]; intros H; [reflexivity|]. rewrite seq_S, map_app, fold_left_app, <- IH by (intros; apply H; lia). cbn [Nat.add map fold_left]. rewrite (H n) by lia. reflexivity.
Qed.

Lemma update_peripheral_pulse p t step pn s : (p_pulse (update_peripheral p t step pn s), p_times (update_peripheral p t step pn s)) = pulse t (membrane s) (p_pulse pn) (p_times pn).
Proof. unfold update_peripheral. destruct (pulse _ _ _ _). destruct (link _ _ _ _ _ _ _) as [[? ?] ?]. reflexivity. Qed.
Lemma update_peripheral_state p t step pn s : p_state (update_peripheral p t step pn s) = s.
Proof. unfold update_peripheral. destruct (pulse _ _ _ _). destruct (link _ _ _ _ _ _ _) as [[? ?] ?]. reflexivity. Qed.
Lemma update_peripheral_link p t step pn s :
  (p_activation (update_peripheral p t step pn s), p_counter (update_peripheral p t step pn s), p_weight3 (update_peripheral p t step pn s)) = link p t step (membrane s) (p_activation pn) (p_counter pn) (p_weight3 pn).
Proof. unfold update_peripheral. destruct (pulse _ _ _ _). destruct (link _ _ _ _ _ _ _) as [[? ?] ?]. reflexivity. Qed.

Lemma update_central_pulse t c s : (c_pulse (update_central t c s), c_times (update_central t c s)) = pulse t (membrane s) (c_pulse c) (c_times c).
Proof. unfold update_central. destruct (pulse _ _ _ _). reflexivity. Qed.
Lemma update_central_state t c s : c_state (update_central t c s) = s.
Proof. unfold update_central. destruct (pulse _ _ _ _). reflexivity. Qed.
