(** C151-C154: LEGION *)
From Verif Require Import Base Topology_Model Ensembles_Model Ensembles_Proofs Gcolor_Model Gcolor_Proofs Kuramoto_Model Kuramoto_Proofs Odesync_Proofs Legion_Model Legion_Proofs.
From Coq Require Import Reals Lra Qreals.
Open Scope nat_scope.

(** ** C151 one step *)
Lemma matrix_good net m : n_conn net = CMatrix m -> good_net net.
Proof. intros E i Hi. unfold get_neighbors. rewrite E. split; [apply NoDup_filter, seq_NoDup|]. intros k Hk. apply filter_In in Hk as [Hk _]. apply in_seq in Hk. lia. Qed.

Lemma nth_proj (f : R * R * R -> R) vs i : f (0, 0, 0)%R = 0%R -> rnth (map f vs) i = f (nth i vs (0, 0, 0)%R).
Proof. intros H. unfold rnth. rewrite <- (map_nth f). now rewrite H. Qed.

Theorem C151_step_equations :
  forall odeint1 odeint2 odeint3 p net stim noise t step st next i, good_net net -> l_potential p = true -> i < n_osc net ->
  legion_step odeint1 odeint2 odeint3 p net stim noise t step (step / 10) st = Ok next ->
  (exists f before, odeint3 f (rnth (l_exc st) i, rnth (l_inh st) i, rnth (l_pot st) i) (map Q2R (arange (t - step) t (step / 10)))
                      = before ++ [(rnth (l_exc next) i, rnth (l_inh next) i, rnth (l_pot next) i)] /\
     forall x y q s, f (x, y, q) s =
       (3 * x - x ^ 3 + 2 - y + (if above (l_teta p) (q + exp (- Q2R (l_alpha p) * s)) then Q2R (nth i stim 0%Q) else 0) + rnth (l_coup st) i + rnth (l_noise st) i,
        Q2R (l_eps p) * (Q2R (l_gamma p) * (1 + tanh (x / Q2R (l_betta p))) - y),
        (if above (l_teta_p p) (Q2R (l_T p) * INR (active p net st i)) then Q2R (l_lamda p) * (1 - q) else 0) - Q2R (l_mu p) * q)%R) /\
  rnth (l_coup next) i = coupling_value p net stim st i /\ l_noise next = noise.
Proof.
  intros odeint1 odeint2 odeint3 p net stim noise t step st next i Hg Hp Hi E. unfold legion_step in E. set (ts := map Q2R _) in *.
  destruct (oscillators _ _ _ _ _ _ _ _) as [vs|e] eqn:Ev; cbn [bind] in E; [|discriminate]. destruct (last_of (odeint1 _ _ _)) as [z|e]; cbn [bind] in E; [|discriminate]. apply Ok_inj in E. subst next. cbn [l_exc l_inh l_pot l_coup l_noise].
  destruct (oscillators_ok _ _ _ _ _ _ _ _ _ Ev) as [L H]. rewrite seq_length in L, H. specialize (H i Hi). cbv zeta in H. rewrite Hp, seq_nth in H by exact Hi. cbn [Nat.add] in H.
  split; [|split; [|reflexivity]].
  - exists (full_field p net stim st i). apply last_of_ok in H as [b H]. exists b. split.
    + rewrite H. f_equal. f_equal. rewrite !nth_proj by reflexivity. destruct (nth i vs _) as [[? ?] ?]. reflexivity.
    + intros x y q s. unfold full_field. rewrite !heaviside_above, potential_spec. unfold indicator. f_equal; [f_equal; f_equal; f_equal; f_equal; destruct (above _ _); ring|]. destruct (above _ _); ring.
  - unfold rnth. rewrite (nth_indep _ 0%R (new_coupling p net stim st 0)) by (rewrite map_length, seq_length; exact Hi). rewrite map_nth, seq_nth by exact Hi. apply coupling_spec; auto.
Qed.
Print Assumptions C151_step_equations.

(** the same with ENABLE_POTENTIONAL = False: no potentials, the stimulus is always seen *)
Theorem C151_without_potentials :
  forall odeint1 odeint2 odeint3 p net stim noise t step st next i, good_net net -> l_potential p = false -> i < n_osc net ->
  legion_step odeint1 odeint2 odeint3 p net stim noise t step (step / 10) st = Ok next ->
  (exists f before, odeint2 f (rnth (l_exc st) i, rnth (l_inh st) i) (map Q2R (arange (t - step) t (step / 10))) = before ++ [(rnth (l_exc next) i, rnth (l_inh next) i)] /\
     forall x y s, f (x, y) s =
       (3 * x - x ^ 3 + 2 - y + Q2R (nth i stim 0%Q) + rnth (l_coup st) i + rnth (l_noise st) i, Q2R (l_eps p) * (Q2R (l_gamma p) * (1 + tanh (x / Q2R (l_betta p))) - y))%R) /\
  rnth (l_pot next) i = rnth (l_pot st) i /\ rnth (l_coup next) i = coupling_value p net stim st i /\ l_noise next = noise.
Proof.
  intros odeint1 odeint2 odeint3 p net stim noise t step st next i Hg Hp Hi E. unfold legion_step in E. set (ts := map Q2R _) in *.
  destruct (oscillators _ _ _ _ _ _ _ _) as [vs|e] eqn:Ev; cbn [bind] in E; [|discriminate]. destruct (last_of (odeint1 _ _ _)) as [z|e]; cbn [bind] in E; [|discriminate]. apply Ok_inj in E. subst next. cbn [l_exc l_inh l_pot l_coup l_noise].
  destruct (oscillators_ok _ _ _ _ _ _ _ _ _ Ev) as [L H]. rewrite seq_length in L, H. specialize (H i Hi). cbv zeta in H. rewrite Hp, seq_nth in H by exact Hi. cbn [Nat.add] in H. destruct H as [H Hq].
  split; [|split; [|split; [|reflexivity]]].
  - exists (simple_field p stim st i). apply last_of_ok in H as [b H]. exists b. split; [|reflexivity].
    rewrite H. f_equal. f_equal. rewrite !nth_proj by reflexivity. destruct (nth i vs _) as [[? ?] ?]. reflexivity.
  - rewrite nth_proj by reflexivity. exact Hq.
  - unfold rnth. rewrite (nth_indep _ 0%R (new_coupling p net stim st 0)) by (rewrite map_length, seq_length; exact Hi). rewrite map_nth, seq_nth by exact Hi. apply coupling_spec; auto.
Qed.
Print Assumptions C151_without_potentials.

(** ** C152 the global inhibitor and the potentials *)
Definition sim_states odeint1 odeint2 odeint3 p net noise (steps : nat) (time : Q) stimulus st sts : Prop :=
  let step := (time / inject_Z (Z.of_nat steps))%Q in
  legion_steps odeint1 odeint2 odeint3 p net (legion_stimulus (l_I p) stimulus) noise step (step / 10) 0 (arange step (time + step) step) st = Ok sts.

Lemma step_pos steps time : (0 < time)%Q -> 1 <= steps -> (0 < time / inject_Z (Z.of_nat steps))%Q.
Proof. intros Ht Hs. apply Qlt_shift_div_l; [change 0%Q with (inject_Z 0); rewrite <- Zlt_Qlt; lia|]. rewrite Qmult_0_l. exact Ht. Qed.

Lemma simulate_inv odeint1 odeint2 odeint3 p net noise steps time stimulus solution collect st st' d :
  legion_simulate odeint1 odeint2 odeint3 p net noise steps time stimulus solution collect st = Ok (st', d) ->
  solution = RK4 /\ length stimulus = n_osc net /\ 1 <= steps /\ exists sts, sim_states odeint1 odeint2 odeint3 p net noise steps time stimulus st sts /\ st' = last sts st /\
    d = (if collect then Collected (map l_exc sts) (map l_ginh sts) (arange (time / inject_Z (Z.of_nat steps)) (time + time / inject_Z (Z.of_nat steps)) (time / inject_Z (Z.of_nat steps)))
         else match rev sts with [] => NoValues | s :: _ => LastOnly (l_exc s) (l_ginh s) (last (arange (time / inject_Z (Z.of_nat steps)) (time + time / inject_Z (Z.of_nat steps)) (time / inject_Z (Z.of_nat steps))) 0%Q) end).
Proof.
  unfold legion_simulate. destruct solution; try discriminate. destruct (Nat.eqb_spec (length stimulus) (n_osc net)) as [El|]; cbn [negb]; [|discriminate].
  destruct (Nat.eqb_spec steps 0); [discriminate|]. intros E. split; auto. split; auto. split; [lia|].
  destruct (legion_steps _ _ _ _ _ _ _ _ _ _ _ _) as [sts|e] eqn:Es; cbn [bind] in E; [|discriminate]. apply Ok_inj in E. injection E as <- <-. exists sts. auto.
Qed.

(** the recorded inhibitor relaxes towards 1 while an oscillator is active and towards 0 otherwise, over 9/10 of each step; it
    stays between 0 and 1 *)
Theorem C152_inhibitor :
  forall odeint1 odeint2 odeint3 p net noise steps time stimulus st st' outs inhibitor times, exact_relax odeint1 -> (0 <= l_fi p)%Q -> (0 < time)%Q ->
  legion_simulate odeint1 odeint2 odeint3 p net noise steps time stimulus RK4 true st = Ok (st', Collected outs inhibitor times) -> (0 <= l_ginh st <= 1)%R ->
  length inhibitor = steps /\
  forall k, k < steps -> (0 <= rnth inhibitor k <= 1)%R /\
    let before := rnth (l_ginh st :: inhibitor) k in
    let goal := indicator (existsb (above (l_teta_zx p)) (nth k (l_exc st :: outs) [])) in
    rnth inhibitor k = (goal + (before - goal) * exp (- Q2R (l_fi p) * (9 / 10 * (Q2R time / INR steps))))%R.
Proof.
  intros odeint1 odeint2 odeint3 p net noise steps time stimulus st st' outs inhibitor times Hx Hf Ht E H0.
  apply simulate_inv in E as (_ & _ & Hs & sts & E & _ & Ed). injection Ed as -> -> ->. unfold sim_states in E. cbv zeta in E.
  set (step := (time / inject_Z (Z.of_nat steps))%Q) in *. assert (Hst : (0 < step)%Q) by (apply step_pos; auto).
  apply steps_ok in E as [L H]. rewrite (arange_length step time steps Ht Hs eq_refl), map_length, seq_length in L. rewrite (arange_length step time steps Ht Hs eq_refl), map_length, seq_length in H.
  assert (Es : Q2R step = (Q2R time / INR steps)%R).
  { unfold step. rewrite Q2R_div; [f_equal; unfold Q2R, inject_Z; cbn [Qnum Qden]; rewrite INR_IZR_INZ; field|]. change 0%Q with (inject_Z 0). rewrite inject_Z_injective. lia. }
  rewrite map_length. split; [exact L|].
  assert (Nz : forall k, k < steps -> rnth (map l_ginh sts) k = l_ginh (nth k sts st)).
  { intros k Hk. unfold rnth. rewrite (nth_indep _ 0%R (l_ginh st)) by (rewrite map_length; lia). apply map_nth. }
  assert (Eq : forall k, k < steps -> l_ginh (nth k sts st) = relax (Q2R (l_fi p)) (indicator (existsb (above (l_teta_zx p)) (l_exc (nth k (st :: sts) st)))) (l_ginh (nth k (st :: sts) st)) (9 / 10 * Q2R step)).
  { intros k Hk. specialize (H k Hk). apply (step_inhibitor _ _ _ _ _ _ _ _ _ _ _ Hx Hst) in H. exact H. }
  assert (Rg : forall k, k <= steps -> (0 <= l_ginh (nth k (st :: sts) st) <= 1)%R).
  { induction k as [|k IH]; intros Hk; [exact H0|]. cbn [nth]. rewrite Eq by lia. apply relax_range.
    - apply Qle_Rle in Hf. apply Qlt_Rlt in Hst. rewrite RMicromega.Q2R_0 in Hf, Hst. apply Rmult_le_pos; lra.
    - destruct (existsb _ _); unfold indicator; lra.
    - apply IH. lia. }
  intros k Hk. rewrite (Nz k Hk). split; [apply (Rg (S k)); lia|]. cbv zeta. rewrite (Eq k Hk). unfold relax. rewrite <- Es.
  replace (rnth (l_ginh st :: map l_ginh sts) k) with (l_ginh (nth k (st :: sts) st)); [replace (nth k (l_exc st :: map l_exc sts) []) with (l_exc (nth k (st :: sts) st)); [reflexivity|]|].
  - change (l_exc st :: map l_exc sts) with (map l_exc (st :: sts)). rewrite (nth_indep _ [] (l_exc st)) by (rewrite map_length; cbn [length]; lia). now rewrite map_nth.
  - unfold rnth. change (l_ginh st :: map l_ginh sts) with (map l_ginh (st :: sts)). rewrite (nth_indep _ 0%R (l_ginh st)) by (rewrite map_length; cbn [length]; lia). now rewrite map_nth.
Qed.
Print Assumptions C152_inhibitor.

Lemma last_nth {A} (l : list A) (d : A) : last l d = nth (length l) (d :: l) d.
Proof.
  destruct l as [|x l] using rev_ind; [reflexivity|]. rewrite last_last, app_length. cbn [length]. rewrite Nat.add_1_r. cbn [nth]. rewrite app_nth2, Nat.sub_diag by lia. reflexivity.
Qed.

Theorem C152_potentials :
  forall odeint1 odeint2 odeint3 p net noise steps time stimulus st st' d, exact_third odeint3 -> l_potential p = true -> (0 <= l_lamda p)%Q -> (0 <= l_mu p)%Q -> (0 < time)%Q ->
  legion_simulate odeint1 odeint2 odeint3 p net noise steps time stimulus RK4 true st = Ok (st', d) -> (forall i, i < n_osc net -> (0 <= rnth (l_pot st) i <= 1)%R) ->
  forall i, i < n_osc net -> (0 <= rnth (l_pot st') i <= 1)%R.
Proof.
  intros odeint1 odeint2 odeint3 p net noise steps time stimulus st st' d Hx Hp Hl Hm Ht E H0 i Hi.
  apply simulate_inv in E as (_ & _ & Hs & sts & E & -> & _). unfold sim_states in E. cbv zeta in E.
  set (step := (time / inject_Z (Z.of_nat steps))%Q) in *. assert (Hst : (0 < step)%Q) by (apply step_pos; auto).
  apply steps_ok in E as [L H]. rewrite <- L in H. clear L.
  assert (G : forall k, k <= length sts -> (0 <= rnth (l_pot (nth k (st :: sts) st)) i <= 1)%R).
  { induction k as [|k IH]; intros Hk; [apply H0; exact Hi|]. specialize (H k ltac:(lia)). eapply (step_potential _ _ _ _ _ _ _ _ _ _ _ i Hx Hst Hp Hl Hm Hi H). apply IH. lia. }
  specialize (G (length sts) (le_n _)). replace (last sts st) with (nth (length sts) (st :: sts) st); [exact G|].
  symmetry. apply last_nth.
Qed.
Print Assumptions C152_potentials.

(** solvers that are exact where the theorems ask for it *)
Definition case_odeint1 (f : R -> R -> R) (y0 : R) (ts : list R) : list R :=
  let a := (f 0 0 - f 1 0)%R in map (fun t => relax a (f 0 0 / a) y0 (t - hd 0 ts))%R ts.
Definition case_odeint2 (f : R * R -> R -> R * R) (y0 : R * R) (ts : list R) : list (R * R) := map (fun _ => y0) ts.
Definition case_odeint3 (f : R * R * R -> R -> R * R * R) (y0 : R * R * R) (ts : list R) : list (R * R * R) :=
  let g q := snd (f (0, 0, q) 0)%R in let a := (g 0 - g 1)%R in map (fun t => (fst y0, relax a (g 0 / a) (snd y0) (t - hd 0 ts)))%R ts.
Lemma relax_eq a b c y s : (a * (b - c) = 0)%R -> relax a b y s = relax a c y s.
Proof.
  intros H. unfold relax. apply Rmult_integral in H as [->|H]; [replace (- 0 * s)%R with 0%R by ring; rewrite exp_0; ring|]. replace b with c by lra. reflexivity.
Qed.
Lemma slope a b : (a * (a * (b - 0) / a - b) = 0)%R.
Proof. destruct (Req_dec a 0) as [->|H]; [ring|]. field. exact H. Qed.
Lemma case_exact1 : exact_relax case_odeint1.
Proof.
  intros f a b y0 t0 ts H. unfold case_odeint1. cbn [hd]. replace (f 0 0 - f 1 0)%R with a by (rewrite !H; ring). apply map_ext. intros t. apply relax_eq. rewrite H. apply slope.
Qed.
Lemma case_exact3 : exact_third case_odeint3.
Proof.
  intros f a b y0 t0 ts H. unfold case_odeint3. cbn [hd]. rewrite map_map. cbn [snd]. replace (snd (f (0, 0, 0) 0) - snd (f (0, 0, 1) 0))%R with a by (rewrite !H; cbn [snd]; ring).
  apply map_ext. intros t. apply relax_eq. rewrite H. cbn [snd]. apply slope.
Qed.
Lemma case_total : total case_odeint1 /\ total case_odeint2 /\ total case_odeint3.
Proof. split; [|split]; intros f y ts; apply map_length. Qed.

(** ** C153 what simulate returns *)
Theorem C153_simulate :
  forall odeint1 odeint2 odeint3 p net noise steps time stimulus st, total odeint1 -> total odeint2 -> total odeint3 ->
  (0 < time)%Q -> 1 <= steps -> length stimulus = n_osc net ->
  exists st' outs inhibitor times out z t,
    legion_simulate odeint1 odeint2 odeint3 p net noise steps time stimulus RK4 true st = Ok (st', Collected outs inhibitor times) /\
    legion_simulate odeint1 odeint2 odeint3 p net noise steps time stimulus RK4 false st = Ok (st', LastOnly out z t) /\
    length outs = steps /\ length inhibitor = steps /\ length times = steps /\ (forall o, In o outs -> length o = n_osc net) /\
    (forall k, k < steps -> (nth k times 0 == time * inject_Z (Z.of_nat (S k)) / inject_Z (Z.of_nat steps))%Q) /\
    l_exc st' = last outs [] /\ l_ginh st' = last inhibitor 0%R /\ out = last outs [] /\ z = last inhibitor 0%R /\ t = last times 0%Q /\
    dynamic_len (Collected outs inhibitor times) = Ok steps /\ dynamic_len (LastOnly out z t) = Raise TypeError /\ dynamic_time (LastOnly out z t) = Raise TypeError.
Proof.
  intros odeint1 odeint2 odeint3 p net noise steps time stimulus st T1 T2 T3 Ht Hs El. unfold legion_simulate. rewrite El, Nat.eqb_refl. cbn [negb].
  destruct (Nat.eqb_spec steps 0) as [|_]; [lia|]. set (step := (time / inject_Z (Z.of_nat steps))%Q). assert (Hst : (0 < step)%Q) by (apply step_pos; auto).
  set (ts := arange step (time + step) step). set (stim := legion_stimulus (l_I p) stimulus).
  destruct (steps_total odeint1 odeint2 odeint3 p net stim noise step T1 T2 T3 Hst ts 0 st) as (sts & E). rewrite E. cbn [bind].
  assert (Lt : length ts = steps) by (unfold ts; rewrite (arange_length step time steps Ht Hs eq_refl), map_length, seq_length; reflexivity).
  destruct (steps_ok _ _ _ _ _ _ _ _ _ _ _ _ _ E) as [L H]. rewrite Lt in L, H.
  assert (Hne : sts <> []) by (intros ->; cbn in L; lia). destruct (exists_last Hne) as (b & s & Eb).
  do 7 eexists. split; [reflexivity|]. rewrite Eb, rev_app_distr. cbn [rev app]. split; [reflexivity|]. rewrite <- Eb, !map_length, Lt, L.
  split; auto. split; auto. split; auto. split.
  { intros o Ho. apply in_map_iff in Ho as (s0 & <- & Hs0). apply (In_nth _ _ st) in Hs0 as (j & Hj & <-). specialize (H j ltac:(lia)). cbn [nth] in H.
    unfold legion_step in H. destruct (oscillators _ _ _ _ _ _ _ _) as [vs|e] eqn:Ev; cbn [bind] in H; [|discriminate]. destruct (last_of (odeint1 _ _ _)); cbn [bind] in H; [|discriminate]. apply Ok_inj in H. rewrite <- H.
    cbn [l_exc]. rewrite map_length. apply oscillators_ok in Ev as [Lv _]. now rewrite Lv, seq_length. }
  split.
  { intros k Hk. unfold ts. rewrite (arange_length step time steps Ht Hs eq_refl). rewrite (nth_indep _ 0%Q ((fun k => (step + inject_Z (Z.of_nat k) * step)%Q) 0)) by (rewrite map_length, seq_length; exact Hk).
    rewrite (map_nth (fun k => (step + inject_Z (Z.of_nat k) * step)%Q)), seq_nth by exact Hk. cbn [Nat.add]. rewrite Nat2Z.inj_succ. unfold Z.succ. rewrite inject_Z_plus. unfold step. field.
    change 0%Q with (inject_Z 0). rewrite inject_Z_injective. lia. }
  rewrite Eb, !map_app. cbn [map]. rewrite !last_last. cbn [dynamic_len]. rewrite Lt. unfold dynamic_time. cbn [dynamic_len bind]. repeat split; reflexivity.
Qed.
Print Assumptions C153_simulate.

Definition one_net : network := mkNet 1 CAllToAll (create_structure CAllToAll RMatrix 1 1) 1 1.

(** "the property time gives the times of simulation at which the outputs were taken" *)
Theorem C153_time_refuted :
  exists net p noise steps time stimulus st, length stimulus = n_osc net /\ (0 < time)%Q /\ forall odeint1 odeint2 odeint3, total odeint1 -> total odeint2 -> total odeint3 ->
    exists st' outs inhibitor times ts, legion_simulate odeint1 odeint2 odeint3 p net noise steps time stimulus RK4 true st = Ok (st', Collected outs inhibitor times) /\
      dynamic_time (Collected outs inhibitor times) = Ok ts /\ (nth 0 times 0 == 10)%Q /\ nth 0 ts 5 = 0.
Proof.
  exists one_net, default_legion, (fun _ => [0%R]), 1, 10%Q, [1%Q], (legion_create 1 [0%R] [0%R]). split; [reflexivity|]. split; [reflexivity|]. intros odeint1 odeint2 odeint3 T1 T2 T3.
  destruct (C153_simulate odeint1 odeint2 odeint3 default_legion one_net (fun _ => [0%R]) 1 10 [1%Q] (legion_create 1 [0%R] [0%R]) T1 T2 T3 eq_refl (le_n _) eq_refl)
    as (st' & outs & inh & times & out & z & t & E & _ & L1 & L2 & L3 & _ & Hk & _ & _ & _ & _ & _ & Hl & _). exists st', outs, inh, times, [0]. split; [exact E|]. split.
  - unfold dynamic_time. rewrite Hl. reflexivity.
  - split; [|reflexivity]. rewrite (Hk 0) by lia. reflexivity.
Qed.
Print Assumptions C153_time_refuted.

(** ** C154 stimuli and solvers *)
Theorem C154_only_signs :
  forall odeint1 odeint2 odeint3 p net noise steps time s s' solution collect st, length s = length s' -> (forall i, i < length s -> (0 < nth i s 0 <-> 0 < nth i s' 0)%Q) ->
  legion_simulate odeint1 odeint2 odeint3 p net noise steps time s solution collect st = legion_simulate odeint1 odeint2 odeint3 p net noise steps time s' solution collect st.
Proof.
  intros odeint1 odeint2 odeint3 p net noise steps time s s' solution collect st L H. unfold legion_simulate. rewrite L.
  replace (legion_stimulus (l_I p) s') with (legion_stimulus (l_I p) s); [reflexivity|]. unfold legion_stimulus. apply (nth_ext _ _ (if Qltb 0 0 then l_I p else 0%Q) (if Qltb 0 0 then l_I p else 0%Q)); rewrite !map_length; auto.
  intros i Hi. rewrite !(map_nth (fun v => if Qltb 0 v then l_I p else 0%Q)). specialize (H i Hi).
  destruct (Qltb 0 (nth i s 0%Q)) eqn:A, (Qltb 0 (nth i s' 0%Q)) eqn:B; auto; try apply Qltb_true in A; try apply Qltb_false in A; try apply Qltb_true in B; try apply Qltb_false in B; exfalso.
  - apply H in A. apply (Qle_not_lt _ _ B A).
  - apply H in B. apply (Qle_not_lt _ _ A B).
Qed.
Print Assumptions C154_only_signs.

Theorem C154_refused :
  forall odeint1 odeint2 odeint3 p net noise steps time stimulus solution collect st, solution <> RK4 \/ length stimulus <> n_osc net ->
  legion_simulate odeint1 odeint2 odeint3 p net noise steps time stimulus solution collect st = Raise NameError.
Proof.
  intros odeint1 odeint2 odeint3 p net noise steps time stimulus solution collect st H. unfold legion_simulate. destruct solution; auto. destruct H as [H|H]; [congruence|].
  apply Nat.eqb_neq in H. rewrite H. reflexivity.
Qed.
Print Assumptions C154_refused.

Definition two_net : network := mkNet 2 CAllToAll (create_structure CAllToAll RMatrix 2 1) 1 1.
Definition case_legion : legion_state := legion_create 2 [1%R; (-2)%R] [0%R; 0%R].

Example C151_case : good_net two_net /\ l_potential default_legion = true /\ exists next, legion_step case_odeint1 case_odeint2 case_odeint3 default_legion two_net [1 # 5; 1 # 5]%Q [0; 0]%R 1 1 (1 / 10) case_legion = Ok next.
Proof. split; [eapply matrix_good; reflexivity|]. split; [reflexivity|]. destruct case_total as (T1 & T2 & T3). apply step_total; auto. reflexivity. Qed.

(** the second oscillator has one active stimulated neighbour, the first has none active *)
Example C151_case_coupling : coupling_value default_legion two_net [1 # 5; 1 # 5]%Q case_legion 1 = 8%R /\ coupling_value default_legion two_net [1 # 5; 1 # 5]%Q case_legion 0 = 0%R.
Proof.
  assert (A : forall x, (x < -1.5)%R -> above (l_teta_x default_legion) x = false) by (intros x H; unfold above; destruct (Rlt_dec _ _) as [r|r]; auto; exfalso; unfold Q2R in r; cbn in r; lra).
  assert (B : forall x, (-1.5 < x)%R -> above (l_teta_x default_legion) x = true) by (intros x H; unfold above; destruct (Rlt_dec _ _) as [r|r]; auto; exfalso; unfold Q2R in r; cbn in r; lra).
  assert (Z : above (l_teta_xz default_legion) (l_ginh case_legion) = false) by (unfold above; destruct (Rlt_dec _ _) as [r|r]; auto; exfalso; unfold Q2R in r; cbn in r; lra).
  unfold coupling_value. rewrite Z. unfold active, stimulated, get_neighbors. cbn [n_conn two_net create_structure map seq repeat upd n_osc filter nth]. cbn [length case_legion legion_create l_exc rnth nth].
  rewrite (B 1%R) by lra. rewrite (A (-2)%R) by lra. cbn [length]. change (Qltb 0 (1 # 5)) with true. cbn [andb Nat.ltb Nat.leb length indicator INR]. unfold Q2R. cbn. split; lra.
Qed.

Example C152_case : exact_relax case_odeint1 /\ exact_third case_odeint3 /\ (0 <= l_fi default_legion)%Q /\ (0 <= l_ginh case_legion <= 1)%R /\
  exists st' outs inhibitor times, legion_simulate case_odeint1 case_odeint2 case_odeint3 default_legion two_net (fun _ => [0; 0]%R) 3 5 [1; 0]%Q RK4 true case_legion = Ok (st', Collected outs inhibitor times).
Proof.
  split; [apply case_exact1|]. split; [apply case_exact3|]. split; [discriminate|]. split; [cbn; lra|]. destruct case_total as (T1 & T2 & T3).
  destruct (C153_simulate case_odeint1 case_odeint2 case_odeint3 default_legion two_net (fun _ => [0; 0]%R) 3 5 [1; 0]%Q case_legion T1 T2 T3 eq_refl ltac:(lia) eq_refl) as (st' & outs & inh & times & _ & _ & _ & E & _).
  eauto.
Qed.

Example C154_case : forall i, i < 2 -> (0 < nth i [3; -1] 0 <-> 0 < nth i [1 # 2; 0] 0)%Q.
Proof. intros [|[|i]] H; [split; reflexivity|split; discriminate|lia]. Qed.
