(** C150: simulated time of phase oscillators *)
From Verif Require Import Base Topology_Model Gcolor_Model Gcolor_Proofs Kuramoto_Model Kuramoto_Proofs Odesync_Model Odesync_Proofs.
From Coq Require Import Reals Lra Qreals.
Open Scope nat_scope.

(** the network [net] with coupling [weight] and frequencies [freq] *)
Definition run odeint net weight freq := simulate_phases odeint (phase_kuramoto net weight freq).

(** unconnected oscillators rotate with their frequencies: by 9/10 of every step with RK4 and RKF45, by one unit of time with FAST *)
Theorem C150_free_rotation :
  forall odeint net weight freq fuel solution steps time phases outs times, exact_on_constants odeint -> (forall i j, has_connection net i j = false) ->
  (0 < time)%Q -> 1 <= steps -> run odeint net weight freq fuel solution true steps time phases = Ok (outs, times) ->
  length outs = S steps /\ length times = S steps /\
  forall k, k <= steps -> (nth k times 0 == time * inject_Z (Z.of_nat k) / inject_Z (Z.of_nat steps))%Q /\ length (nth k outs []) = length phases /\
    forall i, i < length phases -> same_angle (rnth (nth k outs []) i)
      (rnth phases i + rnth freq i * match solution with FAST => INR k | RK4 | RKF45 => 9 / 10 * Q2R (nth k times 0%Q) end)%R.
Proof.
  intros odeint net weight freq fuel solution steps time phases outs times Hx Hc Ht Hs E. unfold run, simulate_phases in E.
  assert (N0 : (0 < inject_Z (Z.of_nat steps))%Q) by (change 0%Q with (inject_Z 0); rewrite <- Zlt_Qlt; lia).
  destruct (Nat.eqb_spec steps 0) as [|_]; [lia|]. set (step := (time / inject_Z (Z.of_nat steps))%Q) in *.
  assert (Hst : (0 < step)%Q) by (apply Qlt_shift_div_l; auto; lra).
  rewrite (arange_length step time steps Ht Hs eq_refl) in E.
  destruct (static_phases _ _ _ _ _ _ _ _) as [os|e] eqn:Eo; cbn [bind] in E; [|discriminate]. apply Ok_inj in E. injection E as <- <-.
  apply (static_spec odeint Hx _ (rnth freq)) in Eo as [L H]; [|intros; apply unconnected; auto|exact Hst]. rewrite map_length, seq_length in L.
  cbn [length]. rewrite L, map_length, seq_length. split; auto. split; auto. intros [|k] Hk; cbn [nth].
  - split; [change (inject_Z (Z.of_nat 0)) with 0%Q; field; intros X; rewrite X in N0; exact (Qlt_irrefl _ N0)|]. split; auto. intros i Hi.
    replace (rnth phases i + rnth freq i * _)%R with (rnth phases i); [apply same_angle_refl|]. destruct solution; cbn [INR]; rewrite ?RMicromega.Q2R_0; ring.
  - set (f := fun k => (step + inject_Z (Z.of_nat k) * step)%Q).
    assert (Et : nth k (map f (seq 0 steps)) 0%Q = f k).
    { rewrite (nth_indep _ 0%Q (f 0)) by (rewrite map_length, seq_length; lia). rewrite map_nth, seq_nth by lia. reflexivity. }
    rewrite Et. unfold f. split.
    + rewrite Nat2Z.inj_succ. unfold Z.succ. rewrite inject_Z_plus. unfold step. field. intros X. rewrite X in N0. exact (Qlt_irrefl _ N0).
    + destruct (H k ltac:(lia)) as [Lk Hi]. split; [exact Lk|]. intros i Hlt. destruct (Hi i Hlt) as [_ A].
      replace (rnth phases i + rnth freq i * _)%R with (rnth phases i + INR (S k) * (rnth freq i * advance solution step))%R; [exact A|].
      assert (Eq : Q2R (step + inject_Z (Z.of_nat k) * step) = (INR (S k) * Q2R step)%R).
      { rewrite Q2R_plus, Q2R_mult, S_INR. replace (Q2R (inject_Z (Z.of_nat k))) with (INR k) by (unfold Q2R, inject_Z; cbn [Qnum Qden]; rewrite INR_IZR_INZ; field). ring. }
      destruct solution; cbn [advance]; rewrite ?Eq; ring.
Qed.
Print Assumptions C150_free_rotation.

(** a solver that is exact on constants *)
Definition case_odeint (f : R -> R -> R) (y0 : R) (ts : list R) : list R := map (fun t => (y0 + f y0 t * (t - hd 0%R ts))%R) ts.
Lemma case_exact : exact_on_constants case_odeint.
Proof. intros f c y0 t0 ts H. unfold case_odeint. cbn [hd]. apply map_ext. intros t. now rewrite H. Qed.
Definition case_net : network := mkNet 1 CNone (create_structure CNone RMatrix 1 1) 1 1.
Lemma case_unconnected i j : has_connection case_net i j = false.
Proof. unfold case_net. destruct i as [|[|i]], j as [|[|j]]; vm_compute; reflexivity. Qed.

Lemma case_norm fuel x : (0 <= x <= 6)%R -> phase_normalization fuel x = Ok x.
Proof. intros H. apply normalization_id. pose proof PI2_3_2. lra. Qed.

(** "the recorded phase is the one at the recorded time" *)
Definition in_time odeint net weight freq solution steps time phases : Prop :=
  forall fuel outs times, run odeint net weight freq fuel solution true steps time phases = Ok (outs, times) ->
  forall k i, k < length outs -> i < length phases -> same_angle (rnth (nth k outs []) i) (rnth phases i + rnth freq i * Q2R (nth k times 0%Q)).

(** one oscillator with frequency 1/10 after one step of 10 units of time: phase 9/10 (RK4, RKF45) or 1/10 (FAST) *)
Lemma case_run odeint solution : exact_on_constants odeint ->
  exists outs times, run odeint case_net 1 [(1 / 10)%R] 5 solution true 1 10 [0%R] = Ok (outs, times) /\ nth 1 outs [] = [match solution with FAST => 1 / 10 | _ => 9 / 10 end]%R /\ nth 1 times 0%Q = (10 / 1)%Q.
Proof.
  intros Hx. unfold run, simulate_phases. cbn [Nat.eqb]. set (step := (10 / inject_Z (Z.of_nat 1))%Q). rewrite (arange_length step 10 1 eq_refl (le_n _) eq_refl).
  cbn [seq map static_phases].
  assert (Q10 : Q2R step = 10%R) by (unfold step, Q2R; cbn; lra).
  assert (E : solve_phases odeint (phase_kuramoto case_net 1 [(1 / 10)%R]) 5 solution [0%R] (step + inject_Z (Z.of_nat 0) * step) step (step / 10) = Ok [match solution with FAST => 1 / 10 | _ => 9 / 10 end]%R).
  { destruct solution; cbn [solve_phases length seq].
    - cbn [calculate_phases]. rewrite unconnected by (intros; apply case_unconnected). cbn [rnth nth]. rewrite case_norm by lra. cbn [bind]. apply (f_equal (fun x => Ok [x])). lra.
    - apply (integrate_ok odeint Hx _ (rnth [(1 / 10)%R])); [intros; apply unconnected; intros; apply case_unconnected|reflexivity|]. split; [reflexivity|]. intros [|k] Hk; cbn [length] in Hk; [|lia].
      cbn [nth rnth]. rewrite Q10. rewrite case_norm by lra. f_equal. lra.
    - apply (integrate_ok odeint Hx _ (rnth [(1 / 10)%R])); [intros; apply unconnected; intros; apply case_unconnected|reflexivity|]. split; [reflexivity|]. intros [|k] Hk; cbn [length] in Hk; [|lia].
      cbn [nth rnth]. rewrite Q10. rewrite case_norm by lra. f_equal. lra. }
  rewrite E. cbn [bind]. do 2 eexists. split; [reflexivity|]. split; reflexivity.
Qed.

Lemma not_same x y : (0 < y - x < 6)%R -> ~ same_angle x y.
Proof.
  intros H [k E]. pose proof PI2_3_2 as P. assert (k <= 0 \/ 1 <= k)%Z as [K|K] by lia.
  - assert (k = 0 \/ k <= -1)%Z as [->|K'] by lia; [lra|]. apply IZR_le in K'. nra.
  - apply IZR_le in K. nra.
Qed.

Theorem C150_simulated_time_refuted :
  exists net weight freq steps time phases, (forall i j, has_connection net i j = false) /\ (0 < time)%Q /\ 1 <= steps /\
    forall odeint solution, exact_on_constants odeint -> ~ in_time odeint net weight freq solution steps time phases.
Proof.
  exists case_net, 1%R, [(1 / 10)%R], 1, 10%Q, [0%R]. split; [apply case_unconnected|]. split; [reflexivity|]. split; [auto|]. intros odeint solution Hx H.
  destruct (case_run odeint solution Hx) as (outs & times & E & E1 & E2). specialize (H 5 outs times E 1 0).
  assert (L : 1 < length outs) by (destruct outs as [|a [|b l]]; cbn in *; [discriminate|discriminate|lia]).
  specialize (H L ltac:(cbn; lia)). rewrite E1, E2 in H. cbn [rnth nth] in H. replace (Q2R (10 / 1)) with 10%R in H by (unfold Q2R; cbn; lra).
  destruct solution; eapply not_same; [|exact H| |exact H| |exact H]; lra.
Qed.
Print Assumptions C150_simulated_time_refuted.

Example C150_case : exact_on_constants case_odeint /\ (forall i j, has_connection case_net i j = false) /\
  exists outs times, run case_odeint case_net 1 [(1 / 10)%R] 5 RK4 true 1 10 [0%R] = Ok (outs, times).
Proof. split; [apply case_exact|]. split; [apply case_unconnected|]. destruct (case_run case_odeint RK4 case_exact) as (o & t & E & _). eauto. Qed.
