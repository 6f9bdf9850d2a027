(** Proofs about the solvers of the phase oscillators *)
From Verif Require Import Base Topology_Model Gcolor_Model Gcolor_Proofs Kuramoto_Model Kuramoto_Proofs Odesync_Model.
From Coq Require Import Reals Lra Qreals Qround.
Open Scope nat_scope.

(** * Specification *)
(** a solver that is exact for constant derivatives *)
Definition exact_on_constants (odeint : (R -> R -> R) -> R -> list R -> list R) : Prop :=
  forall f c y0 t0 ts, (forall y t, f y t = c) -> odeint f y0 (t0 :: ts) = map (fun t => (y0 + c * (t - t0))%R) (t0 :: ts).
Definition same_angle (a b : R) : Prop := exists k : Z, a = (b + IZR k * (2 * PI))%R.

Lemma same_angle_refl a : same_angle a a.
Proof. exists 0%Z. ring. Qed.
Lemma same_angle_step a b c d : same_angle a (b + d)%R -> same_angle b c -> same_angle a (c + d)%R.
Proof. intros [k ->] [l ->]. exists (k + l)%Z. rewrite plus_IZR. ring. Qed.

(** * The times of one step *)
Lemma arange_step t step : (0 < step)%Q -> arange (t - step) t (step / 10) = map (fun k => (t - step + inject_Z (Z.of_nat k) * (step / 10))%Q) (seq 0 10).
Proof.
  intros H. unfold arange. f_equal. f_equal.
  assert (E : ((t - (t - step)) / (step / 10) == inject_Z 10)%Q) by (field; intros E; rewrite E in H; apply (Qlt_irrefl _ H)).
  rewrite (Qceiling_comp _ _ E), Qceiling_Z. reflexivity.
Qed.

Section Free.
Variable odeint : (R -> R -> R) -> R -> list R -> list R.
Hypothesis exact : exact_on_constants odeint.
Variable kuramoto : list R -> nat -> R -> R.
Variable freq : nat -> R.
Hypothesis free : forall phases i teta, kuramoto phases i teta = freq i.

Lemma integrate_value phases t step i : (0 < step)%Q ->
  exists before, odeint (fun teta _ => kuramoto phases i teta) (rnth phases i) (map Q2R (arange (t - step) t (step / 10))) = before ++ [(rnth phases i + freq i * (9 / 10 * Q2R step))%R].
Proof.
  intros H. rewrite (arange_step t step H). cbn [seq map]. rewrite (exact _ (freq i)) by (intros; apply free).
  cbn [map]. eexists [_; _; _; _; _; _; _; _; _]. cbn [app]. do 9 (apply (f_equal2 cons); [reflexivity|]). apply (f_equal2 cons); [|reflexivity].
  rewrite !Q2R_plus, !Q2R_minus, !Q2R_mult.
  assert (E : Q2R (step / 10) = (Q2R step / 10)%R) by (rewrite Q2R_div by discriminate; f_equal; unfold Q2R; cbn; lra). rewrite E.
  replace (Q2R (inject_Z (Z.of_nat 9))) with 9%R by (unfold Q2R; cbn; lra). replace (Q2R (inject_Z (Z.of_nat 0))) with 0%R by (unfold Q2R; cbn; lra). field.
Qed.

Lemma integrate_ok fuel phases t step : (0 < step)%Q -> forall l ps, integrate_phases odeint kuramoto fuel phases t step (step / 10) l = Ok ps <->
  length ps = length l /\ forall k, k < length l -> phase_normalization fuel (rnth phases (nth k l 0%nat) + freq (nth k l 0%nat) * (9 / 10 * Q2R step))%R = Ok (rnth ps k).
Proof.
  intros H. induction l as [|i l IH]; intros ps; cbn [integrate_phases].
  - split; [intros E; apply Ok_inj in E; subst; split; auto; cbn [length]; intros; lia|]. intros [L _]. destruct ps; [reflexivity|discriminate].
  - unfold integrate_phase. destruct (integrate_value phases t step i H) as (b & ->). rewrite rev_app_distr. cbn [rev app].
    destruct (phase_normalization fuel _) as [p|e] eqn:Ep; cbn [bind].
    + destruct (integrate_phases odeint kuramoto fuel phases t step (step / 10) l) as [ps'|e] eqn:El; cbn [bind].
      * split.
        -- intros E. apply Ok_inj in E. subst ps. destruct (proj1 (IH ps') eq_refl) as [L Hl]. split; [cbn [length]; now rewrite L|]. intros [|k] Hk; cbn [nth length] in *; [exact Ep|]. apply (Hl k). lia.
        -- intros [L Hl]. destruct ps as [|q ps]; [discriminate|]. f_equal. f_equal; [specialize (Hl 0 ltac:(cbn [length]; lia)); cbn in Hl; congruence|].
           apply Ok_inj. apply IH. split; [cbn [length] in L; lia|]. intros k Hk. apply (Hl (S k)). cbn [length]. lia.
      * split; [discriminate|]. intros [L Hl]. destruct ps as [|q ps]; [discriminate|]. exfalso. enough (E : Raise e = Ok ps) by discriminate. apply IH. split; [cbn [length] in L; lia|]. intros k Hk. apply (Hl (S k)). cbn [length]. lia.
    + split; [discriminate|]. intros [L Hl]. specialize (Hl 0 ltac:(cbn [length]; lia)). cbn [nth] in Hl. rewrite Ep in Hl. discriminate.
Qed.

(** advance of one step *)
Definition advance (solution : solver) (step : Q) : R := match solution with FAST => 1 | RK4 | RKF45 => (9 / 10 * Q2R step)%R end.

Lemma solve_spec fuel solution phases t step next : (0 < step)%Q -> solve_phases odeint kuramoto fuel solution phases t step (step / 10) = Ok next ->
  length next = length phases /\ forall i, i < length phases -> (0 <= rnth next i <= 2 * PI)%R /\ same_angle (rnth next i) (rnth phases i + freq i * advance solution step).
Proof.
  intros H E.
  assert (G : length next = length phases /\ forall i, i < length phases -> phase_normalization fuel (rnth phases i + freq i * advance solution step)%R = Ok (rnth next i)).
  { destruct solution; cbn [solve_phases advance] in *.
    - destruct (calculate_nth _ _ _ _ _ E) as [L Hl]. rewrite seq_length in *. split; [exact L|]. intros i Hi. specialize (Hl i ltac:(lia)).
      rewrite seq_nth0 in Hl by exact Hi. rewrite free in Hl. rewrite Rmult_1_r. exact Hl.
    - apply integrate_ok in E; [|exact H]. rewrite seq_length in E. destruct E as [L Hl]. split; auto. intros i Hi. specialize (Hl i Hi). rewrite seq_nth0 in Hl by exact Hi. exact Hl.
    - apply integrate_ok in E; [|exact H]. rewrite seq_length in E. destruct E as [L Hl]. split; auto. intros i Hi. specialize (Hl i Hi). rewrite seq_nth0 in Hl by exact Hi. exact Hl. }
  destruct G as [L G]. split; [exact L|]. intros i Hi. specialize (G i Hi). split; [eapply normalization_range; exact G|]. eapply normalization_same_angle. exact G.
Qed.

Lemma static_spec fuel solution step : (0 < step)%Q -> forall times phases outs, static_phases odeint kuramoto fuel solution step (step / 10) times phases = Ok outs ->
  length outs = length times /\ forall k, k < length outs -> length (nth k outs []) = length phases /\
    forall i, i < length phases -> (0 <= rnth (nth k outs []) i <= 2 * PI)%R /\ same_angle (rnth (nth k outs []) i) (rnth phases i + INR (S k) * (freq i * advance solution step)).
Proof.
  intros H. induction times as [|t times IH]; intros phases outs E; cbn [static_phases] in E.
  - apply Ok_inj in E. subst. split; auto. cbn [length]. intros; lia.
  - destruct (solve_phases _ _ _ _ _ _ _ _) as [next|e] eqn:En; cbn [bind] in E; [|discriminate].
    destruct (static_phases _ _ _ _ _ _ times next) as [rest|e] eqn:Er; cbn [bind] in E; [|discriminate]. apply Ok_inj in E. subst outs.
    apply solve_spec in En as [Ln Hn]; [|exact H]. apply IH in Er as [Lr Hr]. cbn [length]. split; [now rewrite Lr|]. intros [|k] Hk; cbn [nth].
    + split; [exact Ln|]. intros i Hi. replace (INR 1 * (freq i * advance solution step))%R with (freq i * advance solution step)%R by (cbn; ring). auto.
    + destruct (Hr k ltac:(lia)) as [L' Hk']. rewrite Ln in L', Hk'. split; [exact L'|]. intros i Hi. destruct (Hk' i Hi) as [B A]. split; [exact B|].
      rewrite S_INR. replace (rnth phases i + (INR (S k) + 1) * (freq i * advance solution step))%R with (rnth phases i + freq i * advance solution step + INR (S k) * (freq i * advance solution step))%R by ring.
      eapply same_angle_step; [exact A|]. apply Hn. exact Hi.
Qed.
End Free.

Lemma fold_none (p : nat -> bool) (f : nat -> R) l a : (forall k, In k l -> p k = false) -> fold_left (fun acc k => if p k then (acc + f k)%R else acc) l a = a.
Proof. revert a. induction l as [|k l IH]; intros a H; cbn [fold_left]; auto. rewrite (H k) by now left. apply IH. intros; apply H; now right. Qed.

(** unconnected oscillators *)
Lemma unconnected net weight freq phases i teta : (forall j, j < n_osc net -> has_connection net i j = false) -> phase_kuramoto net weight freq phases i teta = rnth freq i.
Proof.
  intros H. unfold phase_kuramoto. rewrite (fold_none (has_connection net i)); [|intros k Hk; apply in_seq in Hk; apply H; lia]. unfold Rdiv. ring.
Qed.
