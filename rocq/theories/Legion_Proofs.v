(** Proofs about LEGION *)
From Verif Require Import Base Topology_Model Ensembles_Model Ensembles_Proofs Gcolor_Model Gcolor_Proofs Kuramoto_Model Kuramoto_Proofs Odesync_Proofs Legion_Model.
From Coq Require Import Reals Lra Qreals.
Open Scope nat_scope.

(** * Specification *)
(** solvers that give a value for every time, and that are exact for y' = a (b - y) *)
Definition total {A} (odeint : (A -> R -> A) -> A -> list R -> list A) : Prop := forall f y ts, length (odeint f y ts) = length ts.
Definition relax (a b y0 s : R) : R := (b + (y0 - b) * exp (- a * s))%R.
Definition exact_relax (odeint : (R -> R -> R) -> R -> list R -> list R) : Prop :=
  forall f a b y0 t0 ts, (forall y t, f y t = a * (b - y))%R -> odeint f y0 (t0 :: ts) = map (fun t => relax a b y0 (t - t0)) (t0 :: ts).
(** the same for the third of three unknowns *)
Definition exact_third (odeint : (R * R * R -> R -> R * R * R) -> R * R * R -> list R -> list (R * R * R)) : Prop :=
  forall f a b y0 t0 ts, (forall y t, snd (f y t) = a * (b - snd y))%R -> map snd (odeint f y0 (t0 :: ts)) = map (fun t => relax a b (snd y0) (t - t0)) (t0 :: ts).

Definition above (threshold : Q) (x : R) : bool := if Rlt_dec (Q2R threshold) x then true else false.
(** number of the neighbours above the threshold, and of those with a stimulus *)
Definition active (p : legion_params) (net : network) (st : legion_state) (i : nat) : nat := length (filter (fun k => above (l_teta_x p) (rnth (l_exc st) k)) (get_neighbors net i)).
Definition stimulated (net : network) (stim : list Q) (i : nat) : nat := length (filter (fun k => Qltb 0 (nth k stim 0%Q)) (get_neighbors net i)).
Definition indicator (b : bool) : R := if b then 1%R else 0%R.

(** coupling of oscillator [i]: its share of the neighbours' activity minus the influence of the global inhibitor *)
Definition coupling_value (p : legion_params) (net : network) (stim : list Q) (st : legion_state) (i : nat) : R :=
  ((if Qltb 0 (nth i stim 0%Q) && (0 <? stimulated net stim i) then Q2R (l_Wt p) / INR (stimulated net stim i) * INR (active p net st i) else 0)
   - Q2R (l_Wz p) * indicator (above (l_teta_xz p) (l_ginh st)))%R.

(** * Lemmas *)
Lemma heaviside_above (q : Q) x : heaviside (x - Q2R q) = indicator (above q x).
Proof. unfold heaviside, above, indicator. destruct (Rlt_dec 0 (x - Q2R q)), (Rlt_dec (Q2R q) x); auto; lra. Qed.

Lemma count_active (c : R) (g : nat -> R) (b : nat -> bool) l : (forall k, In k l -> g k = c) ->
  fold_left (fun acc k => (acc + g k * indicator (b k))%R) l 0%R = (c * INR (length (filter b l)))%R.
Proof.
  intros H. rewrite (fold_sum (fun k => (g k * indicator (b k))%R)). rewrite Rplus_0_l. induction l as [|k l IH].
  - cbn. ring.
  - change (rsum (fun k => (g k * indicator (b k))%R) (k :: l)) with (g k * indicator (b k) + rsum (fun k => (g k * indicator (b k))%R) l)%R. cbn [filter].
    rewrite IH by (intros; apply H; now right). rewrite (H k) by now left. destruct (b k); unfold indicator; cbn [length]; [rewrite S_INR|]; ring.
Qed.

Definition good_net (net : network) : Prop := forall i, i < n_osc net -> NoDup (get_neighbors net i) /\ forall k, In k (get_neighbors net i) -> k < n_osc net.

Lemma coupling_spec p net stim st i : good_net net -> i < n_osc net -> new_coupling p net stim st i = coupling_value p net stim st i.
Proof.
  intros Hg Hi. destruct (Hg i Hi) as [Nd Hb]. unfold new_coupling, coupling_value. rewrite heaviside_above.
  destruct (legion_row_spec (l_Wt p) stim (n_osc net) (get_neighbors net i) i Nd Hb) as [_ Hr].
  set (row := legion_row _ _ _ _ _) in *. fold (stimulated net stim i) in Hr. cbv zeta in Hr.
  assert (E : forall k, In k (get_neighbors net i) -> Q2R (nth k row 0%Q) = (if Qltb 0 (nth i stim 0%Q) && (0 <? stimulated net stim i) then Q2R (l_Wt p) / INR (stimulated net stim i) else 0)%R).
  { intros k Hk. rewrite (Hr k (Hb k Hk)). replace (existsb (Nat.eqb k) (get_neighbors net i)) with true; [|symmetry; apply existsb_exists; exists k; split; auto; apply Nat.eqb_refl].
    rewrite andb_true_r. destruct (Qltb 0 (nth i stim 0%Q) && (0 <? stimulated net stim i)) eqn:Eb; [|apply RMicromega.Q2R_0].
    apply andb_true_iff in Eb as [_ Eb]. apply Nat.ltb_lt in Eb. rewrite Q2R_div.
    - f_equal. unfold Q2R, inject_Z. cbn [Qnum Qden]. rewrite INR_IZR_INZ. field.
    - change 0%Q with (inject_Z 0). rewrite inject_Z_injective. lia. }
  f_equal.
  transitivity (fold_left (fun acc k => (acc + Q2R (nth k row 0%Q) * indicator (above (l_teta_x p) (rnth (l_exc st) k)))%R) (get_neighbors net i) 0%R).
  { generalize 0%R as a. generalize (get_neighbors net i) as l. induction l as [|k l IH]; intros a; cbn [fold_left]; auto. now rewrite heaviside_above. }
  rewrite (count_active _ _ _ _ E). unfold active. destruct (Qltb 0 (nth i stim 0%Q) && (0 <? stimulated net stim i)); [reflexivity|ring].
Qed.

Lemma potential_spec p net st i : fold_left (fun acc k => (acc + Q2R (l_T p) * heaviside (rnth (l_exc st) k - Q2R (l_teta_x p)))%R) (get_neighbors net i) 0%R = (Q2R (l_T p) * INR (active p net st i))%R.
Proof.
  transitivity (fold_left (fun acc k => (acc + Q2R (l_T p) * indicator (above (l_teta_x p) (rnth (l_exc st) k)))%R) (get_neighbors net i) 0%R).
  { generalize 0%R as a. generalize (get_neighbors net i) as l. induction l as [|k l IH]; intros a; cbn [fold_left]; auto. now rewrite heaviside_above. }
  now rewrite (count_active (Q2R (l_T p)) (fun _ => Q2R (l_T p))).
Qed.

Lemma last_of_ok {A} (l : list A) x : last_of l = Ok x <-> exists before, l = before ++ [x].
Proof.
  unfold last_of. split.
  - intros H. destruct (rev l) as [|y r] eqn:E; [discriminate|]. apply Ok_inj in H. subst y. exists (rev r). rewrite <- (rev_involutive l), E. reflexivity.
  - intros [b ->]. rewrite rev_app_distr. reflexivity.
Qed.

Section Step.
Variable odeint1 : (R -> R -> R) -> R -> list R -> list R.
Variable odeint2 : (R * R -> R -> R * R) -> R * R -> list R -> list (R * R).
Variable odeint3 : (R * R * R -> R -> R * R * R) -> R * R * R -> list R -> list (R * R * R).

Lemma oscillators_ok p net stim st times : forall l vs, oscillators odeint2 odeint3 p net stim st times l = Ok vs ->
  length vs = length l /\ forall k, k < length l -> let i := nth k l 0 in let v := nth k vs (0, 0, 0)%R in
    if l_potential p then last_of (odeint3 (full_field p net stim st i) (rnth (l_exc st) i, rnth (l_inh st) i, rnth (l_pot st) i) times) = Ok v
    else last_of (odeint2 (simple_field p stim st i) (rnth (l_exc st) i, rnth (l_inh st) i) times) = Ok (fst v) /\ snd v = rnth (l_pot st) i.
Proof.
  induction l as [|i l IH]; intros vs E; cbn [oscillators] in E.
  - apply Ok_inj in E. subst. split; auto. cbn [length]. intros; lia.
  - destruct (if l_potential p then _ else _) as [v|e] eqn:Ev; cbn [bind] in E; [|discriminate].
    destruct (oscillators odeint2 odeint3 p net stim st times l) as [r|e]; cbn [bind] in E; [|discriminate]. apply Ok_inj in E. subst vs.
    destruct (IH r eq_refl) as [L H]. split; [cbn [length]; now rewrite L|]. intros [|k] Hk; cbn [nth length] in *; [|apply H; lia].
    cbv zeta. destruct (l_potential p); [exact Ev|]. destruct (last_of (odeint2 _ _ _)) as [xy|e]; cbn [bind] in Ev; [|discriminate]. apply Ok_inj in Ev. subst v. split; reflexivity.
Qed.

Lemma oscillators_total p net stim st times : total odeint2 -> total odeint3 -> times <> [] -> forall l, exists vs, oscillators odeint2 odeint3 p net stim st times l = Ok vs.
Proof.
  intros T2 T3 Hne. assert (G : forall A (l : list A), l <> [] -> exists x, last_of l = Ok x).
  { intros A l H. destruct (exists_last H) as (b & x & ->). exists x. apply last_of_ok. eauto. }
  assert (Z : forall A (l : list A), length l = length times -> l <> []) by (intros A l H E; subst l; destruct times; [congruence|discriminate]).
  induction l as [|i l (vs & IH)]; cbn [oscillators]; [eauto|].
  destruct (l_potential p).
  - destruct (G _ (odeint3 (full_field p net stim st i) (rnth (l_exc st) i, rnth (l_inh st) i, rnth (l_pot st) i) times)) as (x & ->); [apply Z, T3|]. cbn [bind]. rewrite IH. cbn [bind]. eauto.
  - destruct (G _ (odeint2 (simple_field p stim st i) (rnth (l_exc st) i, rnth (l_inh st) i) times)) as (x & ->); [apply Z, T2|]. cbn [bind]. rewrite IH. cbn [bind]. eauto.
Qed.

Lemma step_total p net stim noise t step st : total odeint1 -> total odeint2 -> total odeint3 -> (0 < step)%Q -> exists next, legion_step odeint1 odeint2 odeint3 p net stim noise t step (step / 10) st = Ok next.
Proof.
  intros T1 T2 T3 Hs. unfold legion_step. rewrite (arange_step t step Hs). set (ts := map Q2R _).
  assert (Hne : ts <> []) by (unfold ts; cbn [seq map]; discriminate).
  destruct (oscillators_total p net stim st ts T2 T3 Hne (seq 0 (n_osc net))) as (vs & ->). cbn [bind].
  destruct (last_of (odeint1 (global_field p st) (l_ginh st) ts)) as [z|e] eqn:E; cbn [bind]; [eauto|].
  exfalso. unfold last_of in E. destruct (rev (odeint1 _ _ _)) as [|y r] eqn:Er; [|discriminate]. apply (f_equal (@length R)) in Er. rewrite rev_length, T1 in Er. unfold ts in Er. discriminate.
Qed.

Lemma steps_total p net stim noise step : total odeint1 -> total odeint2 -> total odeint3 -> (0 < step)%Q -> forall times k st, exists sts, legion_steps odeint1 odeint2 odeint3 p net stim noise step (step / 10) k times st = Ok sts.
Proof.
  intros T1 T2 T3 Hs. induction times as [|t times IH]; intros k st; cbn [legion_steps]; [eauto|].
  destruct (step_total p net stim (noise k) t step st T1 T2 T3 Hs) as (next & ->). cbn [bind]. destruct (IH (S k) next) as (r & ->). cbn [bind]. eauto.
Qed.

(** every state follows from the one before *)
Lemma steps_ok p net stim noise step int_step : forall times k st sts, legion_steps odeint1 odeint2 odeint3 p net stim noise step int_step k times st = Ok sts ->
  length sts = length times /\ forall j, j < length times -> legion_step odeint1 odeint2 odeint3 p net stim (noise (k + j)) (nth j times 0%Q) step int_step (nth j (st :: sts) st) = Ok (nth (S j) (st :: sts) st).
Proof.
  induction times as [|t times IH]; intros k st sts E; cbn [legion_steps] in E.
  - apply Ok_inj in E. subst. split; auto. cbn [length]. intros; lia.
  - destruct (legion_step _ _ _ _ _ _ _ _ _ _ _) as [next|e] eqn:En; cbn [bind] in E; [|discriminate].
    destruct (legion_steps _ _ _ _ _ _ _ _ _ _ times next) as [r|e] eqn:Er; cbn [bind] in E; [|discriminate]. apply Ok_inj in E. subst sts.
    destruct (IH _ _ _ Er) as [L H]. split; [cbn [length]; now rewrite L|]. intros [|j] Hj; cbn [nth length] in *; [now rewrite Nat.add_0_r|].
    specialize (H j ltac:(lia)). rewrite Nat.add_succ_r. cbn [Nat.add nth] in H.
    replace (nth j r st) with (nth j r next) by (apply nth_indep; lia).
    destruct j as [|j]; cbn [nth] in *; [exact H|]. rewrite (nth_indep r st next) by lia. exact H.
Qed.
End Step.

(** * The inhibitor *)
Lemma relax_range a b y0 s : (0 <= a * s)%R -> (0 <= b <= 1)%R -> (0 <= y0 <= 1)%R -> (0 <= relax a b y0 s <= 1)%R.
Proof.
  intros Ha Hb Hy. unfold relax. assert (E : (0 < exp (- a * s) <= 1)%R).
  { split; [apply exp_pos|]. rewrite <- exp_0. replace (- a * s)%R with (- (a * s))%R by ring. destruct (Req_dec (a * s) 0) as [->|]; [rewrite Ropp_0; lra|]. left. apply exp_increasing. lra. }
  nra.
Qed.

Lemma step_times t step : (0 < step)%Q -> exists t0 ts, map Q2R (arange (t - step) t (step / 10)) = t0 :: ts /\ exists before, t0 :: ts = before ++ [(t0 + 9 / 10 * Q2R step)%R].
Proof.
  intros H. rewrite (arange_step t step H). cbn [seq map]. do 2 eexists. split; [reflexivity|].
  eexists [_; _; _; _; _; _; _; _; _]. cbn [app]. do 9 (apply (f_equal2 cons); [reflexivity|]). apply (f_equal2 cons); [|reflexivity].
  rewrite !Q2R_plus, !Q2R_minus, !Q2R_mult.
  assert (E : Q2R (step / 10) = (Q2R step / 10)%R) by (rewrite Q2R_div by discriminate; f_equal; unfold Q2R; cbn; lra). rewrite E.
  replace (Q2R (inject_Z (Z.of_nat 9))) with 9%R by (unfold Q2R; cbn; lra). replace (Q2R (inject_Z (Z.of_nat 0))) with 0%R by (unfold Q2R; cbn; lra). field.
Qed.

Lemma step_inhibitor odeint1 odeint2 odeint3 p net stim noise t step st next : exact_relax odeint1 -> (0 < step)%Q ->
  legion_step odeint1 odeint2 odeint3 p net stim noise t step (step / 10) st = Ok next ->
  l_ginh next = relax (Q2R (l_fi p)) (indicator (existsb (above (l_teta_zx p)) (l_exc st))) (l_ginh st) (9 / 10 * Q2R step).
Proof.
  intros Hx Hs E. unfold legion_step in E. destruct (step_times t step Hs) as (t0 & ts & Et & before & Eb). rewrite Et in E.
  destruct (oscillators _ _ _ _ _ _ _ _) as [vs|e]; cbn [bind] in E; [|discriminate]. rewrite (Hx _ (Q2R (l_fi p)) (indicator (existsb (above (l_teta_zx p)) (l_exc st)))) in E by (intros; reflexivity).
  rewrite Eb, map_app in E. cbn [map] in E. rewrite (proj2 (last_of_ok _ _) (ex_intro _ _ eq_refl)) in E. cbn [bind] in E. apply Ok_inj in E. rewrite <- E. cbn [l_ginh].
  f_equal. ring.
Qed.

(** * Potentials *)
Lemma nth_map_third (vs : list (R * R * R)) i : rnth (map snd vs) i = snd (nth i vs (0, 0, 0)%R).
Proof. unfold rnth. change 0%R with (snd (0, 0, 0)%R) at 1. apply map_nth. Qed.

Lemma step_potential odeint1 odeint2 odeint3 p net stim noise t step st next i : exact_third odeint3 -> (0 < step)%Q -> l_potential p = true -> (0 <= l_lamda p)%Q -> (0 <= l_mu p)%Q -> i < n_osc net ->
  legion_step odeint1 odeint2 odeint3 p net stim noise t step (step / 10) st = Ok next -> (0 <= rnth (l_pot st) i <= 1)%R -> (0 <= rnth (l_pot next) i <= 1)%R.
Proof.
  intros Hx Hs Hp Hl Hm Hi E H0. unfold legion_step in E. destruct (step_times t step Hs) as (t0 & ts & Et & before & Eb). rewrite Et in E.
  destruct (oscillators _ _ _ _ _ _ _ _) as [vs|e] eqn:Ev; cbn [bind] in E; [|discriminate]. destruct (last_of (odeint1 _ _ _)) as [z|e]; cbn [bind] in E; [|discriminate]. apply Ok_inj in E. subst next. cbn [l_pot].
  destruct (oscillators_ok _ _ _ _ _ _ _ _ _ Ev) as [L H]. rewrite seq_length in L, H. specialize (H i Hi). cbv zeta in H. rewrite Hp, seq_nth in H by exact Hi. cbn [Nat.add] in H.
  rewrite nth_map_third. apply last_of_ok in H as [b H]. apply (f_equal (map snd)) in H. rewrite map_app in H. cbn [map] in H.
  set (y0 := (rnth (l_exc st) i, rnth (l_inh st) i, rnth (l_pot st) i)) in *. set (v := snd (nth i vs (0, 0, 0)%R)) in *.
  assert (G : exists a c, (0 <= a)%R /\ (0 <= c <= 1)%R /\ forall y t, snd (full_field p net stim st i y t) = (a * (c - snd y))%R).
  { apply Qle_Rle in Hl, Hm. rewrite RMicromega.Q2R_0 in Hl, Hm.
    set (hv := heaviside (fold_left (fun acc k => (acc + Q2R (l_T p) * heaviside (rnth (l_exc st) k - Q2R (l_teta_x p)))%R) (get_neighbors net i) 0%R - Q2R (l_teta_p p))).
    assert (F : forall y t, snd (full_field p net stim st i y t) = (Q2R (l_lamda p) * (1 - snd y) * hv - Q2R (l_mu p) * snd y)%R) by (intros [[? ?] ?] ?; reflexivity).
    assert (hv = 1 \/ hv = 0)%R as [Eh|Eh] by (unfold hv, heaviside; destruct (Rlt_dec _ _); auto).
    - destruct (Req_dec (Q2R (l_lamda p) + Q2R (l_mu p)) 0) as [Ez|Ez].
      + exists 0%R, 0%R. split; [lra|]. split; [lra|]. intros y t'. rewrite F, Eh. replace (Q2R (l_lamda p)) with 0%R by lra. replace (Q2R (l_mu p)) with 0%R by lra. ring.
      + exists (Q2R (l_lamda p) + Q2R (l_mu p))%R, (Q2R (l_lamda p) / (Q2R (l_lamda p) + Q2R (l_mu p)))%R. split; [lra|]. split.
        * split; [apply Rmult_le_pos; [lra|]; left; apply Rinv_0_lt_compat; lra|]. apply Rmult_le_reg_r with (Q2R (l_lamda p) + Q2R (l_mu p))%R; [lra|]. unfold Rdiv. rewrite Rmult_assoc, Rinv_l by lra. lra.
        * intros y t'. rewrite F, Eh. field. exact Ez.
    - exists (Q2R (l_mu p)), 0%R. split; [lra|]. split; [lra|]. intros y t'. rewrite F, Eh. ring. }
  destruct G as (a & c & Ha & Hc & F). rewrite (Hx _ a c y0 t0 ts F), Eb, map_app in H. cbn [map] in H. apply app_inj_tail in H as [_ H]. rewrite <- H.
  apply relax_range; auto. replace (t0 + 9 / 10 * Q2R step - t0)%R with (9 / 10 * Q2R step)%R by ring. apply Qlt_Rlt in Hs. rewrite RMicromega.Q2R_0 in Hs. nra.
Qed.
