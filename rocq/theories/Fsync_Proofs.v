(** Specifications and proofs for Fsync_Model. *)
From Verif Require Kmeans_Proofs.
From Verif Require Import Base Topology_Model Gcolor_Model Gcolor_Proofs Kuramoto_Proofs Legion_Model Legion_Proofs Fsync_Model.
From Coq Require Import Reals Lra Qreals.
Open Scope R_scope.

(** * Specification *)

(** The square of the distance from the origin, and the inner product. *)
Definition modulus2 (z : cplx) : R := fst z * fst z + snd z * snd z.
Definition inner (z w : cplx) : R := fst z * fst w + snd z * snd w.

(** Rotation by an angle. *)
Definition rot (a : R) (z : cplx) : cplx := (cos a * fst z - sin a * snd z, sin a * fst z + cos a * snd z).

(** A solver that does not leave a disc on the outside of which the field points
    inwards (so does every exact solution). *)
Definition keeps_discs (odeint : (cplx -> R -> cplx) -> cplx -> list R -> list cplx) : Prop :=
  forall f z0 ts B,
    modulus2 z0 <= B ->
    (forall z t, B <= modulus2 z -> inner z (f z t) <= 0) ->
    Forall (fun z => modulus2 z <= B) (odeint f z0 ts).

(** A solver that is exact where the field is a rotation. *)
Definition exact_rotation (odeint : (cplx -> R -> cplx) -> cplx -> list R -> list cplx) : Prop :=
  forall f w z0 t0 ts,
    (forall z t, modulus2 z = modulus2 z0 -> f z t = (- (w * snd z), w * fst z)) ->
    odeint f z0 (t0 :: ts) = map (fun t => rot (w * (t - t0)) z0) (t0 :: ts).

(** A solver gives a value for every time. *)
Definition total_c (odeint : (cplx -> R -> cplx) -> cplx -> list R -> list cplx) : Prop :=
  forall f z ts, length (odeint f z ts) = length ts.

(** * Proofs *)

Lemma cabs2_modulus z : cabs2 z = modulus2 z.
Proof.
  unfold cabs2, modulus2. rewrite pow2_sqrt; [reflexivity|].
  assert (H1 := Rle_0_sqr (fst z)). assert (H2 := Rle_0_sqr (snd z)). unfold Rsqr in *. lra.
Qed.

Lemma modulus2_pos z : 0 <= modulus2 z.
Proof. unfold modulus2. assert (H1 := Rle_0_sqr (fst z)). assert (H2 := Rle_0_sqr (snd z)). unfold Rsqr in *. lra. Qed.

Lemma influence_sum (s : fsync) (z : cplx) (p : nat -> bool) : forall l acc,
  fold_left (fun acc k => if p k then cadd acc (csub (cnth (f_amplitude s) k) z) else acc) l acc =
  (fst acc + rsum (fun k => fst (cnth (f_amplitude s) k) - fst z) (filter p l),
   snd acc + rsum (fun k => snd (cnth (f_amplitude s) k) - snd z) (filter p l)).
Proof.
  induction l as [|x l IH]; intros [a b]; cbn [fold_left filter].
  - cbn. apply f_equal2; lra.
  - rewrite IH. destruct (p x).
    + unfold cadd, csub. cbn [fst snd rsum fold_right]. unfold rsum. apply f_equal2; lra.
    + reflexivity.
Qed.

(** The neighbours of an oscillator, as numbers. *)
Definition linked (s : fsync) (i : nat) : list nat := filter (has_connection (f_net s) i) (seq 0 (n_osc (f_net s))).

Lemma field_components (s : fsync) (i : nat) (z : cplx) (t : R) :
  let w := snd (cnth (f_properties s) i) in
  let q := fst (cnth (f_properties s) i) in
  let K := f_coupling s / INR (n_osc (f_net s)) in
  amplitude_field s i z t =
  ((q - modulus2 z) * fst z - w * snd z + K * rsum (fun k => fst (cnth (f_amplitude s) k) - fst z) (linked s i),
   (q - modulus2 z) * snd z + w * fst z + K * rsum (fun k => snd (cnth (f_amplitude s) k) - snd z) (linked s i)).
Proof.
  cbn zeta. unfold amplitude_field, landau_stuart, synchronization. cbn zeta.
  rewrite influence_sum, cabs2_modulus. unfold linked, cadd, cmul, csub, creal. cbn [fst snd].
  unfold Rdiv. apply f_equal2; ring.
Qed.

Lemma cauchy_half (a b : cplx) : inner a b <= (modulus2 a + modulus2 b) / 2.
Proof.
  unfold inner, modulus2. assert (H1 := Rle_0_sqr (fst a - fst b)). assert (H2 := Rle_0_sqr (snd a - snd b)).
  unfold Rsqr in *. lra.
Qed.

(** The coupling pulls inwards if no neighbour is farther out. *)
Lemma coupling_inwards (s : fsync) (z : cplx) (l : list nat) :
  (forall k, In k l -> modulus2 (cnth (f_amplitude s) k) <= modulus2 z) ->
  fst z * rsum (fun k => fst (cnth (f_amplitude s) k) - fst z) l +
  snd z * rsum (fun k => snd (cnth (f_amplitude s) k) - snd z) l <= 0.
Proof.
  induction l as [|k l IH]; intro H.
  - cbn. lra.
  - cbn [rsum fold_right]. assert (IH' := IH (fun j Hj => H j (or_intror Hj))). unfold rsum in IH'.
    assert (Hk := H k (or_introl eq_refl)).
    assert (Hc := cauchy_half z (cnth (f_amplitude s) k)). unfold inner in Hc.
    assert (Hm : modulus2 z = fst z * fst z + snd z * snd z) by reflexivity.
    lra.
Qed.

Lemma radial (s : fsync) (i : nat) (z : cplx) (t : R) :
  0 <= f_coupling s ->
  fst (cnth (f_properties s) i) <= modulus2 z ->
  (forall k, In k (linked s i) -> modulus2 (cnth (f_amplitude s) k) <= modulus2 z) ->
  inner z (amplitude_field s i z t) <= 0.
Proof.
  intros HK Hq Hn. rewrite field_components. cbn zeta. unfold inner. cbn [fst snd].
  set (q := fst (cnth (f_properties s) i)) in *. set (w := snd (cnth (f_properties s) i)).
  set (A := rsum (fun k => fst (cnth (f_amplitude s) k) - fst z) (linked s i)).
  set (B := rsum (fun k => snd (cnth (f_amplitude s) k) - snd z) (linked s i)).
  set (K := f_coupling s / INR (n_osc (f_net s))).
  assert (HAB : fst z * A + snd z * B <= 0) by (apply coupling_inwards; exact Hn).
  assert (HK' : 0 <= K).
  { unfold K. destruct (n_osc (f_net s)) as [|m].
    - unfold Rdiv. cbn [INR]. rewrite Rinv_0. lra.
    - apply Rmult_le_pos; [exact HK|]. apply Rlt_le, Rinv_0_lt_compat, lt_0_INR. lia. }
  replace (fst z * ((q - modulus2 z) * fst z - w * snd z + K * A) +
           snd z * ((q - modulus2 z) * snd z + w * fst z + K * B))
    with ((q - modulus2 z) * modulus2 z + K * (fst z * A + snd z * B)) by (unfold modulus2; ring).
  assert (H1 := modulus2_pos z). nra.
Qed.

(** * The loops *)

Lemma calculate_each_ok odeint s t step int_step : forall is zs,
  calculate_each odeint s t step int_step is = Ok zs ->
  length zs = length is /\
  forall k, (k < length is)%nat ->
    last_of (odeint (amplitude_field s (nth k is 0%nat)) (cnth (f_amplitude s) (nth k is 0%nat))
               (map Q2R (arange (t - step)%Q t int_step))) = Ok (cnth zs k).
Proof.
  induction is as [|i is IH]; intros zs H; cbn [calculate_each] in H.
  - apply Ok_inj in H. subst. split; [reflexivity|]. intros k Hk. cbn in Hk. lia.
  - destruct (last_of _) as [z|e] eqn:E; cbn [bind] in H; [|discriminate].
    destruct (calculate_each odeint s t step int_step is) as [rest|e] eqn:Er; cbn [bind] in H; [|discriminate].
    apply Ok_inj in H. subst. destruct (IH _ eq_refl) as [L S]. split; [cbn [length]; lia|].
    intros [|k] Hk; [exact E|]. cbn [length] in Hk. cbn [nth]. apply S. lia.
Qed.

Lemma calculate_ok odeint s t step int_step zs :
  calculate odeint s t step int_step = Ok zs ->
  length zs = n_osc (f_net s) /\
  forall k, (k < n_osc (f_net s))%nat ->
    last_of (odeint (amplitude_field s k) (cnth (f_amplitude s) k) (map Q2R (arange (t - step)%Q t int_step))) = Ok (cnth zs k).
Proof.
  intro H. apply calculate_each_ok in H. rewrite seq_length in H. destruct H as [L S]. split; [exact L|].
  intros k Hk. specialize (S k Hk). rewrite seq_nth in S by exact Hk. exact S.
Qed.

Lemma calculate_total odeint s t step int_step :
  total_c odeint -> arange (t - step)%Q t int_step <> [] ->
  exists zs, calculate odeint s t step int_step = Ok zs.
Proof.
  intros Ht Ha. unfold calculate. generalize (seq 0 (n_osc (f_net s))) as is. induction is as [|i is [zs IH]].
  - eexists. reflexivity.
  - cbn [calculate_each].
    destruct (last_of (odeint (amplitude_field s i) (cnth (f_amplitude s) i) (map Q2R (arange (t - step)%Q t int_step)))) as [z|e] eqn:E.
    + cbn [bind]. rewrite IH. cbn [bind]. eauto.
    + exfalso. unfold last_of in E. destruct (rev _) as [|x r] eqn:Er; [|discriminate].
      apply (f_equal (@length cplx)) in Er. rewrite rev_length, Ht, map_length in Er. cbn in Er.
      destruct (arange (t - step)%Q t int_step); [congruence | discriminate].
Qed.

Lemma fsync_steps_ok odeint step int_step : forall times s ss,
  fsync_steps odeint step int_step times s = Ok ss ->
  length ss = length times /\
  forall j, (j < length times)%nat ->
    exists zs, calculate odeint (nth j (s :: ss) s) (nth j times 0%Q) step int_step = Ok zs /\
               nth (S j) (s :: ss) s = with_amplitude (nth j (s :: ss) s) zs.
Proof.
  induction times as [|t times IH]; intros s ss H; cbn [fsync_steps] in H.
  - apply Ok_inj in H. subst. split; [reflexivity|]. intros j Hj. cbn in Hj. lia.
  - destruct (calculate odeint s t step int_step) as [zs|e] eqn:E; cbn [bind] in H; [|discriminate].
    destruct (fsync_steps odeint step int_step times (with_amplitude s zs)) as [rest|e] eqn:Er; cbn [bind] in H; [|discriminate].
    apply Ok_inj in H. subst. destruct (IH _ _ Er) as [L S]. split; [cbn [length]; lia|].
    intros [|j] Hj.
    + exists zs. cbn [nth]. auto.
    + cbn [length] in Hj. destruct (S j) as (zs' & E1 & E2); [lia|]. exists zs'.
      change (nth (Datatypes.S j) (t :: times) 0%Q) with (nth j times 0%Q).
      change (nth (Datatypes.S j) (s :: with_amplitude s zs :: rest) s) with (nth j (with_amplitude s zs :: rest) s).
      change (nth (Datatypes.S (Datatypes.S j)) (s :: with_amplitude s zs :: rest) s) with (nth j rest s).
      change (nth (Datatypes.S j) (with_amplitude s zs :: rest) (with_amplitude s zs)) with (nth j rest (with_amplitude s zs)) in E2.
      rewrite (nth_indep (with_amplitude s zs :: rest) s (with_amplitude s zs)) by (cbn [length]; lia).
      rewrite (nth_indep rest s (with_amplitude s zs)) by lia. auto.
Qed.

Lemma fsync_steps_total odeint step int_step : forall times s,
  total_c odeint -> (forall t, arange (t - step)%Q t int_step <> []) ->
  exists ss, fsync_steps odeint step int_step times s = Ok ss.
Proof.
  induction times as [|t times IH]; intros s Ht Ha; cbn [fsync_steps]; [eauto|].
  destruct (calculate_total odeint s t step int_step Ht (Ha t)) as [zs ->]. cbn [bind].
  destruct (IH (with_amplitude s zs) Ht Ha) as [ss ->]. cbn [bind]. eauto.
Qed.

Lemma step_pos steps time : (0 < time)%Q -> (1 <= steps)%nat -> (0 < time / inject_Z (Z.of_nat steps))%Q.
Proof. intros Ht Hs. apply Qlt_shift_div_l; [change 0%Q with (inject_Z 0); rewrite <- Zlt_Qlt; lia|]. rewrite Qmult_0_l. exact Ht. Qed.

Lemma sim_inv odeint steps time collect s s' rows times :
  (0 < time)%Q -> fsync_simulate odeint steps time collect s = Ok (s', (rows, times)) ->
  (1 <= steps)%nat /\ exists ss, let step := (time / inject_Z (Z.of_nat steps))%Q in
    length ss = steps /\ s' = last ss s /\
    rows = (if collect then first_row s :: map real_row ss else [real_row (last ss s)]) /\
    times = (if collect then 0%Q :: map (fun k => (step + inject_Z (Z.of_nat k) * step)%Q) (seq 0 steps) else [time]) /\
    forall j, (j < steps)%nat -> exists zs,
      calculate odeint (nth j (s :: ss) s) (step + inject_Z (Z.of_nat j) * step)%Q step (step / 10)%Q = Ok zs /\
      nth (S j) (s :: ss) s = with_amplitude (nth j (s :: ss) s) zs.
Proof.
  intros Ht E. unfold fsync_simulate in E. destruct (Nat.eqb_spec steps 0); [discriminate|]. split; [lia|].
  cbn zeta in E. destruct (fsync_steps _ _ _ _ _) as [ss|e] eqn:Es; cbn [bind] in E; [|discriminate].
  apply Ok_inj in E. apply fsync_steps_ok in Es. destruct Es as [L Hst].
  pose proof (arange_length _ time steps Ht ltac:(lia) eq_refl) as A.
  rewrite A in E, L, Hst. rewrite map_length, seq_length in L, Hst.
  exists ss. cbn zeta. split; [exact L|].
  split; [destruct collect; injection E; congruence|].
  split; [destruct collect; injection E; congruence|].
  split; [destruct collect; injection E; congruence|].
  intros j Hj. specialize (Hst j Hj).
  rewrite Kmeans_Proofs.nth_map_seq0 in Hst by exact Hj. exact Hst.
Qed.

Lemma last_nth {A} (l : list A) (d : A) : last l d = nth (length l) (d :: l) d.
Proof.
  destruct l as [|x l] using rev_ind; [reflexivity|]. rewrite last_last, app_length. cbn [length]. rewrite Nat.add_1_r. cbn [nth]. rewrite app_nth2, Nat.sub_diag by lia. reflexivity.
Qed.
