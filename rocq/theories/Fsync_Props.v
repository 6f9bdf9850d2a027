(** Theorems about fsync_network (nnet/fsync.py): C174 - C177. *)
From Verif Require Import Base Topology_Model Gcolor_Model Gcolor_Proofs Kuramoto_Proofs Legion_Model Legion_Proofs Fsync_Model Fsync_Proofs.
From Coq Require Import Reals Lra Qreals.
Open Scope R_scope.

(** * Specification *)

(** The factor of the oscillator [i]. *)
Definition of_osc (f : factor) (i : nat) : R := match f with Single x => x | Each l => nth i l 0 end.
Definition enough (n : nat) (f : factor) : Prop := match f with Single _ => True | Each l => (n <= length l)%nat end.

(** A network after its construction and any number of simulations. *)
Inductive lives (odeint : (cplx -> R -> cplx) -> cplx -> list R -> list cplx) (s0 : fsync) : fsync -> Prop :=
| lives_new : lives odeint s0 s0
| lives_sim s s' d steps time collect :
    lives odeint s0 s -> (0 < time)%Q -> fsync_simulate odeint steps time collect s = Ok (s', d) -> lives odeint s0 s'.

Lemma factors_nth n f i : (i < n)%nat -> nth i (factors n f) 0 = of_osc f i.
Proof.
  intro Hi. destruct f as [x|l]; cbn [factors of_osc]; [|reflexivity].
  rewrite (nth_indep _ 0 (1 * x)) by (rewrite repeat_length; exact Hi). rewrite nth_repeat. ring.
Qed.

Lemma create_inv n f r K t p draw s : fsync_create n f r K t p draw = Ok s ->
  exists net, network_init n t p None = Ok net /\ enough n f /\ enough n r /\
    f_net s = net /\ n_osc net = n /\ f_coupling s = K /\ f_amplitude s = map creal draw /\ f_raw s = true /\
    forall i, (i < n)%nat -> cnth (f_properties s) i = ((of_osc r i) ^ 2, of_osc f i).
Proof.
  intro H. unfold fsync_create in H. destruct (network_init n t p None) as [net|e] eqn:En; cbn [bind] in H; [|discriminate].
  cbn zeta in H. destruct ((length (factors n f) <? n) || (length (factors n r) <? n))%nat eqn:El; [discriminate|].
  apply orb_false_elim in El. destruct El as [E1 E2]. apply Nat.ltb_ge in E1. apply Nat.ltb_ge in E2.
  apply Ok_inj in H. subst s. exists net. cbn [f_net f_coupling f_amplitude f_raw f_properties].
  split; [reflexivity|]. split; [destruct f; cbn [enough factors] in *; auto|].
  split; [destruct r; cbn [enough factors] in *; auto|]. split; [reflexivity|]. split.
  { unfold network_init in En. destruct (is_grid t); [destruct (Nat.sqrt n * Nat.sqrt n =? n)%nat; [|discriminate]|];
      apply Ok_inj in En; subst; reflexivity. }
  split; [ring|]. split; [reflexivity|]. split; [reflexivity|].
  intros i Hi. unfold cnth. rewrite Kmeans_Proofs.nth_map_seq0 by exact Hi. now rewrite !factors_nth.
Qed.

Lemma simulate_keeps odeint steps time collect s s' d : (0 < time)%Q ->
  fsync_simulate odeint steps time collect s = Ok (s', d) ->
  f_net s' = f_net s /\ f_properties s' = f_properties s /\ f_coupling s' = f_coupling s.
Proof.
  intros Ht E. destruct d as [rows times]. destruct (sim_inv _ _ _ _ _ _ _ _ Ht E) as (Hs & ss & L & -> & _ & _ & Hst).
  assert (H : forall j, (j <= steps)%nat -> f_net (nth j (s :: ss) s) = f_net s /\ f_properties (nth j (s :: ss) s) = f_properties s /\ f_coupling (nth j (s :: ss) s) = f_coupling s).
  { induction j as [|j IH]; intro Hj; [auto|]. destruct (Hst j) as (zs & _ & Ez); [lia|]. rewrite Ez. cbn [with_amplitude f_net f_properties f_coupling].
    apply IH. lia. }
  rewrite last_nth, L. apply H. lia.
Qed.

Lemma lives_keeps odeint s0 s : lives odeint s0 s -> f_net s = f_net s0 /\ f_properties s = f_properties s0 /\ f_coupling s = f_coupling s0.
Proof.
  induction 1 as [|s s' d steps time collect _ (I1 & I2 & I3) Ht E]; [auto|].
  apply simulate_keeps in E; [|exact Ht]. destruct E as (-> & -> & ->). auto.
Qed.

(** * C174: the equation of an oscillator *)

(** dz/dt = (i w + r^2 - |z|^2) z + K/N sum (z_j - z) over the connected
    oscillators, with the frequency and the radius of the oscillator, at every
    time of the life of the network. *)
Theorem C174_equation odeint n f r K t p draw s0 s net i z time :
  fsync_create n f r K t p draw = Ok s0 -> lives odeint s0 s -> network_init n t p None = Ok net -> (i < n)%nat ->
  let near := filter (has_connection net i) (seq 0 n) in
  let z_ := fun j => nth j (f_amplitude s) (0, 0) in
  let q := (of_osc r i) ^ 2 - (fst z * fst z + snd z * snd z) in
  amplitude_field s i z time =
    (q * fst z - of_osc f i * snd z + K / INR n * rsum (fun j => fst (z_ j) - fst z) near,
     q * snd z + of_osc f i * fst z + K / INR n * rsum (fun j => snd (z_ j) - snd z) near).
Proof.
  intros Hc Hl Hn Hi. cbn zeta. apply create_inv in Hc. destruct Hc as (net' & Hn' & _ & _ & F1 & F2 & F3 & _ & _ & F4).
  rewrite Hn in Hn'. apply Ok_inj in Hn'. subst net'. apply lives_keeps in Hl. destruct Hl as (L1 & L2 & L3).
  rewrite field_components. cbn zeta. rewrite L2, (F4 i Hi), L3, F3. unfold linked. rewrite L1, F1, F2. reflexivity.
Qed.
Print Assumptions C174_equation.

(** Outside its radius and not closer to the origin than its neighbours, an
    oscillator moves inwards; a lone oscillator keeps its radius exactly on the
    circle. *)
Theorem C174_inwards odeint n f r K t p draw s0 s net i z time :
  fsync_create n f r K t p draw = Ok s0 -> lives odeint s0 s -> network_init n t p None = Ok net -> (i < n)%nat ->
  let near := filter (has_connection net i) (seq 0 n) in
  (0 <= K -> (of_osc r i) ^ 2 <= modulus2 z ->
   (forall j, In j near -> modulus2 (nth j (f_amplitude s) (0, 0)) <= modulus2 z) ->
   inner z (amplitude_field s i z time) <= 0) /\
  (near = [] \/ K = 0 -> inner z (amplitude_field s i z time) = ((of_osc r i) ^ 2 - modulus2 z) * modulus2 z).
Proof.
  intros Hc Hl Hn Hi near.
  assert (Heq := C174_equation odeint n f r K t p draw s0 s net i z time Hc Hl Hn Hi). cbn zeta in Heq.
  apply create_inv in Hc. destruct Hc as (net' & Hn' & _ & _ & F1 & F2 & F3 & _ & _ & F4).
  rewrite Hn in Hn'. apply Ok_inj in Hn'. subst net'. apply lives_keeps in Hl. destruct Hl as (L1 & L2 & L3).
  split.
  - intros HK Hq Hnear. apply radial.
    + now rewrite L3, F3.
    + rewrite L2, (F4 i Hi). exact Hq.
    + intros k Hk. apply Hnear. unfold near. unfold linked in Hk. now rewrite L1, F1, F2 in Hk.
  - intros Hlone. rewrite Heq. fold near. unfold inner, modulus2. cbn [fst snd].
    assert (Hz : forall g, K / INR n * rsum g near = 0).
    { intro g. destruct Hlone as [-> | ->]; [cbn [rsum fold_right]; ring | unfold Rdiv; ring]. }
    rewrite !Hz. ring.
Qed.
Print Assumptions C174_inwards.

(** The list of factors is too short: the constructor fails. *)
Theorem C174_short n f r K t p draw net :
  network_init n t p None = Ok net ->
  ((exists s, fsync_create n f r K t p draw = Ok s) <-> enough n f /\ enough n r) /\
  (~ (enough n f /\ enough n r) -> fsync_create n f r K t p draw = Raise IndexError).
Proof.
  intro Hn. assert (Hlen : forall g, (length (factors n g) <? n)%nat = false <-> enough n g).
  { intros [x|l]; cbn [factors enough]; rewrite Nat.ltb_ge; [rewrite repeat_length; split; auto; lia | reflexivity]. }
  unfold fsync_create. rewrite Hn. cbn [bind]. cbn zeta. split.
  - split.
    + intros [s H]. destruct ((length (factors n f) <? n) || (length (factors n r) <? n))%nat eqn:El; [discriminate|].
      apply orb_false_elim in El. now rewrite !Hlen in El.
    + intros [H1 H2]. apply Hlen in H1. apply Hlen in H2. rewrite H1, H2. cbn [orb]. eauto.
  - intro H. destruct ((length (factors n f) <? n) || (length (factors n r) <? n))%nat eqn:El; [reflexivity|].
    exfalso. apply H. apply orb_false_elim in El. now rewrite !Hlen in El.
Qed.
Print Assumptions C174_short.

(** * A solver that meets all the hypotheses *)

Definition angular (f : cplx -> R -> cplx) (z0 : cplx) : R := inner (- snd z0, fst z0) (f z0 0) / modulus2 z0.
Definition case_odeint (f : cplx -> R -> cplx) (z0 : cplx) (ts : list R) : list cplx :=
  map (fun t => rot (angular f z0 * (t - hd 0 ts)) z0) ts.

Lemma rot_modulus a z : modulus2 (rot a z) = modulus2 z.
Proof.
  unfold rot, modulus2. cbn [fst snd]. assert (H := sin2_cos2 a). unfold Rsqr in H.
  replace ((cos a * fst z - sin a * snd z) * (cos a * fst z - sin a * snd z) + (sin a * fst z + cos a * snd z) * (sin a * fst z + cos a * snd z))
    with ((sin a * sin a + cos a * cos a) * (fst z * fst z + snd z * snd z)) by ring.
  rewrite H. ring.
Qed.

Lemma case_discs : keeps_discs case_odeint.
Proof.
  intros f z0 ts B Hb _. unfold case_odeint. apply Forall_forall. intros z Hz. apply in_map_iff in Hz.
  destruct Hz as (t & <- & _). now rewrite rot_modulus.
Qed.

Lemma case_rotation : exact_rotation case_odeint.
Proof.
  intros f w z0 t0 ts H. unfold case_odeint. cbn [hd].
  assert (E : forall a, modulus2 z0 = 0 -> rot a z0 = (0, 0)).
  { intros a H0. unfold modulus2 in H0. assert (H1 := Rle_0_sqr (fst z0)). assert (H2 := Rle_0_sqr (snd z0)).
    unfold Rsqr in *. assert (Hx : fst z0 = 0) by nra. assert (Hy : snd z0 = 0) by nra.
    unfold rot. rewrite Hx, Hy. apply f_equal2; ring. }
  apply map_ext. intro t. destruct (Req_dec (modulus2 z0) 0) as [H0|H0]; [now rewrite !E|].
  replace (angular f z0) with w; [reflexivity|]. unfold angular. rewrite H by reflexivity. unfold inner. cbn [fst snd].
  replace (- snd z0 * - (w * snd z0) + fst z0 * (w * fst z0)) with (w * modulus2 z0) by (unfold modulus2; ring).
  field. exact H0.
Qed.

Lemma case_total : total_c case_odeint.
Proof. intros f z ts. apply map_length. Qed.

Lemma simulate_total odeint steps time collect s : total_c odeint -> (0 < time)%Q -> (1 <= steps)%nat ->
  exists s' d, fsync_simulate odeint steps time collect s = Ok (s', d).
Proof.
  intros T Ht Hs. unfold fsync_simulate. destruct (Nat.eqb_spec steps 0); [lia|]. cbn zeta.
  destruct (fsync_steps_total odeint (time / inject_Z (Z.of_nat steps)) (time / inject_Z (Z.of_nat steps) / 10)
              (arange (time / inject_Z (Z.of_nat steps)) (time + time / inject_Z (Z.of_nat steps)) (time / inject_Z (Z.of_nat steps))) s T) as (ss & ->).
  { intros t Hc. destruct (step_times t _ (step_pos _ _ Ht Hs)) as (t0 & ts & Et & _). rewrite Hc in Et. discriminate. }
  cbn [bind]. eauto.
Qed.

Example C174_case : exists s, fsync_create 3 (Single 2) (Each [1; 2; 3]) (1 / 2) CAllToAll RMatrix [0; 1 / 2; 1 / 4] = Ok s /\
  exists s' d, fsync_simulate case_odeint 5 2 true s = Ok (s', d) /\ lives case_odeint s s'.
Proof.
  eexists. split; [reflexivity|].
  match goal with |- exists s' d, fsync_simulate _ _ _ _ ?s = _ /\ _ => destruct (simulate_total case_odeint 5 2 true s case_total) as (s' & d & E) end; [reflexivity | lia|].
  exists s', d. split; [exact E|]. eapply lives_sim; [apply lives_new | | exact E]. reflexivity.
Qed.

(** * C175: amplitudes stay bounded *)

(** Amplitudes and radii within [B]: nothing ever recorded exceeds it. *)
Theorem C175_bounded odeint n f r K t p draw s0 s B :
  keeps_discs odeint -> fsync_create n f r K t p draw = Ok s0 -> lives odeint s0 s ->
  0 <= K -> 0 <= B -> length draw = n -> Forall (fun x => - B <= x <= B) draw ->
  (forall i, (i < n)%nat -> - B <= of_osc r i <= B) ->
  (forall i, (i < n)%nat -> modulus2 (nth i (f_amplitude s) (0, 0)) <= B * B) /\
  (forall steps time collect s' rows times row x, (0 < time)%Q ->
     fsync_simulate odeint steps time collect s = Ok (s', (rows, times)) ->
     In (Reals row) rows -> In x row -> - B <= x <= B).
Proof.
  intros Hk Hc Hl HK HB Hd Hdraw Hr.
  pose proof (create_inv _ _ _ _ _ _ _ _ Hc) as (net & _ & _ & _ & F1 & F2 & F3 & F5 & _ & F4).
  assert (Hstep : forall s1 zs t1 step, f_net s1 = f_net s0 -> f_properties s1 = f_properties s0 -> f_coupling s1 = f_coupling s0 ->
    (forall i, (i < n)%nat -> modulus2 (cnth (f_amplitude s1) i) <= B * B) ->
    calculate odeint s1 t1 step (step / 10) = Ok zs ->
    length zs = n /\ forall i, (i < n)%nat -> modulus2 (cnth zs i) <= B * B).
  { intros s1 zs t1 step E1 E2 E3 Hall Ez. apply calculate_ok in Ez. rewrite E1, F1, F2 in Ez. destruct Ez as [Lz Sz].
    split; [exact Lz|]. intros i Hi. specialize (Sz i Hi). apply last_of_ok in Sz. destruct Sz as [before Eb].
    assert (Hf := Hk (amplitude_field s1 i) (cnth (f_amplitude s1) i) (map Q2R (arange (t1 - step)%Q t1 (step / 10)%Q)) (B * B) (Hall i Hi)).
    rewrite Eb in Hf. rewrite Forall_app in Hf. destruct Hf as [_ Hf]; [|now inversion Hf].
    intros z tz Hz. apply radial.
    - now rewrite E3, F3.
    - rewrite E2, (F4 i Hi). cbn [fst]. specialize (Hr i Hi). nra.
    - intros k Hin. unfold linked in Hin. apply filter_In in Hin. destruct Hin as [Hin _]. apply in_seq in Hin.
      rewrite E1, F1, F2 in Hin. specialize (Hall k ltac:(lia)). lra. }
  assert (Hsim : forall s1 steps time collect s' rows times, f_net s1 = f_net s0 -> f_properties s1 = f_properties s0 -> f_coupling s1 = f_coupling s0 ->
    length (f_amplitude s1) = n -> (forall i, (i < n)%nat -> modulus2 (cnth (f_amplitude s1) i) <= B * B) ->
    (0 < time)%Q -> fsync_simulate odeint steps time collect s1 = Ok (s', (rows, times)) ->
    (length (f_amplitude s') = n /\ forall i, (i < n)%nat -> modulus2 (cnth (f_amplitude s') i) <= B * B) /\
    (forall row x, In (Reals row) rows -> In x row -> - B <= x <= B)).
  { intros s1 steps time collect s' rows times E1 E2 E3 Hlen Hall Ht E.
    destruct (sim_inv _ _ _ _ _ _ _ _ Ht E) as (Hs & ss & L & -> & Hrows & _ & Hst).
    assert (Hj : forall j, (j <= steps)%nat -> let sj := nth j (s1 :: ss) s1 in
      f_net sj = f_net s0 /\ f_properties sj = f_properties s0 /\ f_coupling sj = f_coupling s0 /\
      length (f_amplitude sj) = n /\ forall i, (i < n)%nat -> modulus2 (cnth (f_amplitude sj) i) <= B * B).
    { induction j as [|j IH]; intro Hj; [cbn; auto|]. cbn zeta in *. destruct (IH ltac:(lia)) as (I1 & I2 & I3 & I4 & I5).
      destruct (Hst j) as (zs & Ez & En); [lia|]. rewrite En. cbn [with_amplitude f_net f_properties f_coupling f_amplitude].
      destruct (Hstep _ zs _ _ I1 I2 I3 I5 Ez) as [Z1 Z2]. auto. }
    assert (Hx : forall j x, (j <= steps)%nat -> In x (map fst (f_amplitude (nth j (s1 :: ss) s1))) -> - B <= x <= B).
    { intros j x Hle Hx. destruct (Hj j Hle) as (_ & _ & _ & J4 & J5). apply in_map_iff in Hx. destruct Hx as (z & <- & Hz).
      apply (In_nth (f_amplitude (nth j (s1 :: ss) s1)) z ((0, 0) : cplx)) in Hz. destruct Hz as (i & Hi & Ez). rewrite J4 in Hi. specialize (J5 i Hi).
      unfold cnth in J5. rewrite Ez in J5. unfold modulus2 in J5. assert (H1 := Rle_0_sqr (snd z)). unfold Rsqr in H1. split; nra. }
    split.
    - rewrite last_nth, L. destruct (Hj steps ltac:(lia)) as (_ & _ & _ & J4 & J5). auto.
    - intros row x Hin Hxr. rewrite Hrows in Hin. destruct collect.
      + destruct Hin as [Hin|Hin].
        * unfold first_row in Hin. destruct (f_raw s1); [|discriminate]. injection Hin as <-. apply (Hx 0%nat x); [lia | exact Hxr].
        * apply in_map_iff in Hin. destruct Hin as (sj & Er & Hin). unfold real_row in Er. injection Er as <-.
          apply (In_nth _ _ s1) in Hin. destruct Hin as (j & Hjl & <-). apply (Hx (S j) x); [lia | exact Hxr].
      + destruct Hin as [Hin|[]]. unfold real_row in Hin. injection Hin as <-. rewrite last_nth, L in Hxr. apply (Hx steps x); [lia | exact Hxr]. }
  assert (Hinv : length (f_amplitude s) = n /\ forall i, (i < n)%nat -> modulus2 (cnth (f_amplitude s) i) <= B * B).
  { induction Hl as [|s s' d steps time collect Hl IH Ht E].
    - rewrite F5. split; [now rewrite map_length|]. intros i Hi. unfold cnth.
      rewrite (nth_indep _ (0, 0) (creal 0)) by (rewrite map_length; lia). rewrite map_nth.
      assert (Hx : - B <= nth i draw 0 <= B) by (rewrite Forall_forall in Hdraw; apply Hdraw, nth_In; lia).
      unfold modulus2, creal. cbn [fst snd]. nra.
    - destruct IH as [I1 I2]. destruct (lives_keeps _ _ _ Hl) as (K1 & K2 & K3). destruct d as [rows times].
      exact (proj1 (Hsim s steps time collect s' rows times K1 K2 K3 I1 I2 Ht E)). }
  destruct Hinv as [V1 V2]. split; [exact V2|].
  intros steps time collect s' rows times row x Ht E. destruct (lives_keeps _ _ _ Hl) as (K1 & K2 & K3).
  exact (proj2 (Hsim s steps time collect s' rows times K1 K2 K3 V1 V2 Ht E) row x).
Qed.
Print Assumptions C175_bounded.

Example C175_case : keeps_discs case_odeint /\ Forall (fun x => - 3 <= x <= 3) [0; 1 / 2; 1 / 4] /\
  (forall i, (i < 3)%nat -> - 3 <= of_osc (Each [1; 2; 3]) i <= 3).
Proof.
  split; [exact case_discs|]. split; [repeat constructor; lra|].
  intros [|[|[|i]]] Hi; cbn [of_osc nth]; lra || lia.
Qed.

(** * C176: an oscillator without coupling rotates on its circle *)

(** With its frequency, but for 9/10 of the time only. *)
Theorem C176_rotation odeint n f r t p draw s0 i steps time s' rows times :
  exact_rotation odeint -> fsync_create n f r 0 t p draw = Ok s0 -> (i < n)%nat -> length draw = n ->
  of_osc r i = nth i draw 0 -> (0 < time)%Q ->
  fsync_simulate odeint steps time true s0 = Ok (s', (rows, times)) ->
  forall j, (j <= steps)%nat -> exists row,
    nth_error rows j = Some (Reals row) /\
    nth i row 0 = of_osc r i * cos (of_osc f i * (9 / 10 * (INR j * (Q2R time / INR steps)))).
Proof.
  intros Hx Hc Hi Hd Hri Ht E.
  pose proof (create_inv _ _ _ _ _ _ _ _ Hc) as (net & Hn & _ & _ & F1 & F2 & F3 & F5 & F6 & F4).
  destruct (sim_inv _ _ _ _ _ _ _ _ Ht E) as (Hs & ss & L & -> & Hrows & _ & Hst). cbn zeta in *.
  set (step := (time / inject_Z (Z.of_nat steps))%Q) in *.
  assert (Hstep : (0 < step)%Q) by (apply step_pos; auto).
  set (w := of_osc f i) in *. set (rho := of_osc r i) in *.
  assert (Hj : forall j, (j <= steps)%nat -> let sj := nth j (s0 :: ss) s0 in
    f_net sj = f_net s0 /\ f_properties sj = f_properties s0 /\ f_coupling sj = f_coupling s0 /\
    cnth (f_amplitude sj) i = rot (w * (9 / 10 * (INR j * Q2R step))) (rho, 0)).
  { induction j as [|j IH]; intro Hj; cbn zeta.
    - cbn [nth]. split; [auto|]. split; [auto|]. split; [auto|]. rewrite F5. unfold cnth.
      rewrite (nth_indep _ (0, 0) (creal 0)) by (rewrite map_length; lia). rewrite map_nth, <- Hri. unfold creal, rot. cbn [fst snd INR].
      replace (w * (9 / 10 * (0 * Q2R step))) with 0 by ring. rewrite cos_0, sin_0. apply f_equal2; ring.
    - destruct (IH ltac:(lia)) as (I1 & I2 & I3 & I4). clear IH. destruct (Hst j) as (zs & Ez & En); [lia|].
      rewrite En. cbn [with_amplitude f_net f_properties f_coupling f_amplitude]. split; [auto|]. split; [auto|]. split; [auto|].
      set (sj := nth j (s0 :: ss) s0) in *. apply calculate_ok in Ez. rewrite I1, F1, F2 in Ez. destruct Ez as [_ Sz].
      specialize (Sz i Hi). destruct (step_times (step + inject_Z (Z.of_nat j) * step) step Hstep) as (t0 & ts & Et & before & Eb).
      rewrite Et in Sz. rewrite (Hx _ w) in Sz.
      + rewrite Eb, map_app in Sz. cbn [map] in Sz. rewrite (proj2 (last_of_ok _ _) (ex_intro _ _ eq_refl)) in Sz.
        apply Ok_inj in Sz. rewrite <- Sz, I4. unfold rot. cbn [fst snd].
        set (a := w * (9 / 10 * (INR j * Q2R step))). set (b := w * (t0 + 9 / 10 * Q2R step - t0)).
        replace (w * (9 / 10 * (INR (S j) * Q2R step))) with (b + a) by (unfold a, b; rewrite S_INR; ring).
        rewrite cos_plus, sin_plus. apply f_equal2; ring.
      + intros z tz Hz. rewrite field_components. cbn zeta. rewrite I2, (F4 i Hi), I3, F3. cbn [fst snd].
        rewrite Hz, I4, rot_modulus. unfold modulus2. cbn [fst snd]. fold w rho. unfold Rdiv. apply f_equal2; ring. }
  intros j Hjs. exists (map fst (f_amplitude (nth j (s0 :: ss) s0))). split.
  - rewrite Hrows. destruct j as [|j].
    + cbn [nth_error nth]. unfold first_row. now rewrite F6.
    + cbn [nth_error nth]. rewrite nth_error_map. rewrite (nth_error_nth' ss s0) by lia. reflexivity.
  - destruct (Hj j Hjs) as (_ & _ & _ & I4). 
    replace (nth i (map fst (f_amplitude (nth j (s0 :: ss) s0))) 0) with (fst (cnth (f_amplitude (nth j (s0 :: ss) s0)) i))
      by (unfold cnth; symmetry; apply (map_nth fst _ (0, 0))).
    rewrite I4. unfold rot. cbn [fst snd].
    replace (Q2R step) with (Q2R time / INR steps).
    + ring.
    + unfold step. rewrite Q2R_div.
      * f_equal. rewrite INR_IZR_INZ. unfold Q2R. cbn [inject_Z Qnum Qden]. field.
      * intro Hc0. unfold Qeq in Hc0. cbn in Hc0. lia.
Qed.
Print Assumptions C176_rotation.

(** After the time 1 an oscillator of the frequency pi should be opposite. *)
Theorem C176_time_refuted :
  exists n f r t p draw s0, fsync_create n f r 0 t p draw = Ok s0 /\
  forall odeint s' rows times, exact_rotation odeint ->
    fsync_simulate odeint 1 1 true s0 = Ok (s', (rows, times)) ->
    of_osc f 0 = PI /\ nth 0 draw 0 = 1 /\
    exists row, nth_error rows 1 = Some (Reals row) /\ (nth 1 times 0 == 1)%Q /\ nth 0 row 0 <> cos PI.
Proof.
  exists 1%nat, (Single PI), (Single 1), CNone, RMatrix, [1]. eexists. split; [reflexivity|].
  match goal with |- forall odeint s' rows times, _ -> fsync_simulate _ _ _ _ ?s = _ -> _ => set (s0 := s) end.
  assert (Hc : fsync_create 1 (Single PI) (Single 1) 0 CNone RMatrix [1] = Ok s0) by reflexivity.
  intros odeint s' rows times Hx E. split; [reflexivity|]. split; [reflexivity|].
  destruct (C176_rotation odeint 1 (Single PI) (Single 1) CNone RMatrix [1] s0 0 1 1 s' rows times Hx Hc ltac:(lia) eq_refl eq_refl ltac:(reflexivity) E 1%nat ltac:(lia))
    as (row & Hrow & Hv).
  exists row. split; [exact Hrow|]. split.
  - destruct (sim_inv odeint 1 1 true s0 s' rows times ltac:(reflexivity) E) as (_ & ss & _ & _ & _ & Ht & _). rewrite Ht. reflexivity.
  - rewrite Hv. cbn [of_osc]. rewrite cos_PI. intro Hcos.
    replace (PI * (9 / 10 * (INR 1 * (Q2R 1 / INR 1)))) with (9 / 10 * PI) in Hcos by (unfold Q2R; cbn; field).
    assert (Hlt : cos PI < cos (9 / 10 * PI)) by (apply cos_decreasing_1; assert (H := PI_RGT_0); lra).
    rewrite cos_PI in Hlt. lra.
Qed.
Print Assumptions C176_time_refuted.

Example C176_case : exact_rotation case_odeint /\
  exists s0 s' d, fsync_create 1 (Single PI) (Single 1) 0 CNone RMatrix [1] = Ok s0 /\ fsync_simulate case_odeint 1 1 true s0 = Ok (s', d).
Proof.
  split; [exact case_rotation|]. eexists.
  destruct (simulate_total case_odeint 1 1 true (mkFsync (mkNet 1 CNone (create_structure CNone RMatrix 1 0) 0 0) [(1 * 1 * ((1 * 1) * 1), 1 * PI)] (1 * 0) (map creal [1]) true) case_total) as (s' & d & E);
    [reflexivity | lia|].
  exists s', d. split; [|exact E]. cbn. f_equal.
Qed.

(** * C177: the recorded dynamic *)

(** The first simulation of a new network: one row for each step and one for the
    start, as many numbers as oscillators, at the times k * time / steps. *)
Theorem C177_rows odeint n f r K t p draw s0 steps time s' rows times :
  fsync_create n f r K t p draw = Ok s0 -> length draw = n -> (0 < time)%Q ->
  fsync_simulate odeint steps time true s0 = Ok (s', (rows, times)) ->
  length rows = S steps /\ length times = S steps /\
  nth_error rows 0 = Some (Reals draw) /\
  nth_error rows steps = Some (Reals (map fst (f_amplitude s'))) /\
  (forall j, (j <= steps)%nat -> exists row, nth_error rows j = Some (Reals row) /\ length row = n) /\
  (forall j, (j <= steps)%nat -> (nth j times 0 == inject_Z (Z.of_nat j) * (time / inject_Z (Z.of_nat steps)))%Q).
Proof.
  intros Hc Hd Ht E. pose proof (create_inv _ _ _ _ _ _ _ _ Hc) as (net & Hn & _ & _ & F1 & F2 & F3 & F5 & F6 & F4).
  destruct (sim_inv _ _ _ _ _ _ _ _ Ht E) as (Hs & ss & L & -> & Hrows & Htimes & Hst). cbn zeta in *.
  assert (Hdraw : map fst (f_amplitude s0) = draw) by (rewrite F5, map_map; apply map_id).
  assert (Hnet : forall j, (j <= steps)%nat -> f_net (nth j (s0 :: ss) s0) = f_net s0).
  { induction j as [|j IH]; intro Hj; [reflexivity|]. destruct (Hst j) as (zs & _ & En); [lia|]. rewrite En. apply IH. lia. }
  assert (Hrow : forall j, (j <= steps)%nat -> nth_error rows j = Some (Reals (map fst (f_amplitude (nth j (s0 :: ss) s0))))).
  { intros [|j] Hj; rewrite Hrows; cbn [nth_error nth].
    - unfold first_row. now rewrite F6.
    - rewrite nth_error_map. rewrite (nth_error_nth' ss s0) by lia. reflexivity. }
  split; [rewrite Hrows; cbn [length]; rewrite map_length; lia|].
  split; [rewrite Htimes; cbn [length]; rewrite map_length, seq_length; lia|].
  split; [rewrite Hrow by lia; cbn [nth]; now rewrite Hdraw|].
  split; [rewrite Hrow by lia; now rewrite last_nth, L|]. split.
  - intros j Hj. eexists. split; [apply Hrow; exact Hj|]. rewrite map_length. destruct j as [|j].
    + cbn [nth]. now rewrite F5, map_length.
    + destruct (Hst j) as (zs & Ez & En); [lia|]. rewrite En. cbn [with_amplitude f_amplitude]. apply calculate_ok in Ez.
      rewrite Hnet in Ez by lia. rewrite F1, F2 in Ez. apply Ez.
  - intros [|j] Hj; rewrite Htimes; cbn [nth].
    + ring.
    + rewrite Kmeans_Proofs.nth_map_seq0 by lia. rewrite Nat2Z.inj_succ. unfold Z.succ. rewrite inject_Z_plus. ring.
Qed.
Print Assumptions C177_rows.

(** Without collecting only the last state is returned. *)
Theorem C177_last odeint steps time s s1 d s2 rows times :
  (0 < time)%Q -> fsync_simulate odeint steps time true s = Ok (s1, d) ->
  fsync_simulate odeint steps time false s = Ok (s2, (rows, times)) ->
  s2 = s1 /\ rows = [Reals (map fst (f_amplitude s1))] /\ times = [time].
Proof.
  intros Ht E1 E2. unfold fsync_simulate in E1, E2. destruct (steps =? 0)%nat; [discriminate|]. cbn zeta in E1, E2.
  destruct (fsync_steps _ _ _ _ _) as [ss|e]; cbn [bind] in E1, E2; [|discriminate].
  apply Ok_inj in E1. apply Ok_inj in E2. injection E1 as <- _. injection E2 as <- <- <-. auto.
Qed.
Print Assumptions C177_last.

(** A second simulation of the same network starts with a row of complex
    numbers. *)
Theorem C177_second_refuted :
  exists odeint n f r K t p draw s0 s1 d1 s2 rows times,
    total_c odeint /\ keeps_discs odeint /\ exact_rotation odeint /\
    fsync_create n f r K t p draw = Ok s0 /\ length draw = n /\ (1 <= n)%nat /\
    fsync_simulate odeint 1 1 true s0 = Ok (s1, d1) /\ fsync_simulate odeint 1 1 true s1 = Ok (s2, (rows, times)) /\
    exists zs, nth_error rows 0 = Some (Complexes zs) /\ length zs = n.
Proof.
  assert (Hc : exists s0, fsync_create 1 (Single 1) (Single 1) 1 CNone RMatrix [1 / 2] = Ok s0) by (eexists; reflexivity).
  destruct Hc as [s0' Hc].
  destruct (simulate_total case_odeint 1 1 true s0' case_total) as (s1 & d1 & E1); [reflexivity | lia|].
  destruct (simulate_total case_odeint 1 1 true s1 case_total) as (s2 & [rows times] & E2); [reflexivity | lia|].
  exists case_odeint, 1%nat, (Single 1), (Single 1), 1, CNone, RMatrix, [1 / 2], s0', s1, d1, s2, rows, times.
  split; [exact case_total|]. split; [exact case_discs|]. split; [exact case_rotation|]. split; [exact Hc|].
  split; [reflexivity|]. split; [lia|]. split; [exact E1|]. split; [exact E2|].
  destruct d1 as [rows1 times1].
  destruct (sim_inv case_odeint 1 1 true s0' s1 rows1 times1 ltac:(reflexivity) E1) as (_ & ss1 & L1 & -> & _ & _ & Hst1). cbn zeta in *.
  destruct (Hst1 0%nat ltac:(lia)) as (zs & Ez & En). cbn [nth] in Ez.
  destruct (sim_inv case_odeint 1 1 true (last ss1 s0') s2 rows times ltac:(reflexivity) E2) as (_ & ss2 & L2 & _ & Hrows & _).
  exists zs. rewrite Hrows. cbn [nth_error]. rewrite last_nth, L1, En. split; [reflexivity|].
  apply calculate_ok in Ez. destruct Ez as [Lz _]. rewrite Lz.
  apply create_inv in Hc. destruct Hc as (net & _ & _ & _ & F1 & F2 & _). now rewrite F1, F2.
Qed.
Print Assumptions C177_second_refuted.
