(** Pulse coupled neural network: specification and proofs *)
From Verif Require Import Base Kmeans_Model Kmeans_Proofs Topology_Model Topology_Proofs Pcnn_Model.

(** * Specification *)
(** number of neighbours of [i] that fire *)
Definition firing (net : network) (out : list nat) (i : nat) : Q :=
  inject_Z (Z.of_nat (length (filter (fun k => nth k out 0 =? 1) (get_neighbors net i)))).
Definition binary (out : list nat) : Prop := forall y, In y out -> y = 0 \/ y = 1.
(** state of a network of [n] oscillators *)
Definition shaped (n : nat) (s : pcnn_state) : Prop :=
  length (p_out s) = n /\ length (p_feed s) = n /\ length (p_link s) = n /\ length (p_thr s) = n /\ binary (p_out s).
(** an oscillator fires exactly if its activity exceeds its old threshold *)
Definition fires_rightly (p : pcnn_parameters) (n : nat) (s s' : pcnn_state) : Prop :=
  forall i, i < n -> nth i (p_out s') 0 = 1 <-> (nth i (p_thr s) 0 < nth i (p_feed s') 0 * (1 + B p * nth i (p_link s') 0))%Q.
Definition fed_rightly (p : pcnn_parameters) (net : network) (stimulus : list Q) (s s' : pcnn_state) : Prop :=
  forall i, i < n_osc net -> (nth i (p_feed s') 0 == AF p * nth i (p_feed s) 0 + nth i stimulus 0 + VF p * M p * firing net (p_out s) i)%Q.
Definition threshold_rightly (p : pcnn_parameters) (n : nat) (s s' : pcnn_state) : Prop :=
  forall i, i < n -> (nth i (p_thr s') 0 == AT p * nth i (p_thr s) 0 + VT p * (if (nth i (p_out s') 0%nat =? 1)%nat then 1 else 0))%Q.

(** * Proofs *)
Lemma binary_nth out k : binary out -> nth k out 0 = 0 \/ nth k out 0 = 1.
Proof.
  intros H. destruct (nth_in_or_default k out 0) as [Hi|E]; [apply H; exact Hi|auto].
Qed.

Lemma influence_firing net w out i : binary out -> (influence net w out i == w * firing net out i)%Q.
Proof.
  intros Hb. unfold influence, firing. generalize (get_neighbors net i) as l.
  assert (G : forall l acc, (fold_left (fun acc k => (acc + qn (nth k out 0%nat) * w)%Q) l acc == acc + w * inject_Z (Z.of_nat (length (filter (fun k => nth k out 0%nat =? 1)%nat l))))%Q).
  { induction l as [|k l IH]; intros acc; cbn [fold_left filter].
    - cbn [length]. change (inject_Z (Z.of_nat 0)) with 0%Q. ring.
    - rewrite IH. destruct (binary_nth out k Hb) as [E|E]; rewrite E; cbn [Nat.eqb length].
      + change (qn 0) with 0%Q. ring.
      + rewrite Nat2Z.inj_succ. unfold Z.succ. rewrite inject_Z_plus. change (qn 1) with 1%Q. change (inject_Z 1) with 1%Q. ring. }
  intros l. rewrite G. ring.
Qed.

Lemma fire_spec p f l t : fire p f l t = 1 <-> (t < f * (1 + B p * l))%Q.
Proof. unfold fire. destruct (Qltb _ _) eqn:E; [apply Qltb_true in E|apply Qltb_false in E]; split; intros H; auto; try discriminate. exfalso. apply (Qlt_not_le _ _ H E). Qed.
Lemma fire_binary p f l t : fire p f l t = 0 \/ fire p f l t = 1.
Proof. unfold fire. destruct (Qltb _ _); auto. Qed.
Lemma map_binary (f : nat -> nat) l : (forall i, f i = 0 \/ f i = 1) -> binary (map f l).
Proof. intros H y Hy. apply in_map_iff in Hy as (i & <- & _). apply H. Qed.

Section Net.
Variables (p : pcnn_parameters) (net : network) (stimulus : list Q).
Notation n := (n_osc net).

Lemma fast_loop_spec feeding threshold : forall fuel previous linking outputs, binary previous -> length previous = n ->
  fast_loop fuel p net feeding threshold previous = Ok (linking, outputs) ->
  binary outputs /\ length outputs = n /\ length linking = n /\
  (forall i, i < n -> (nth i linking 0 == VL p * W p * firing net outputs i)%Q) /\
  (forall i, i < n -> nth i outputs 0 = 1 <-> (nth i threshold 0 < nth i feeding 0 * (1 + B p * nth i linking 0))%Q).
Proof.
  induction fuel as [|fuel IH]; intros previous linking outputs Hb L E; [discriminate|]. cbn [fast_loop] in E.
  unfold fast_pass in E. set (lk := map (fun i => (influence net (W p) previous i * VL p)%Q) (seq 0 n)) in *.
  set (o := map (fun i => fire p (nth i feeding 0%Q) (nth i lk 0%Q) (nth i threshold 0%Q)) (seq 0 n)) in *.
  assert (Bo : binary o) by (apply map_binary; intros; apply fire_binary).
  assert (Lo : length o = n) by (unfold o; now rewrite map_length, seq_length).
  destruct (existsb _ _) eqn:Ex; [apply (IH o linking outputs Bo Lo E)|].
  apply Ok_inj in E. injection E as <- <-. split; auto. split; auto. split; [unfold lk; now rewrite map_length, seq_length|].
  assert (Eo : o = previous).
  { apply (nth_ext _ _ 0 0); [congruence|]. intros i Hi. rewrite Lo in Hi.
    destruct (Nat.eq_dec (nth i o 0) (nth i previous 0)) as [e|e]; auto. exfalso.
    assert (X : existsb (fun i => negb (nth i o 0 =? nth i previous 0)) (seq 0 n) = true).
    { apply existsb_exists. exists i. split; [apply in_seq; lia|]. apply negb_true_iff, Nat.eqb_neq. exact e. }
    congruence. }
  split.
  - intros i Hi. rewrite Eo. unfold lk. rewrite nth_map_seq0 by exact Hi. rewrite influence_firing by exact Hb. ring.
  - intros i Hi. unfold o. rewrite nth_map_seq0 by exact Hi. apply fire_spec.
Qed.

Theorem calculate_spec fuel s s' : shaped n s -> calculate_states fuel p net stimulus s = Ok s' ->
  shaped n s' /\ fed_rightly p net stimulus s s' /\ fires_rightly p n s s' /\ threshold_rightly p n s s' /\
  (forall i, i < n -> (nth i (p_link s') 0 ==
     if FAST_LINKING p then VL p * W p * firing net (p_out s') i else AL p * nth i (p_link s) 0 + VL p * W p * firing net (p_out s) i)%Q).
Proof.
  intros (L1 & L2 & L3 & L4 & Hb) E. unfold calculate_states in E.
  set (feeding := map _ (seq 0 n)) in E. set (linking := map (fun i => (AL p * _ + _)%Q) (seq 0 n)) in E. set (outputs := map (fun i => fire p _ _ _) (seq 0 n)) in E.
  destruct (if FAST_LINKING p then _ else _) as [[lk o]|ex] eqn:Er; cbn [bind] in E; [|discriminate]. apply Ok_inj in E. subst s'.
  assert (Bo : binary outputs) by (apply map_binary; intros; apply fire_binary).
  assert (Lo : length outputs = n) by (unfold outputs; now rewrite map_length, seq_length).
  assert (H : binary o /\ length o = n /\ length lk = n /\
     (forall i, i < n -> (nth i lk 0 == if FAST_LINKING p then VL p * W p * firing net o i else AL p * nth i (p_link s) 0 + VL p * W p * firing net (p_out s) i)%Q) /\
     (forall i, i < n -> nth i o 0 = 1 <-> (nth i (p_thr s) 0 < nth i feeding 0 * (1 + B p * nth i lk 0))%Q)).
  { destruct (FAST_LINKING p).
    - apply (fast_loop_spec feeding (p_thr s) fuel outputs lk o Bo Lo Er).
    - apply Ok_inj in Er. injection Er as <- <-. split; auto. split; auto. split; [unfold linking; now rewrite map_length, seq_length|]. split.
      + intros i Hi. unfold linking. rewrite nth_map_seq0 by exact Hi. rewrite influence_firing by exact Hb. ring.
      + intros i Hi. unfold outputs. rewrite nth_map_seq0 by exact Hi. apply fire_spec. }
  destruct H as (H1 & H2 & H3 & H4 & H5). unfold shaped, fed_rightly, fires_rightly, threshold_rightly. cbn [p_out p_feed p_link p_thr].
  split; [|split; [|split; [|split]]]; auto.
  - unfold feeding. rewrite !map_length, !seq_length. auto.
  - intros i Hi. unfold feeding. rewrite nth_map_seq0 by exact Hi. rewrite influence_firing by exact Hb. ring.
  - intros i Hi. rewrite nth_map_seq0 by exact Hi. destruct (binary_nth o i H1) as [E|E]; rewrite E; reflexivity.
Qed.

Lemma calculate_plain fuel s : FAST_LINKING p = false -> exists s', calculate_states fuel p net stimulus s = Ok s'.
Proof. intros E. unfold calculate_states. rewrite E. cbn [bind]. eauto. Qed.

Lemma shaped_create draws : length draws = n -> shaped n (pcnn_create n draws).
Proof.
  intros L. unfold shaped, pcnn_create. cbn [p_out p_feed p_link p_thr]. rewrite !repeat_length. repeat split; auto.
  intros y Hy. apply repeat_spec in Hy. auto.
Qed.

(** * Fast linking from rest *)
Definition below (a b : list nat) : Prop := forall i, nth i a 0 = 1 -> nth i b 0 = 1.

Lemma firing_le a b i : below a b -> (firing net a i <= firing net b i)%Q.
Proof.
  intros H. unfold firing. rewrite <- Zle_Qle. apply inj_le. induction (get_neighbors net i) as [|k l IH]; cbn [filter]; auto.
  destruct (Nat.eqb_spec (nth k a 0) 1) as [e|e].
  - rewrite (H k e). cbn. lia.
  - destruct (nth k b 0 =? 1); cbn [length]; lia.
Qed.

Definition ones (l : list nat) : nat := length (filter (Nat.eqb 1) l).
Lemma ones_le_length l : ones l <= length l.
Proof. unfold ones. induction l as [|x l IH]; cbn [filter]; auto. destruct (1 =? x); cbn [length]; lia. Qed.
Lemma ones_below : forall a b, length a = length b -> binary a -> binary b -> (forall i, nth i a 0 = 1 -> nth i b 0 = 1) -> ones a <= ones b /\ (ones a = ones b -> a = b).
Proof.
  induction a as [|x a IH]; intros [|y b] L Ba Bb H; try discriminate; [split; auto|].
  destruct (IH b) as [I1 I2]; [auto|intros v Hv; apply Ba; now right|intros v Hv; apply Bb; now right|intros i Hi; apply (H (S i)); exact Hi|].
  pose proof (H 0) as H0. cbn [nth] in H0. unfold ones in *. cbn [filter].
  set (fa := filter (Nat.eqb 1) a) in *. set (fb := filter (Nat.eqb 1) b) in *.
  destruct (Ba x (or_introl eq_refl)) as [-> | ->], (Bb y (or_introl eq_refl)) as [-> | ->]; cbn [Nat.eqb length]; try (specialize (H0 eq_refl); discriminate);
    (split; [lia|intros E; first [lia|f_equal; apply I2; lia]]).
Qed.

Hypothesis HB : (0 <= VL p * W p * B p)%Q.

Lemma fire_mono f t i a b la lb : (0 <= f)%Q -> below a b -> (la == VL p * W p * firing net a i)%Q -> (lb == VL p * W p * firing net b i)%Q ->
  fire p f la t = 1 -> fire p f lb t = 1.
Proof.
  intros Hf Hab Ea Eb H. apply fire_spec in H. apply fire_spec. eapply Qlt_le_trans; [exact H|].
  assert (G : (B p * la <= B p * lb)%Q).
  { rewrite Ea, Eb. pose proof (firing_le a b i Hab). setoid_replace (B p * (VL p * W p * firing net a i))%Q with (firing net a i * (VL p * W p * B p))%Q by ring.
    setoid_replace (B p * (VL p * W p * firing net b i))%Q with (firing net b i * (VL p * W p * B p))%Q by ring. apply Qmult_le_compat_r; auto. }
  rewrite !(Qmult_comm f). apply Qmult_le_compat_r; auto. apply Qplus_le_compat; auto. apply Qle_refl.
Qed.

Lemma fast_loop_ends feeding threshold : (forall i, i < n -> (0 <= nth i feeding 0)%Q) -> forall fuel previous,
  binary previous -> length previous = n -> below previous (snd (fast_pass p net feeding threshold previous)) -> n < ones previous + fuel ->
  exists r, fast_loop fuel p net feeding threshold previous = Ok r.
Proof.
  intros Hf. induction fuel as [|fuel IH]; intros previous Hb L Hbel Hm.
  - pose proof (ones_le_length previous). lia.
  - cbn [fast_loop]. unfold fast_pass in *. cbn [snd] in Hbel. set (lk := map (fun i => (influence net (W p) previous i * VL p)%Q) (seq 0 n)) in *.
    set (o := map (fun i => fire p (nth i feeding 0%Q) (nth i lk 0%Q) (nth i threshold 0%Q)) (seq 0 n)) in *.
    assert (Bo : binary o) by (apply map_binary; intros; apply fire_binary).
    assert (Lo : length o = n) by (unfold o; now rewrite map_length, seq_length).
    destruct (existsb _ _) eqn:Ex; [|eauto]. apply IH; auto.
    + intros i Hi. cbn [snd]. destruct (Nat.lt_ge_cases i n) as [Hn|Hn]; [|rewrite nth_overflow in Hi by lia; discriminate].
      rewrite nth_map_seq0 by exact Hn. unfold o in Hi. rewrite nth_map_seq0 in Hi by exact Hn. revert Hi.
      apply (fire_mono _ _ i previous o); auto.
      * unfold lk. rewrite nth_map_seq0 by exact Hn. rewrite influence_firing by exact Hb. ring.
      * rewrite nth_map_seq0 by exact Hn. rewrite influence_firing by exact Bo. ring.
    + destruct (ones_below previous o) as [O1 O2]; auto; [congruence|].
      assert (ones previous <> ones o); [|lia]. intros Eo. apply O2 in Eo. apply existsb_exists in Ex as (i & _ & Ex). rewrite Eo, Nat.eqb_refl in Ex. discriminate.
Qed.
End Net.

(** the first step of a new network ends when stimuli and couplings are not negative *)
Theorem first_step_ends p net stimulus draws : (0 <= VL p * W p * B p)%Q -> (forall x, In x stimulus -> (0 <= x)%Q) -> length draws = n_osc net ->
  exists s', calculate_states (S (n_osc net)) p net stimulus (pcnn_create (n_osc net) draws) = Ok s'.
Proof.
  intros HB Hs Ld. destruct (FAST_LINKING p) eqn:Ef; [|apply calculate_plain; auto].
  destruct (shaped_create net draws Ld) as (_ & _ & _ & _ & Hb). set (s := pcnn_create (n_osc net) draws) in *. unfold calculate_states. rewrite Ef.
  set (feeding := map (fun i => (AF p * nth i (p_feed s) 0 + _ + _)%Q) (seq 0 (n_osc net))). set (linking := map (fun i => (AL p * _ + _)%Q) (seq 0 (n_osc net))).
  set (outputs := map (fun i => fire p (nth i feeding 0%Q) _ _) (seq 0 (n_osc net))).
  assert (Bo : binary outputs) by (apply map_binary; intros; apply fire_binary).
  assert (Lo : length outputs = n_osc net) by (unfold outputs; now rewrite map_length, seq_length).
  assert (F0 : forall i, (firing net (p_out s) i == 0)%Q).
  { intros i. unfold firing, s, pcnn_create. cbn [p_out]. assert (filter (fun k => nth k (repeat 0 (n_osc net)) 0 =? 1) (get_neighbors net i) = []) as ->; [|reflexivity].
    induction (get_neighbors net i) as [|k l IH]; cbn [filter]; auto. now rewrite nth_repeat. }
  assert (Hf : forall i, i < n_osc net -> (0 <= nth i feeding 0)%Q).
  { intros i Hi. unfold feeding. rewrite nth_map_seq0 by exact Hi. rewrite influence_firing by exact Hb. rewrite F0. unfold s, pcnn_create. cbn [p_feed]. rewrite nth_repeat.
    setoid_replace (AF p * 0 + nth i stimulus 0 + M p * 0 * VF p)%Q with (nth i stimulus 0%Q) by ring.
    destruct (nth_in_or_default i stimulus 0%Q) as [Hin|E]; [auto|rewrite E; apply Qle_refl]. }
  destruct (fast_loop_ends p net HB feeding (p_thr s) Hf (S (n_osc net)) outputs Bo Lo) as [[lk o] E]; [|lia|rewrite E; cbn [bind]; eauto].
  intros i Hi. unfold fast_pass. cbn [snd]. destruct (Nat.lt_ge_cases i (n_osc net)) as [Hn|Hn]; [|rewrite nth_overflow in Hi by lia; discriminate].
  rewrite nth_map_seq0 by exact Hn. unfold outputs in Hi. rewrite nth_map_seq0 in Hi by exact Hn. revert Hi.
  apply (fire_mono p net HB _ _ i (p_out s) outputs); auto.
  - intros k Hk. unfold s, pcnn_create in Hk. cbn [p_out] in Hk. rewrite nth_repeat in Hk. discriminate.
  - unfold linking. rewrite nth_map_seq0 by exact Hn. rewrite influence_firing by exact Hb. unfold s at 1, pcnn_create. cbn [p_link]. rewrite nth_repeat. ring.
  - rewrite nth_map_seq0 by exact Hn. rewrite influence_firing by exact Bo. ring.
Qed.

(** * Simulation *)
Section Simulation.
Variables (fuel : nat) (p : pcnn_parameters) (net : network) (stimulus : list Q).
Notation loop := (simulate_loop fuel p net stimulus).
Notation step := (calculate_states fuel p net stimulus).

(** [d] are the outputs of the states that follow [s] one by one, ending in [s'] *)
Inductive follows : pcnn_state -> list (list nat) -> pcnn_state -> Prop :=
| follows_nil s : follows s [] s
| follows_step s s1 d s' : step s = Ok s1 -> follows s1 d s' -> follows s (p_out s1 :: d) s'.

Lemma loop_follows : forall k s s' d, loop k s = Ok (s', d) <-> follows s d s' /\ length d = k.
Proof.
  induction k as [|k IH]; intros s s' d; cbn [simulate_loop].
  - split; [intros E; apply Ok_inj in E; injection E as <- <-; split; [constructor|reflexivity]|].
    intros [F L]. destruct F; [reflexivity|discriminate].
  - split.
    + destruct (step s) as [s1|] eqn:E1; cbn [bind]; [|discriminate]. destruct (loop k s1) as [[s2 d2]|] eqn:E2; cbn [bind]; [|discriminate].
      intros E. apply Ok_inj in E. injection E as <- <-. apply IH in E2 as [F L]. split; [econstructor; eauto|cbn [length snd]; auto].
    + intros [F L]. destruct F as [|s s1 d s' E1 F]; [discriminate|]. rewrite E1. cbn [bind].
      rewrite (proj2 (IH s1 s' d) (conj F (eq_add_S _ _ L))). reflexivity.
Qed.

Lemma loop_app : forall j k s s1 d1, loop j s = Ok (s1, d1) ->
  loop (j + k) s = (do r <- loop k s1; Ok (fst r, d1 ++ snd r)).
Proof.
  induction j as [|j IH]; intros k s s1 d1 E; cbn [simulate_loop Nat.add] in *.
  - apply Ok_inj in E. injection E as <- <-. destruct (loop k s) as [[s2 d2]|]; reflexivity.
  - destruct (step s) as [s2|]; cbn [bind] in *; [|discriminate]. destruct (loop j s2) as [[s3 d3]|] eqn:E3; cbn [bind] in *; [|discriminate].
    apply Ok_inj in E. injection E as <- <-. rewrite (IH k s2 s3 d3 E3). cbn [fst snd]. destruct (loop k s3) as [[s4 d4]|]; reflexivity.
Qed.

Lemma follows_shaped s d s' : follows s d s' -> shaped (n_osc net) s -> shaped (n_osc net) s' /\ forall o, In o d -> length o = n_osc net /\ binary o.
Proof.
  induction 1 as [|s s1 d s' E F IH]; intros H; [split; auto; intros o []|].
  destruct (calculate_spec p net stimulus fuel s s1 H E) as [H1 _]. destruct (IH H1) as [I1 I2]. split; auto. intros o [<-|Ho]; [split; apply H1|auto].
Qed.

(** without stimulus a network at rest stays at rest *)
Definition resting (s : pcnn_state) : Prop :=
  shaped (n_osc net) s /\ forall i, i < n_osc net -> nth i (p_out s) 0 = 0 /\ (nth i (p_feed s) 0 == 0)%Q /\ (0 <= nth i (p_thr s) 0)%Q.

Lemma resting_step s s' : (0 <= AT p)%Q -> (forall i, (nth i stimulus 0 == 0)%Q) -> resting s -> step s = Ok s' -> resting s'.
Proof.
  intros Ha Hz [Hs Hr] E. destruct (calculate_spec p net stimulus fuel s s' Hs E) as (Hs' & Hf & Hy & Ht & _). split; auto. intros i Hi.
  assert (F0 : (firing net (p_out s) i == 0)%Q).
  { unfold firing. assert (filter (fun k => nth k (p_out s) 0 =? 1) (get_neighbors net i) = []) as ->; [|reflexivity].
    induction (get_neighbors net i) as [|k l IH]; cbn [filter]; auto. destruct (Nat.lt_ge_cases k (n_osc net)) as [Hk|Hk].
    - destruct (Hr k Hk) as [-> _]. exact IH.
    - rewrite nth_overflow; [exact IH|]. destruct Hs as [-> _]. exact Hk. }
  destruct (Hr i Hi) as (R1 & R2 & R3).
  assert (Fe : (nth i (p_feed s') 0 == 0)%Q) by (rewrite (Hf i Hi), F0, R2, Hz; ring).
  assert (Y : nth i (p_out s') 0 = 0).
  { destruct (binary_nth (p_out s') i) as [e|e]; [apply Hs'|exact e|]. apply (Hy i Hi) in e. rewrite Fe in e. exfalso.
    setoid_replace (0 * (1 + B p * nth i (p_link s') 0))%Q with 0%Q in e by ring. apply (Qlt_not_le _ _ e R3). }
  split; auto. split; auto. rewrite (Ht i Hi), Y. cbn [Nat.eqb]. setoid_replace (AT p * nth i (p_thr s) 0 + VT p * 0)%Q with (AT p * nth i (p_thr s) 0)%Q by ring.
  apply Qmult_le_0_compat; auto.
Qed.

Lemma resting_out s : resting s -> p_out s = repeat 0 (n_osc net).
Proof.
  intros [Hs Hr]. apply (nth_ext _ _ 0 0); [rewrite repeat_length; apply Hs|]. intros i Hi. rewrite nth_repeat. apply Hr. destruct Hs as [<- _]. exact Hi.
Qed.

Lemma resting_follows s d s' : follows s d s' -> (0 <= AT p)%Q -> (forall i, (nth i stimulus 0 == 0)%Q) -> resting s -> forall o, In o d -> o = repeat 0 (n_osc net).
Proof.
  induction 1 as [|s s1 d s' E F IH]; intros Ha Hz H o Ho; [destruct Ho|]. pose proof (resting_step s s1 Ha Hz H E) as H1.
  destruct Ho as [<-|Ho]; [apply resting_out; auto|auto].
Qed.
End Simulation.

(** * A loop of fast linking that never ends *)
Lemma fast_loop_cycle p net feeding threshold a b la lb :
  fast_pass p net feeding threshold a = (lb, b) -> fast_pass p net feeding threshold b = (la, a) ->
  existsb (fun i => negb (nth i b 0 =? nth i a 0)) (seq 0 (n_osc net)) = true ->
  existsb (fun i => negb (nth i a 0 =? nth i b 0)) (seq 0 (n_osc net)) = true ->
  forall fuel, fast_loop fuel p net feeding threshold a = Raise OutOfFuel /\ fast_loop fuel p net feeding threshold b = Raise OutOfFuel.
Proof.
  intros Ea Eb Hab Hba. induction fuel as [|fuel [I1 I2]]; [split; reflexivity|]. cbn [fast_loop]. rewrite Ea, Eb, Hab, Hba. auto.
Qed.
