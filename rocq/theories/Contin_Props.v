(** C232, C233: simulations that are continued by a second call. *)
From Verif Require Import Base Topology_Model Gcolor_Model Gcolor_Proofs.
From Verif Require Pcnn_Model Cnn_Model Kuramoto_Model Odesync_Model Hhn_Model Som_Model.
From Coq Require Import Lia Lqa Reals Qreals.
Open Scope nat_scope.

(** * C232: two simulations in a row are one longer simulation *)

(** the second record continues the first one: it starts with the state in which the first one
    ended, together they are the record of one run *)
Definition continues {A : Type} (one first second : list A) : Prop :=
  exists l x t, first = l ++ [x] /\ second = x :: t /\ one = first ++ t.

Lemma steps_count step time steps : (0 < time)%Q -> 1 <= steps -> step = (time / inject_Z (Z.of_nat steps))%Q -> length (arange step (time + step) step) = steps.
Proof. intros H1 H2 H3. rewrite (arange_length step time steps H1 H2 H3), map_length, seq_length. reflexivity. Qed.

Section Pcnn.
Import Pcnn_Model.

Lemma pcnn_loop_app fuel p net stim : forall k1 k2 s,
  simulate_loop fuel p net stim (k1 + k2) s =
  (do r1 <- simulate_loop fuel p net stim k1 s; do r2 <- simulate_loop fuel p net stim k2 (fst r1); Ok (fst r2, snd r1 ++ snd r2)).
Proof.
  induction k1 as [|k1 IH]; intros k2 s; cbn [plus simulate_loop bind fst snd].
  - destruct (simulate_loop fuel p net stim k2 s) as [[s' d]|e]; reflexivity.
  - destruct (calculate_states fuel p net stim s) as [s1|e]; cbn [bind]; [|reflexivity]. rewrite IH.
    destruct (simulate_loop fuel p net stim k1 s1) as [[s2 d1]|e]; cbn [bind fst snd]; [|reflexivity].
    destruct (simulate_loop fuel p net stim k2 s2) as [[s3 d2]|e]; reflexivity.
Qed.

Lemma pcnn_loop_last fuel p net stim : forall k s s' d, simulate_loop fuel p net stim k s = Ok (s', d) -> exists l, p_out s :: d = l ++ [p_out s'].
Proof.
  induction k as [|k IH]; intros s s' d E; cbn [simulate_loop] in E.
  - injection E as <- <-. exists []. reflexivity.
  - destruct (calculate_states fuel p net stim s) as [s1|e]; cbn [bind] in E; [|discriminate].
    destruct (simulate_loop fuel p net stim k s1) as [[s2 d2]|e] eqn:E2; cbn [bind fst snd] in E; [|discriminate].
    injection E as <- <-. destruct (IH s1 s2 d2 E2) as (l & El). exists (p_out s :: l). rewrite El. reflexivity.
Qed.

(** pulse coupled network: m + 1 recorded states and then k + 1 are m + k + 1 in one run *)
Theorem C232_pcnn fuel p net stim m k s :
  (forall s1 d1 s2 d2, simulate fuel p net (S m) stim s = Ok (s1, d1) -> simulate fuel p net (S k) stim s1 = Ok (s2, d2) ->
    exists d, simulate fuel p net (S (m + k)) stim s = Ok (s2, d) /\ continues d d1 d2) /\
  (forall s2 d, simulate fuel p net (S (m + k)) stim s = Ok (s2, d) ->
    exists s1 d1 d2, simulate fuel p net (S m) stim s = Ok (s1, d1) /\ simulate fuel p net (S k) stim s1 = Ok (s2, d2) /\ continues d d1 d2).
Proof.
  unfold simulate. destruct (negb (length stim =? n_osc net)); [split; intros; discriminate|].
  cbn [Nat.sub]. rewrite !Nat.sub_0_r. rewrite pcnn_loop_app.
  destruct (simulate_loop fuel p net stim m s) as [[s1' d1']|e] eqn:E1; cbn [bind fst snd]; [|split; intros; discriminate].
  destruct (pcnn_loop_last _ _ _ _ _ _ _ _ E1) as (l & El).
  split.
  - intros s1 d1 s2 d2 H1 H2. injection H1 as <- <-. destruct (simulate_loop fuel p net stim k s1') as [[s2' d2']|e]; cbn [bind fst snd] in *; [|discriminate].
    injection H2 as <- <-. eexists. split; [reflexivity|]. exists l, (p_out s1'), d2'. auto.
  - intros s2 d H. destruct (simulate_loop fuel p net stim k s1') as [[s2' d2']|e] eqn:E2; cbn [bind fst snd] in *; [|discriminate].
    injection H as <- <-. exists s1', (p_out s :: d1'), (p_out s1' :: d2'). rewrite E2. cbn [bind fst snd]. split; [reflexivity|]. split; [reflexivity|].
    exists l, (p_out s1'), d2'. auto.
Qed.

(** a new network starts at rest *)
Theorem C232_pcnn_at_rest fuel p net stim draws steps s d :
  simulate fuel p net steps stim (pcnn_create (n_osc net) draws) = Ok (s, d) -> exists t, d = repeat 0 (n_osc net) :: t.
Proof.
  unfold simulate. destruct (negb (length stim =? n_osc net)); [discriminate|].
  destruct (simulate_loop fuel p net stim (steps - 1) (pcnn_create (n_osc net) draws)) as [[s' d']|e]; cbn [bind fst snd]; intro H; [|discriminate].
  injection H as <- <-. eexists. reflexivity.
Qed.
End Pcnn.
Print Assumptions C232_pcnn.
Print Assumptions C232_pcnn_at_rest.

Section Cnn.
Import Cnn_Model.
Variables (distance : point -> point -> Q) (expminus : Q -> Q).

Lemma cnn_loop_app m : forall k1 k2 o step,
  simulate_loop m o step (k1 + k2) =
  (do r1 <- simulate_loop m o step k1; do r2 <- simulate_loop m (last (fst r1) o) (step + k1) k2; Ok (fst r1 ++ fst r2, snd r1 ++ snd r2)).
Proof.
  induction k1 as [|k1 IH]; intros k2 o step; cbn [plus simulate_loop bind fst snd last].
  - rewrite Nat.add_0_r. destruct (simulate_loop m o step k2) as [[a b]|e]; reflexivity.
  - destruct (calculate_states m o) as [o1|e]; cbn [bind]; [|reflexivity]. rewrite IH.
    destruct (simulate_loop m o1 (S step) k1) as [[a1 b1]|e]; cbn [bind fst snd]; [|reflexivity].
    replace (S step + k1) with (step + S k1) by lia.
    assert (El : last (o1 :: a1) o = last a1 o1) by (destruct a1 as [|x t]; [reflexivity|]; cbn [last]; clear; revert x; induction t; intro; cbn; auto).
    rewrite El. destruct (simulate_loop m (last a1 o1) (step + S k1) k2) as [[a2 b2]|e]; reflexivity.
Qed.

Lemma cnn_loop_step m : forall k o s1 s2,
  (do r <- simulate_loop m o s1 k; Ok (fst r)) = (do r <- simulate_loop m o s2 k; Ok (fst r)).
Proof.
  induction k as [|k IH]; intros o s1 s2; cbn [simulate_loop bind]; [reflexivity|].
  destruct (calculate_states m o) as [o1|e]; cbn [bind]; [|reflexivity]. specialize (IH o1 (S s1) (S s2)).
  destruct (simulate_loop m o1 (S s1) k) as [[a1 b1]|e1]; destruct (simulate_loop m o1 (S s2) k) as [[a2 b2]|e2]; cbn [bind fst] in *; congruence.
Qed.

Lemma last_snoc {A} (l : list A) x : exists l', x :: l = l' ++ [last l x].
Proof.
  revert x. induction l as [|y t IH]; intro x; [exists []; reflexivity|]. destruct (IH y) as (l' & E). exists (x :: l'). rewrite E at 1.
  cbn [app]. f_equal. f_equal. f_equal. clear. revert y. induction t as [|z t IH]; intro y; [reflexivity|]. change (last (y :: z :: t) x) with (last (z :: t) x). change (last (z :: t) y) with (last (z :: t) y).
  destruct t as [|w t]; [reflexivity|]. change (last (z :: w :: t) x) with (last (w :: t) x). change (last (z :: w :: t) y) with (last (w :: t) y).
  clear. revert w. induction t as [|v t IH]; intro w; [reflexivity|]. apply (IH v).
Qed.

(** chaotic network with the same stimulus; the outputs left by the first run are the last ones
    it recorded *)
Theorem C232_cnn conn neighbors stim m k output d1 t1 d2 t2 :
  simulate distance expminus conn neighbors (S m) stim output = Ok (d1, t1) ->
  simulate distance expminus conn neighbors (S k) stim (last d1 []) = Ok (d2, t2) ->
  exists d, simulate distance expminus conn neighbors (S (m + k)) stim output = Ok (d, seq 0 (S (m + k))) /\ continues d d1 d2.
Proof.
  unfold simulate. destruct (create_weights distance expminus conn neighbors stim) as [w|e]; cbn [bind]; [|discriminate].
  cbn [Nat.sub]. rewrite !Nat.sub_0_r. rewrite cnn_loop_app.
  assert (Ht : forall k o s a b, simulate_loop w o s k = Ok (a, b) -> b = seq s k).
  { clear. induction k as [|k IH]; intros o s a b E; cbn [simulate_loop] in E; [injection E as <- <-; reflexivity|].
    destruct (calculate_states w o) as [o1|e]; cbn [bind] in E; [|discriminate].
    destruct (simulate_loop w o1 (S s) k) as [[a1 b1]|e] eqn:E1; cbn [bind fst snd] in E; [|discriminate]. injection E as <- <-. cbn [seq]. f_equal. apply (IH o1 (S s) a1 b1 E1). }
  destruct (simulate_loop w output 1 m) as [[a1 b1]|e] eqn:E1; cbn [bind fst snd]; [|discriminate]. intros H1 H2. injection H1 as <- <-.
  destruct (last_snoc a1 output) as (l' & El).
  assert (Hl : last (output :: a1) [] = last a1 output) by (rewrite El, last_last; reflexivity).
  rewrite Hl in H2. destruct (simulate_loop w (last a1 output) 1 k) as [[a2 b2]|e] eqn:E2; cbn [bind fst snd] in H2; [|discriminate]. injection H2 as <- <-.
  pose proof (cnn_loop_step w k (last a1 output) 1 (1 + m)) as Es. rewrite E2 in Es.
  destruct (simulate_loop w (last a1 output) (1 + m) k) as [[a3 b3]|e] eqn:E3; cbn [bind fst] in Es; [|discriminate]. injection Es as <-.
  cbn [bind fst snd]. rewrite (Ht _ _ _ _ _ E1), (Ht _ _ _ _ _ E3). eexists. split.
  - cbn [seq]. rewrite (seq_app m k 1). cbn [Nat.add]. reflexivity.
  - exists l', (last a1 output), a2. split; [exact El|]. split; reflexivity.
Qed.
End Cnn.
Print Assumptions C232_cnn.

Section Sync.
Import Kuramoto_Model Odesync_Model.
Local Open Scope nat_scope.
Variables (odeint : (R -> R -> R) -> R -> list R -> list R) (kuramoto : list R -> nat -> R -> R).

(** the solver FAST does not look at the times *)
Lemma fast_times fuel : forall ts1 ts2 step1 int1 step2 int2 phases, length ts1 = length ts2 ->
  static_phases odeint kuramoto fuel FAST step1 int1 ts1 phases = static_phases odeint kuramoto fuel FAST step2 int2 ts2 phases.
Proof.
  induction ts1 as [|x t IH]; intros [|y u] step1 int1 step2 int2 phases H; try discriminate; [reflexivity|].
  cbn [static_phases]. unfold solve_phases. destruct (calculate_phases fuel (kuramoto phases) phases (seq 0 (length phases))) as [ps|e]; cbn [bind]; [|reflexivity].
  rewrite (IH u step1 int1 step2 int2) by (cbn in H; lia). reflexivity.
Qed.

Lemma static_app fuel sol step int : forall ts1 ts2 phases,
  static_phases odeint kuramoto fuel sol step int (ts1 ++ ts2) phases =
  (do o1 <- static_phases odeint kuramoto fuel sol step int ts1 phases; do o2 <- static_phases odeint kuramoto fuel sol step int ts2 (last o1 phases); Ok (o1 ++ o2)).
Proof.
  induction ts1 as [|x t IH]; intros ts2 phases; cbn [app static_phases bind last].
  - destruct (static_phases odeint kuramoto fuel sol step int ts2 phases); reflexivity.
  - destruct (solve_phases odeint kuramoto fuel sol phases x step int) as [p|e]; cbn [bind]; [|reflexivity]. rewrite IH.
    destruct (static_phases odeint kuramoto fuel sol step int t p) as [o1|e]; cbn [bind]; [|reflexivity].
    assert (El : last (p :: o1) phases = last o1 p) by (destruct o1 as [|z w]; [reflexivity|]; cbn [last]; clear; revert z; induction w; intro; cbn; auto).
    rewrite El. destruct (static_phases odeint kuramoto fuel sol step int ts2 (last o1 p)); reflexivity.
Qed.

(** phase oscillators with the solver FAST: the numbers of steps add up, whatever the times *)
Theorem C232_sync fuel m k time1 time2 time phases d1 t1 d2 t2 : (0 < time1)%Q -> (0 < time2)%Q -> (0 < time)%Q -> 1 <= m -> 1 <= k ->
  simulate_phases odeint kuramoto fuel FAST true m time1 phases = Ok (d1, t1) ->
  simulate_phases odeint kuramoto fuel FAST true k time2 (last d1 phases) = Ok (d2, t2) ->
  exists d t, simulate_phases odeint kuramoto fuel FAST true (m + k) time phases = Ok (d, t) /\ continues d d1 d2.
Proof.
  intros H1 H2 H Hm Hk. unfold simulate_phases.
  destruct (Nat.eqb_spec m 0); [lia|]. destruct (Nat.eqb_spec k 0); [lia|]. destruct (Nat.eqb_spec (m + k) 0); [lia|].
  set (step1 := (time1 / inject_Z (Z.of_nat m))%Q). set (step2 := (time2 / inject_Z (Z.of_nat k))%Q). set (step := (time / inject_Z (Z.of_nat (m + k)))%Q).
  assert (L1 : length (arange step1 (time1 + step1) step1) = m) by (apply steps_count; auto).
  assert (L2 : length (arange step2 (time2 + step2) step2) = k) by (apply steps_count; auto).
  assert (L : length (arange step (time + step) step) = m + k) by (apply steps_count; auto; lia).
  set (ts1 := arange step1 (time1 + step1) step1) in *. set (ts2 := arange step2 (time2 + step2) step2) in *. set (ts := arange step (time + step) step) in *.
  destruct (static_phases odeint kuramoto fuel FAST step1 (step1 / 10) ts1 phases) as [o1|e] eqn:E1; cbn [bind]; [|discriminate].
  intros Ed1 Ed2. injection Ed1 as <- <-.
  destruct (last_snoc o1 phases) as (l' & El). assert (Hl : last (phases :: o1) phases = last o1 phases) by (rewrite El, last_last; reflexivity).
  rewrite Hl in Ed2. destruct (static_phases odeint kuramoto fuel FAST step2 (step2 / 10) ts2 (last o1 phases)) as [o2|e] eqn:E2; cbn [bind] in Ed2; [|discriminate].
  injection Ed2 as <- <-.
  rewrite (fast_times fuel ts (ts1 ++ ts2) step (step / 10) step (step / 10)) by (rewrite app_length; lia).
  rewrite static_app. rewrite (fast_times fuel ts1 ts1 step (step / 10) step1 (step1 / 10)) by auto. rewrite E1. cbn [bind].
  rewrite (fast_times fuel ts2 ts2 step (step / 10) step2 (step2 / 10)) by auto. rewrite E2. cbn [bind].
  eexists. eexists. split; [reflexivity|]. exists l', (last o1 phases), o2. split; [exact El|]. split; reflexivity.
Qed.
End Sync.
Print Assumptions C232_sync.

(** a new self-organised map has no winner and has captured nothing, and its weights are [0] *)
Theorem C232_new_map n : Som_Model.get_winner_number (Som_Model.som_create n) = 0 /\
  (forall i, nth i (Som_Model.s_award (Som_Model.som_create n)) 0 = 0) /\ (forall i, nth i (Som_Model.s_captured (Som_Model.som_create n)) [] = []) /\
  length (Som_Model.s_weights (Som_Model.som_create n)) = n /\ (forall w, In w (Som_Model.s_weights (Som_Model.som_create n)) -> w = [0%Q]).
Proof.
  unfold Som_Model.get_winner_number, Som_Model.som_create. cbn [Som_Model.s_award Som_Model.s_captured Som_Model.s_weights]. split; [|split; [intro i; rewrite nth_repeat; reflexivity|split; [intro i; rewrite nth_repeat; reflexivity|split; [apply repeat_length|intros w Hw; exact (repeat_spec n _ _ Hw)]]]].
  induction n as [|n IH]; [reflexivity|exact IH].
Qed.
Print Assumptions C232_new_map.

Definition case_net : network := match network_init 2 CAllToAll RMatrix None with Ok net => net | Raise _ => mkNet 0 CNone (CMatrix []) 0 0 end.
Example C232_case : exists s1 d1 s2 d2 s3 d,
  Pcnn_Model.simulate 5 (Pcnn_Model.default_parameters false) case_net 3 [1; 0]%Q (Pcnn_Model.pcnn_create 2 [1 # 2; 1 # 2]) = Ok (s1, d1) /\
  Pcnn_Model.simulate 5 (Pcnn_Model.default_parameters false) case_net 4 [1; 0]%Q s1 = Ok (s2, d2) /\
  Pcnn_Model.simulate 5 (Pcnn_Model.default_parameters false) case_net 6 [1; 0]%Q (Pcnn_Model.pcnn_create 2 [1 # 2; 1 # 2]) = Ok (s3, d) /\
  d1 = [[0; 0]; [1; 0]; [0; 1]] /\ continues d d1 d2.
Proof.
  eexists. eexists. eexists. eexists. eexists. eexists. split; [vm_compute; reflexivity|]. split; [vm_compute; reflexivity|]. split; [vm_compute; reflexivity|].
  split; [reflexivity|]. eexists [_; _], _, _. split; [reflexivity|]. split; reflexivity.
Qed.

(** * C233: what the network of Hodgkin-Huxley neurons records first *)
Section Hhn.
Import Hhn_Model.
Local Open Scope nat_scope.

(** the first recorded row of the peripheral neurons is their state, that of the central
    elements is [0, 0] whatever their state; a new network is at rest *)
Theorem C233_first_row odeint noise steps time net net' times pn cn :
  hhn_simulate odeint noise steps time RK4 net = Ok (net', (times, pn, cn)) ->
  (exists t, pn = potentials net :: t) /\ (exists t, cn = [0%R; 0%R] :: t) /\ (exists t, times = 0%Q :: t).
Proof.
  unfold hhn_simulate. destruct (steps =? 0); [discriminate|]. cbn zeta.
  destruct (hhn_steps odeint noise _ _ 0 _ net) as [nets|e]; cbn [bind]; intro H; [|discriminate]. injection H as <- <- <- <-. eauto 10.
Qed.

Theorem C233_at_rest odeint noise steps time n stimulus p draw net' times pn cn :
  hhn_simulate odeint noise steps time RK4 (hhn_create n stimulus p draw) = Ok (net', (times, pn, cn)) ->
  (exists t, pn = repeat 0%R n :: t) /\ (exists t, cn = central_potentials (hhn_create n stimulus p draw) :: t) /\
  forall pr, In pr (h_pn (hhn_create n stimulus p draw)) -> p_times pr = [] /\ p_weight3 pr = 0%Q /\ p_state pr = (0, 0, 0, 0)%R.
Proof.
  intro H. destruct (C233_first_row _ _ _ _ _ _ _ _ _ H) as ((t & ->) & (t' & ->) & _). split; [|split].
  - exists t. f_equal. unfold potentials, hhn_create. cbn [h_pn]. clear. induction n as [|n IH]; [reflexivity|]. cbn [repeat map]. rewrite IH. reflexivity.
  - exists t'. reflexivity.
  - intros pr Hp. apply repeat_spec in Hp. subst pr. auto.
Qed.

(** the peripheral neurons of a second run start where the first one ended *)
Theorem C233_peripherals_continue odeint1 odeint2 noise1 noise2 steps1 steps2 time1 time2 net net1 net2 times1 times2 pn1 pn2 cn1 cn2 :
  (0 < time1)%Q -> hhn_simulate odeint1 noise1 steps1 time1 RK4 net = Ok (net1, (times1, pn1, cn1)) ->
  hhn_simulate odeint2 noise2 steps2 time2 RK4 net1 = Ok (net2, (times2, pn2, cn2)) ->
  (exists l x t, pn1 = l ++ [x] /\ pn2 = x :: t) /\ exists l, cn1 = l ++ [central_potentials net1].
Proof.
  intros Ht H1 H2. destruct (C233_first_row _ _ _ _ _ _ _ _ _ H2) as ((t & ->) & _ & _).
  unfold hhn_simulate in H1. destruct (Nat.eqb_spec steps1 0) as [|Hs]; [discriminate|]. cbn zeta in H1.
  set (step := (time1 / inject_Z (Z.of_nat steps1))%Q) in H1.
  assert (L : length (arange step (time1 + step) step) = steps1) by (apply steps_count; auto; lia).
  destruct (hhn_steps odeint1 noise1 step (step / 10) 0 (arange step (time1 + step) step) net) as [nets|e] eqn:E; cbn [bind] in H1; [|discriminate].
  assert (Hn : length nets = steps1).
  { rewrite <- L. clear - E. generalize dependent nets. generalize 0 at 1 as k. generalize net. induction (arange step (time1 + step) step) as [|x l IH]; intros net0 k nets E; cbn [hhn_steps] in E.
    - injection E as <-. reflexivity.
    - destruct (calculate_states odeint1 (noise1 k) x step (step / 10) net0) as [nx|e]; cbn [bind] in E; [|discriminate].
      destruct (hhn_steps odeint1 noise1 step (step / 10) (S k) l nx) as [os|e] eqn:Eo; cbn [bind] in E; [|discriminate]. injection E as <-. cbn [length]. f_equal. apply (IH nx (S k) os Eo). }
  injection H1 as <- <- <- <-. destruct (exists_last (l := nets)) as (l & y & El); [intro E0; rewrite E0 in Hn; cbn in Hn; lia|]. rewrite El.
  rewrite last_last, !map_app. split.
  - exists (potentials net :: map potentials l), (potentials y), t. split; reflexivity.
  - exists ([0%R; 0%R] :: map central_potentials l). reflexivity.
Qed.

(** a solver after which the membrane potential is 1, -1, 1, ... in turn *)
Definition turned (s : quad) : quad := (if Rlt_dec 0 (membrane s) then -1 else 1, 0, 0, 0)%R.
Definition toggle (f : quad -> R -> res quad) (s : quad) (ts : list R) : list quad := [s; turned s].

Lemma toggle_step noise t step int net : calculate_states toggle noise t step int net =
  Ok (mkNetwork (h_params net) (h_stimulus net) noise (map (fun pn => update_peripheral (h_params net) t step pn (turned (p_state pn))) (h_pn net))
        (update_central t (h_cn1 net) (turned (c_state (h_cn1 net)))) (update_central t (h_cn2 net) (turned (c_state (h_cn2 net))))).
Proof.
  unfold calculate_states. cbn zeta.
  assert (E : forall times l, next_states toggle net times l = Ok (map (fun q => turned (snd q)) l)).
  { intros times l. induction l as [|[i s] l IH]; [reflexivity|]. cbn [next_states]. unfold last_row, toggle at 1. cbn [rev app bind]. rewrite IH. reflexivity. }
  rewrite !E. cbn [bind]. f_equal. f_equal. generalize 0 at 1 as k. induction (h_pn net) as [|pn l IH]; intro k; [reflexivity|]. cbn [length seq map combine fst snd]. f_equal. apply IH.
Qed.

Lemma turned_0 : turned (0, 0, 0, 0)%R = (1, 0, 0, 0)%R.
Proof. unfold turned, membrane. destruct (Rlt_dec 0 0) as [H|H]; [destruct (Rlt_irrefl _ H)|reflexivity]. Qed.
Lemma turned_1 : turned (1, 0, 0, 0)%R = (-1, 0, 0, 0)%R.
Proof. unfold turned, membrane. destruct (Rlt_dec 0 1) as [H|H]; [reflexivity|destruct (H Rlt_0_1)]. Qed.
Lemma turned_2 : turned (-1, 0, 0, 0)%R = (1, 0, 0, 0)%R.
Proof. unfold turned, membrane. destruct (Rlt_dec 0 (-1)) as [H|H]; [exfalso; Lra.lra|reflexivity]. Qed.
Lemma rise t ts b : update_central t (mkCentral b false ts) (1, 0, 0, 0)%R = mkCentral (1, 0, 0, 0)%R true (ts ++ [t]).
Proof. unfold update_central, pulse, membrane. cbn [c_pulse c_times]. destruct (Rle_dec 0 1) as [H|H]; [reflexivity|exfalso; Lra.lra]. Qed.
Lemma fall t ts b : update_central t (mkCentral b true ts) (-1, 0, 0, 0)%R = mkCentral (-1, 0, 0, 0)%R false ts.
Proof. unfold update_central, pulse, membrane. cbn [c_pulse c_times]. destruct (Rlt_dec (-1) 0) as [H|H]; [reflexivity|exfalso; Lra.lra]. Qed.

Lemma toggle_three noise1 noise2 noise3 p stim dr t1 t2 t3 s1 s2 s3 i1 i2 i3 :
  exists a1 a2 a3, let net0 := hhn_create 1 stim p dr in
  calculate_states toggle noise1 t1 s1 i1 net0 = Ok a1 /\ calculate_states toggle noise2 t2 s2 i2 a1 = Ok a2 /\ calculate_states toggle noise3 t3 s3 i3 a2 = Ok a3 /\
  h_cn1 a1 = mkCentral (1, 0, 0, 0)%R true [t1] /\ h_cn1 a2 = mkCentral (-1, 0, 0, 0)%R false [t1] /\ h_cn1 a3 = mkCentral (1, 0, 0, 0)%R true [t1; t3].
Proof.
  cbn zeta. rewrite toggle_step. eexists. eexists. eexists. split; [reflexivity|]. rewrite toggle_step. split; [reflexivity|]. rewrite toggle_step. split; [reflexivity|].
  cbn [h_cn1 h_cn2 hhn_create new_central c_state]. rewrite turned_0. unfold new_central. rewrite rise. cbn [app c_state].
  rewrite turned_1, fall. cbn [c_state]. rewrite turned_2, rise. auto.
Qed.

(** the record of a second run does not start with the states of the central elements, and the
    pulses of the second run get the times of the first one again: time starts anew, the pulses
    are kept.  One run of three steps has pulses at the times 1 and 3, a run of two steps and
    then one of one step have two pulses at the time 1. *)
Theorem C233_continued_refuted : exists odeint noise n p draw net1 net2 net3 times1 times2 times3 pn1 pn2 pn3 cn1 cn2 cn3,
  hhn_simulate odeint noise 2 2 RK4 (hhn_create n None p draw) = Ok (net1, (times1, pn1, cn1)) /\
  hhn_simulate odeint noise 1 1 RK4 net1 = Ok (net2, (times2, pn2, cn2)) /\
  hhn_simulate odeint noise 3 3 RK4 (hhn_create n None p draw) = Ok (net3, (times3, pn3, cn3)) /\
  central_potentials net1 <> nth 0 cn2 [] /\
  Forall2 Qeq (c_times (h_cn1 net2)) [1; 1]%Q /\ Forall2 Qeq (c_times (h_cn1 net3)) [1; 3]%Q.
Proof.
  exists toggle, (fun _ => [0%Q]), 1, (default_hhn 0), [0%Q].
  set (q1 := (1 / inject_Z (Z.of_nat 1))%Q). set (q2 := (2 / inject_Z (Z.of_nat 2))%Q). set (q3 := (3 / inject_Z (Z.of_nat 3))%Q).
  assert (A1 : arange q1 (1 + q1) q1 = [1%Q]) by (vm_compute; reflexivity).
  assert (A2 : arange q2 (2 + q2) q2 = [4 # 4; 8 # 4]%Q) by (vm_compute; reflexivity).
  assert (A3 : arange q3 (3 + q3) q3 = [9 # 9; 18 # 9; 27 # 9]%Q) by (vm_compute; reflexivity).
  destruct (toggle_three [0%Q] [0%Q] [0%Q] (default_hhn 0) None [0%Q] (4 # 4) (8 # 4) 1 q2 q2 q1 (q2 / 10) (q2 / 10) (q1 / 10)) as (a1 & a2 & a3 & E1 & E2 & E3 & _ & C2 & C3).
  destruct (toggle_three [0%Q] [0%Q] [0%Q] (default_hhn 0) None [0%Q] (9 # 9) (18 # 9) (27 # 9) q3 q3 q3 (q3 / 10) (q3 / 10) (q3 / 10)) as (b1 & b2 & b3 & F1 & F2 & F3 & _ & _ & D3).
  cbn zeta in *. exists a2, a3, b3. unfold hhn_simulate. cbn [Nat.eqb]. cbn zeta. fold q1 q2 q3. rewrite A1, A2, A3. cbn [hhn_steps].
  rewrite E1. cbn [bind]. rewrite E2. cbn [bind]. rewrite E3. cbn [bind]. rewrite F1. cbn [bind]. rewrite F2. cbn [bind]. rewrite F3. cbn [bind last].
  do 9 eexists. split; [reflexivity|]. split; [reflexivity|]. split; [reflexivity|]. cbn [nth]. split.
  - unfold central_potentials. rewrite C2. cbn [c_state membrane]. intro H. assert (X : (-1)%R = 0%R) by congruence. Lra.lra.
  - rewrite C3, D3. cbn [c_times]. split; repeat constructor; reflexivity.
Qed.

Example C233_case : exists net1 net2 times1 times2 pn1 pn2 cn1 cn2,
  hhn_simulate toggle (fun _ => [0%Q]) 2 2 RK4 (hhn_create 1 None (default_hhn 0) [0%Q]) = Ok (net1, (times1, pn1, cn1)) /\
  hhn_simulate toggle (fun _ => [0%Q]) 1 1 RK4 net1 = Ok (net2, (times2, pn2, cn2)).
Proof.
  unfold hhn_simulate. cbn [Nat.eqb]. cbn zeta.
  assert (E : forall step int times k net, exists nets, hhn_steps toggle (fun _ => [0%Q]) step int k times net = Ok nets).
  { intros step int times. induction times as [|t l IH]; intros k net; cbn [hhn_steps]; [eexists; reflexivity|].
    rewrite toggle_step. cbn [bind]. match goal with |- context [hhn_steps _ _ _ _ ?k0 l ?n0] => destruct (IH k0 n0) as (ns & ->) end. cbn [bind]. eexists. reflexivity. }
  match goal with |- context [hhn_steps toggle ?nz ?s0 ?i0 0 ?t0 (hhn_create ?a0 ?b0 ?c0 ?d0)] => destruct (E s0 i0 t0 0 (hhn_create a0 b0 c0 d0)) as (n1 & ->) end.
  cbn [bind]. set (x := last n1 (hhn_create 1 None (default_hhn 0) [0%Q])). exists x.
  match goal with |- context [hhn_steps toggle ?nz ?s0 ?i0 0 ?t0 x] => destruct (E s0 i0 t0 0 x) as (n2 & ->) end.
  cbn [bind]. do 7 eexists. split; reflexivity.
Qed.
End Hhn.
Print Assumptions C233_first_row.
Print Assumptions C233_at_rest.
Print Assumptions C233_peripherals_continue.
Print Assumptions C233_continued_refuted.
