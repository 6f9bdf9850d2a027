(** Closer statements for C119 (the radii of hsyncnet), C151 (the first step of a new LEGION network), C193 and C223
    (where the marks are). *)
From Coq Require Import String.
From Verif Require Import Base Topology_Model Ensembles_Model Ensembles_Proofs Gcolor_Model Gcolor_Proofs Kuramoto_Model Kuramoto_Proofs Odesync_Proofs Legion_Model Legion_Proofs Legion_Props.
From Verif Require Import Cldist_Model Syncnet_Model.
From Coq Require Import Reals Lra Qreals Qround Qabs.
Open Scope nat_scope.

(** * C119: the radii *)
(** one neighbour more at each level, or the floor of n * increase more if that is at least one *)
Definition is_step (n : nat) (increase : Q) (step : nat) : Prop :=
  (step = 1 /\ (inject_Z (Z.of_nat n) * increase < 1)%Q) \/
  (1 <= step /\ (inject_Z (Z.of_nat step) <= inject_Z (Z.of_nat n) * increase)%Q /\ (inject_Z (Z.of_nat n) * increase < inject_Z (Z.of_nat step) + 1)%Q).
Lemma step_is locs increase : is_step (length locs) increase (increase_step locs increase).
Proof.
  unfold increase_step, is_step, countq. set (v := (inject_Z (Z.of_nat (length locs)) * increase)%Q). destruct (Z.ltb_spec (Qfloor v) 1) as [H|H].
  - left. split; [reflexivity|]. eapply Qlt_le_trans; [apply Qlt_floor|]. change 1%Q with (inject_Z 1). rewrite <- Zle_Qle. lia.
  - right. rewrite Z2Nat.id by lia. split; [lia|]. split; [apply Qfloor_le|]. pose proof (Qlt_floor v) as F. rewrite inject_Z_plus in F. exact F.
Qed.
(** the radius of a level: the average distance to the k-th neighbours while there are so many points, afterwards the
    radius of the level before and [increase] of it *)
Definition radii (distance : point -> point -> Q) (locs : list point) (increase : Q) (k step : nat) (levels : list hiter) : Prop :=
  forall i l, nth_error levels i = Some l ->
  if k + i * step <? length locs then average_neighbor_distance distance locs (k + i * step) = Ok (it_radius l)
  else exists i' before, i = S i' /\ nth_error levels i' = Some before /\ (it_radius l == it_radius before * (1 + increase))%Q.

Lemma nth_error_snoc {A} (l : list A) x i y : nth_error (l ++ [x]) i = Some y -> nth_error l i = Some y \/ (i = length l /\ y = x).
Proof.
  intros H. destruct (Nat.lt_ge_cases i (length l)) as [L|L]; [rewrite nth_error_app1 in H by exact L; auto|]. rewrite nth_error_app2 in H by exact L. right.
  destruct (i - length l) as [|r] eqn:E; cbn in H; [injection H as <-; split; [lia|reflexivity]|]. destruct r; discriminate.
Qed.
Lemma radii_snoc distance locs increase k step levels l : radii distance locs increase k step levels ->
  (if k + length levels * step <? length locs then average_neighbor_distance distance locs (k + length levels * step) = Ok (it_radius l)
   else exists i' before, length levels = S i' /\ nth_error levels i' = Some before /\ (it_radius l == it_radius before * (1 + increase))%Q) ->
  radii distance locs increase k step (levels ++ [l]).
Proof.
  intros H Hl i y Hy. apply nth_error_snoc in Hy. destruct Hy as [Hy|[-> ->]].
  - pose proof (H i y Hy) as G. destruct (k + i * step <? length locs); [exact G|]. destruct G as (i' & b & -> & Hb & E). exists i', b. split; [reflexivity|]. split; [|exact E]. rewrite nth_error_app1; [exact Hb|]. apply nth_error_Some. rewrite Hb. discriminate.
  - destruct (k + length levels * step <? length locs); [exact Hl|]. destruct Hl as (i' & b & E & Hb & Er). exists i', b. split; [exact E|]. split; [|exact Er]. rewrite nth_error_app1 by lia. exact Hb.
Qed.
Lemma hloop_radii distance locs simulate period collect increase number step k : forall fuel net ph nb rad dyn trace r,
  nb = k + length trace * step -> radii distance locs increase k step (rev trace) ->
  (if k + length trace * step <? length locs then average_neighbor_distance distance locs (k + length trace * step) = Ok rad
   else exists before rest, trace = before :: rest /\ (rad == it_radius before * (1 + increase))%Q) ->
  hloop distance locs simulate period fuel collect increase number step net ph nb rad dyn trace = Ok r -> radii distance locs increase k step (h_trace r).
Proof.
  induction fuel as [|fuel IH]; intros net ph nb rad dyn trace r Hn Hr Hrad E; cbn [hloop] in E; [discriminate|].
  destruct (create_connections distance locs false net rad) as [nw|e]; cbn [bind] in E; [|discriminate].
  destruct (sync_ensembles period (simulate (fst nw) ph) (1 # 20) None None) as [gs|e]; cbn [bind] in E; [|discriminate].
  destruct (calculate_radius distance locs increase (nb + step) rad) as [rad1|e] eqn:Er; cbn [bind] in E; [|discriminate].
  assert (Hnew : radii distance locs increase k step (rev (mkIter rad (fst nw) gs :: trace))).
  { cbn [rev]. apply radii_snoc; [exact Hr|]. rewrite rev_length. cbn [it_radius]. destruct (k + length trace * step <? length locs); [exact Hrad|].
    destruct Hrad as (b & rest & -> & E1). exists (length rest), b. split; [reflexivity|]. split; [|exact E1]. cbn [rev]. rewrite nth_error_app2 by (rewrite rev_length; lia). rewrite rev_length, Nat.sub_diag. reflexivity. }
  destruct (number <? length gs).
  - eapply IH; [| |  |exact E]; [cbn [length]; lia|exact Hnew|]. cbn [length]. replace (k + S (length trace) * step) with (nb + step) by lia.
    unfold calculate_radius in Er. destruct (Nat.leb_spec (length locs) (nb + step)) as [L|L]; destruct (Nat.ltb_spec (nb + step) (length locs)) as [L'|L']; try lia; [|exact Er].
    apply Ok_inj in Er. subst rad1. do 2 eexists. split; [reflexivity|]. cbn [it_radius]. ring.
  - apply Ok_inj in E. subst r. cbn [h_trace]. exact Hnew.
Qed.
(** C119, with all radii of a run: the first level has min(neighbors, n - 1) neighbours *)
Theorem C119_radii distance locs simulate period fuel collect number neighbors increase phases r :
  hsyncnet distance locs simulate period fuel collect number neighbors increase phases = Ok r ->
  exists step, is_step (length locs) increase step /\ radii distance locs increase (Nat.min neighbors (length locs - 1)) step (h_trace r).
Proof.
  intros E. exists (increase_step locs increase). split; [apply step_is|]. unfold hsyncnet in E.
  assert (Ek : (if length locs <=? neighbors then length locs - 1 else neighbors) = Nat.min neighbors (length locs - 1)) by (destruct (Nat.leb_spec (length locs) neighbors); lia).
  rewrite Ek in E. set (k := Nat.min neighbors (length locs - 1)) in *.
  assert (Hne : locs <> []) by (intros ->; cbn in E; discriminate). assert (Hn : 0 < length locs) by (destruct locs; [congruence|cbn; lia]).
  destruct (syncnet distance locs (Some 0%Q) RMatrix false) as [nw|e]; cbn [bind] in E; [|discriminate].
  destruct (average_neighbor_distance distance locs k) as [rad|e] eqn:Er; cbn [bind] in E; [|discriminate].
  eapply hloop_radii; [| | |exact E]; cbn [length Nat.mul]; [lia|intros i l H; destruct i; discriminate|]. rewrite Nat.add_0_r.
  destruct (Nat.ltb_spec k (length locs)); [exact Er|unfold k in *; lia].
Qed.
Print Assumptions C119_radii.
(** C119_meets_hypotheses of Syncnet_Props.v is a run with four levels *)
Example C119_radii_case : let dist p q := Qabs (coord p 0 - coord q 0) in let jump (net : network) (ph : list Q) := [ph; repeat 0%Q 4] in
  exists r, hsyncnet dist [[0]; [1]; [4]; [5]]%Q jump 6 10 true 1 5 (1 # 5) [0; 1; 2; 3]%Q = Ok r /\ map (fun l => Qred (it_radius l)) (h_trace r) = [3%Q].
Proof. eexists. split; [vm_compute; reflexivity|vm_compute; reflexivity]. Qed.

(** * C151: the first step of a new network *)
(** the oscillators start at the drawn values with everything else zero, uncoupled, and the global inhibitor is silent *)
Theorem C151_first_step : forall odeint1 odeint2 odeint3 p net stim exc noise0 noise t step next i, good_net net -> l_potential p = true -> i < n_osc net -> (0 <= l_teta_xz p)%Q ->
  legion_step odeint1 odeint2 odeint3 p net stim noise t step (step / 10) (legion_create (n_osc net) exc noise0) = Ok next ->
  (exists f before, odeint3 f (rnth exc i, 0%R, 0%R) (map Q2R (arange (t - step) t (step / 10))) = before ++ [(rnth (l_exc next) i, rnth (l_inh next) i, rnth (l_pot next) i)] /\
     forall x y q s, fst (fst (f (x, y, q) s)) =
       (3 * x - x ^ 3 + 2 - y + (if above (l_teta p) (q + exp (- Q2R (l_alpha p) * s)) then Q2R (nth i stim 0%Q) else 0) + rnth noise0 i)%R) /\
  rnth (l_coup next) i = (if Qltb 0 (nth i stim 0%Q) && (0 <? stimulated net stim i) then Q2R (l_Wt p) / INR (stimulated net stim i) * INR (active p net (legion_create (n_osc net) exc noise0) i) else 0)%R /\
  (exists f before, odeint1 f 0%R (map Q2R (arange (t - step) t (step / 10))) = before ++ [l_ginh next]).
Proof.
  intros odeint1 odeint2 odeint3 p net stim exc noise0 noise t step next i Hg Hp Hi Hz E.
  assert (Z : forall n j, rnth (repeat 0%R n) j = 0%R) by (intros n j; unfold rnth; apply nth_repeat).
  destruct (C151_step_equations odeint1 odeint2 odeint3 p net stim noise t step _ next i Hg Hp Hi E) as ((f & before & Hf & Hx) & Hc & _).
  split; [|split].
  - exists f, before. unfold legion_create in Hf. cbn [l_exc l_inh l_pot] in Hf. rewrite Z in Hf. split; [exact Hf|]. intros x y q s. rewrite Hx. cbn [fst]. unfold legion_create. cbn [l_coup l_noise]. rewrite Z. ring.
  - rewrite Hc. unfold coupling_value. unfold legion_create at 2. cbn [l_ginh]. replace (above (l_teta_xz p) 0%R) with false; [unfold indicator; ring|]. symmetry. unfold above. destruct (Rlt_dec _ _) as [r|r]; [|reflexivity].
    exfalso. apply Qle_Rle in Hz. rewrite RMicromega.Q2R_0 in Hz. lra.
  - unfold legion_step in E. destruct (oscillators _ _ _ _ _ _ _ _) as [vs|e]; cbn [bind] in E; [|discriminate]. destruct (last_of (odeint1 _ _ _)) as [z|e] eqn:Ez; cbn [bind] in E; [|discriminate].
    apply Ok_inj in E. subst next. cbn [l_ginh]. apply last_of_ok in Ez. destruct Ez as [b Ez]. unfold legion_create in Ez. cbn [l_ginh] in Ez. eauto.
Qed.
Print Assumptions C151_first_step.
Example C151_first_case : good_net two_net /\ l_potential default_legion = true /\ (0 <= l_teta_xz default_legion)%Q /\ n_osc two_net = 2 /\
  exists next, legion_step case_odeint1 case_odeint2 case_odeint3 default_legion two_net [1 # 5; 1 # 5]%Q [0; 0]%R 1 1 (1 / 10) (legion_create 2 [1; -2]%R [0; 0]%R) = Ok next.
Proof. split; [eapply matrix_good; reflexivity|]. split; [reflexivity|]. split; [discriminate|]. split; [reflexivity|]. destruct case_total as (T1 & T2 & T3). apply step_total; auto. reflexivity. Qed.
