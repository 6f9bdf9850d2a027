(** C142-C145: pulse coupled neural network *)
From Verif Require Import Base Kmeans_Model Kmeans_Proofs Topology_Model Topology_Proofs Pcnn_Model Pcnn_Proofs.

(** ** C142 one step *)
Theorem C142_step_equations :
  forall fuel p net stimulus s s', FAST_LINKING p = false -> shaped (n_osc net) s -> calculate_states fuel p net stimulus s = Ok s' ->
  shaped (n_osc net) s' /\ fed_rightly p net stimulus s s' /\ fires_rightly p (n_osc net) s s' /\ threshold_rightly p (n_osc net) s s' /\
  forall i, i < n_osc net -> (nth i (p_link s') 0 == AL p * nth i (p_link s) 0 + VL p * W p * firing net (p_out s) i)%Q.
Proof. intros fuel p net stimulus s s' Ef Hs E. pose proof (calculate_spec p net stimulus fuel s s' Hs E) as H. rewrite Ef in H. exact H. Qed.
Print Assumptions C142_step_equations.

Theorem C142_step_ends :
  forall fuel p net stimulus s, FAST_LINKING p = false -> exists s', calculate_states fuel p net stimulus s = Ok s'.
Proof. intros. apply calculate_plain. auto. Qed.
Print Assumptions C142_step_ends.

(** three oscillators in a line; the first fires and pulls the second one along *)
Definition case_net (n : nat) (t : conn_type) : network := mkNet n t (create_structure t RList n 0) 0 0.
Example C142_case : network_init 3 CListBidir RList None = Ok (case_net 3 CListBidir) /\
  exists s1 s2, calculate_states 0 (default_parameters false) (case_net 3 CListBidir) [1; 0; 0]%Q (pcnn_create 3 [1 # 2; 1 # 2; 1 # 2]%Q) = Ok s1 /\
    calculate_states 0 (default_parameters false) (case_net 3 CListBidir) [1; 0; 0]%Q s1 = Ok s2 /\
    shaped 3 (pcnn_create 3 [1 # 2; 1 # 2; 1 # 2]%Q) /\ p_out s1 = [1; 0; 0] /\ p_out s2 = [0; 1; 0] /\ map Qred (p_thr s2) = [41 # 8; 81 # 8; 1 # 8]%Q.
Proof.
  split; [reflexivity|]. eexists. eexists. split; [vm_compute; reflexivity|]. split; [vm_compute; reflexivity|].
  split; [|vm_compute; auto]. apply (shaped_create (case_net 3 CListBidir)). reflexivity.
Qed.

(** ** C143 fast linking *)
Theorem C143_fast_linking :
  forall fuel p net stimulus s s', FAST_LINKING p = true -> shaped (n_osc net) s -> calculate_states fuel p net stimulus s = Ok s' ->
  shaped (n_osc net) s' /\ fed_rightly p net stimulus s s' /\ fires_rightly p (n_osc net) s s' /\ threshold_rightly p (n_osc net) s s' /\
  forall i, i < n_osc net -> (nth i (p_link s') 0 == VL p * W p * firing net (p_out s') i)%Q.
Proof. intros fuel p net stimulus s s' Ef Hs E. pose proof (calculate_spec p net stimulus fuel s s' Hs E) as H. rewrite Ef in H. exact H. Qed.
Print Assumptions C143_fast_linking.

(** the wave runs through the whole line in one step *)
Example C143_case : exists s1, calculate_states 4 (default_parameters true) (case_net 3 CListBidir) [1; 10 # 21; 10 # 21]%Q (pcnn_create 3 [1 # 2; 1 # 2; 1 # 2]%Q) = Ok s1 /\
  p_out s1 = [1; 1; 1] /\ exists s2, calculate_states 4 (default_parameters false) (case_net 3 CListBidir) [1; 10 # 21; 10 # 21]%Q (pcnn_create 3 [1 # 2; 1 # 2; 1 # 2]%Q) = Ok s2 /\ p_out s2 = [1; 0; 0].
Proof. eexists. split; [vm_compute; reflexivity|]. split; [reflexivity|]. eexists. split; [vm_compute; reflexivity|]. reflexivity. Qed.

Theorem C143_first_step_ends :
  forall p net stimulus draws, (0 <= VL p * W p * B p)%Q -> (forall x, In x stimulus -> (0 <= x)%Q) -> length draws = n_osc net ->
  exists s', calculate_states (S (n_osc net)) p net stimulus (pcnn_create (n_osc net) draws) = Ok s'.
Proof. exact first_step_ends. Qed.
Print Assumptions C143_first_step_ends.

Example C143_first_step_case : (0 <= VL (default_parameters true) * W (default_parameters true) * B (default_parameters true))%Q.
Proof. vm_compute. discriminate. Qed.

(** "simulate() ends" is false with fast linking: two connected oscillators take turns for ever.  The network is new, the
    parameters are the default ones except for FAST_LINKING and M. *)
Definition turns_parameters : pcnn_parameters := mkParams 1 1 10 (1 # 10) (1 # 10) (1 # 2) 1 0 (1 # 10) true.
Theorem C143_simulate_ends_refuted :
  exists p net draws stimulus, network_init 2 CAllToAll RMatrix None = Ok net /\ length draws = 2 /\ (forall x, In x draws -> (0 <= x < 1)%Q) /\
    (forall x, In x stimulus -> (0 <= x)%Q) /\ (0 <= VL p * W p * B p)%Q /\
    forall fuel, simulate fuel p net 3 stimulus (pcnn_create 2 draws) = Raise OutOfFuel.
Proof.
  exists turns_parameters. eexists. exists [1 # 2; 1 # 2]%Q, [92 # 10; 22 # 100]%Q. split; [reflexivity|]. split; [reflexivity|].
  split; [intros x [<-|[<-|[]]]; split; vm_compute; try discriminate; reflexivity|].
  split; [intros x [<-|[<-|[]]]; vm_compute; discriminate|]. split; [vm_compute; discriminate|].
  set (net := mkNet _ _ _ _ _). intros fuel. unfold simulate. cbn [length n_osc net Nat.eqb negb Nat.sub simulate_loop].
  destruct fuel as [|[|fuel]]; [reflexivity|reflexivity|].
  destruct (calculate_states (S (S fuel)) turns_parameters net [92 # 10; 22 # 100]%Q (pcnn_create 2 [1 # 2; 1 # 2]%Q)) as [s1|e] eqn:E1; [|vm_compute in E1; discriminate].
  vm_compute in E1. apply Ok_inj in E1. subst s1. cbn [bind].
  match goal with |- context [calculate_states ?f ?p ?nt ?st ?s0] =>
    assert (calculate_states f p nt st s0 = Raise OutOfFuel) as ->; [|reflexivity] end.
  unfold calculate_states. cbn [FAST_LINKING turns_parameters].
  match goal with |- (do r <- fast_loop _ ?p ?nt ?fd ?th ?o; _) = _ =>
    let o' := eval vm_compute in o in replace o with o' by (vm_compute; reflexivity);
    destruct (fast_loop_cycle p nt fd th [0; 1] [1; 0] [0%Q; 1%Q] [1%Q; 0%Q]) with (fuel := S (S fuel)) as [H _] end;
    try (vm_compute; reflexivity).
  rewrite H. reflexivity.
Qed.
Print Assumptions C143_simulate_ends_refuted.

(** ** C144 simulation *)
Theorem C144_simulate :
  forall fuel p net steps stimulus s s' d, shaped (n_osc net) s -> simulate fuel p net steps stimulus s = Ok (s', d) ->
  length stimulus = n_osc net /\ length d = Nat.max 1 steps /\ hd [] d = p_out s /\ last d [] = p_out s' /\
  follows fuel p net stimulus s (tl d) s' /\ shaped (n_osc net) s' /\ forall o, In o d -> length o = n_osc net /\ binary o.
Proof.
  intros fuel p net steps stimulus s s' d Hs E. unfold simulate in E. destruct (Nat.eqb_spec (length stimulus) (n_osc net)) as [El|]; cbn [negb] in E; [|discriminate].
  destruct (simulate_loop fuel p net stimulus (steps - 1) s) as [[s1 d1]|] eqn:E1; cbn [bind] in E; [|discriminate]. apply Ok_inj in E. cbn [fst snd] in E. injection E as <- <-.
  apply loop_follows in E1 as [F L]. destruct (follows_shaped _ _ _ _ _ _ _ F Hs) as [H1 H2]. split; auto. cbn [length hd tl]. split; [lia|]. split; auto. split.
  { clear - F. induction F as [|s s1 d s' E F IH]; [reflexivity|]. rewrite <- IH. reflexivity. }
  split; auto. split; auto. intros o [<-|Ho]; [split; apply Hs|auto].
Qed.
Print Assumptions C144_simulate.

Theorem C144_bad_stimulus :
  forall fuel p net steps stimulus s, length stimulus <> n_osc net -> simulate fuel p net steps stimulus s = Raise NameError.
Proof. intros fuel p net steps stimulus s H. unfold simulate. apply Nat.eqb_neq in H. now rewrite H. Qed.
Print Assumptions C144_bad_stimulus.

(** two simulations one after the other are one simulation, the state in between is reported twice *)
Theorem C144_continuation :
  forall fuel p net a b stimulus s s1 d1, simulate fuel p net (S a) stimulus s = Ok (s1, d1) ->
  simulate fuel p net (S (a + b)) stimulus s = (do r <- simulate fuel p net (S b) stimulus s1; Ok (fst r, d1 ++ tl (snd r))).
Proof.
  intros fuel p net a b stimulus s s1 d1 E. unfold simulate in *. destruct (negb _); [discriminate|]. cbn [Nat.sub] in *. rewrite !Nat.sub_0_r in *.
  destruct (simulate_loop fuel p net stimulus a s) as [[s2 d2]|] eqn:E1; cbn [bind] in E; [|discriminate]. apply Ok_inj in E. cbn [fst snd] in E. injection E as <- <-.
  rewrite (loop_app fuel p net stimulus a b s s2 d2 E1). destruct (simulate_loop fuel p net stimulus b s2) as [[s3 d3]|]; reflexivity.
Qed.
Print Assumptions C144_continuation.

Example C144_case : exists s, simulate 4 (default_parameters false) (case_net 3 CListBidir) 4 [1; 0; 0]%Q (pcnn_create 3 [1 # 2; 1 # 2; 1 # 2]%Q) =
  Ok (s, [[0; 0; 0]; [1; 0; 0]; [0; 1; 0]; [0; 0; 1]]) /\
  exists s2, simulate 4 (default_parameters false) (case_net 3 CListBidir) 2 [1; 0; 0]%Q s = Ok (s2, [[0; 0; 1]; [0; 0; 0]]).
Proof. eexists. split; [vm_compute; reflexivity|]. eexists. vm_compute. reflexivity. Qed.

(** ** C145 a new network that is not stimulated stays silent *)
Theorem C145_silence :
  forall fuel p net steps draws stimulus s' d, (0 <= AT p)%Q -> length draws = n_osc net -> (forall x, In x draws -> (0 <= x)%Q) -> (forall x, In x stimulus -> (x == 0)%Q) ->
  simulate fuel p net steps stimulus (pcnn_create (n_osc net) draws) = Ok (s', d) -> forall o, In o d -> o = repeat 0 (n_osc net).
Proof.
  intros fuel p net steps draws stimulus s' d Ha Ld Hd Hz E o Ho.
  destruct (C144_simulate fuel p net steps stimulus _ s' d (shaped_create net draws Ld) E) as (_ & Len & Hh & _ & F & _).
  destruct d as [|o1 d]; [cbn [length] in Len; lia|]. cbn [hd tl] in *. destruct Ho as [<-|Ho]; [rewrite Hh; reflexivity|].
  refine (resting_follows fuel p net stimulus _ d s' F Ha _ _ o Ho).
  - intros i. destruct (nth_in_or_default i stimulus 0%Q) as [Hi|Hi]; [apply Hz; exact Hi|rewrite Hi; reflexivity].
  - split; [apply shaped_create; auto|]. intros i Hi. unfold pcnn_create. cbn [p_out p_feed p_thr]. rewrite !nth_repeat. split; auto. split; [reflexivity|].
    apply Hd, nth_In. lia.
Qed.
Print Assumptions C145_silence.

Example C145_case : exists s, simulate 4 (default_parameters true) (case_net 2 CAllToAll) 3 [0; 0]%Q (pcnn_create 2 [0; 1 # 2]%Q) = Ok (s, [[0; 0]; [0; 0]; [0; 0]]).
Proof. eexists. vm_compute. reflexivity. Qed.
