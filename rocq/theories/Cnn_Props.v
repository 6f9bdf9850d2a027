(** C146-C149: chaotic neural network *)
From Verif Require Import Base Kmeans_Model Kmeans_Proofs Cldist_Model Cldist_Proofs Syncnet_Model Syncnet_Proofs Cnn_Model Cnn_Proofs.

Section Params.
Variables (distance : point -> point -> Q) (expminus : Q -> Q).
(** exp(-x) is never negative and respects equality of rationals *)
Hypothesis exp_pos : forall x, (0 <= expminus x)%Q.
Hypothesis exp_ext : forall x y, (x == y)%Q -> (expminus x == expminus y)%Q.

Lemma simulate_unfold conn k steps stimulus output outs times : simulate distance expminus conn k steps stimulus output = Ok (outs, times) ->
  exists m os, create_weights distance expminus conn k stimulus = Ok m /\ outs = output :: os /\ length os = steps - 1 /\ times = seq 0 (S (steps - 1)) /\
    forall t, t < length os -> calculate_states m (nth t outs []) = Ok (nth (S t) outs []).
Proof.
  intros E. unfold simulate in E. destruct (create_weights distance expminus conn k stimulus) as [m|]; cbn [bind] in E; [|discriminate].
  destruct (simulate_loop m output 1 (steps - 1)) as [[os ts]|] eqn:E1; cbn [bind] in E; [|discriminate]. apply Ok_inj in E. cbn [fst snd] in E. injection E as <- <-.
  destruct (simulate_loop_spec m _ _ _ _ _ E1) as (L & T & H). exists m, os. split; auto. split; auto. split; auto. split; [cbn [seq]; now rewrite T|].
  intros t Ht. cbn [nth]. apply H. lia.
Qed.

(** ** C146 *)
Theorem all_to_all k steps stimulus output outs times : 2 <= length stimulus -> length output = length stimulus ->
  simulate distance expminus AllToAll k steps stimulus output = Ok (outs, times) ->
  exists average, average_neighbor_distance distance stimulus k = Ok average /\ ~ (average == 0)%Q /\
    length outs = Nat.max 1 steps /\ times = seq 0 (Nat.max 1 steps) /\ hd [] outs = output /\
    forall t, S t < length outs -> length (nth (S t) outs []) = length stimulus /\
      forall i, i < length stimulus ->
        ~ (qsum (map (fun j => coupling expminus average stimulus i j) (others (length stimulus) i)) == 0)%Q /\
        (nth i (nth (S t) outs []) 0 == weighted_mean (length stimulus) (coupling expminus average stimulus) (nth t outs []) i)%Q.
Proof.
  intros Hn Lo E. destruct (simulate_unfold _ _ _ _ _ _ _ E) as (m & os & Em & -> & Ls & -> & H).
  destruct (create_spec distance expminus exp_pos exp_ext AllToAll k stimulus m) as (average & Ea & Hz & C & R); auto; [apply pairs_good| |].
  { cbn [edges]. intros E0. assert (Hin : In (0, 1) (pairs (length stimulus))) by (apply in_pairs; lia). rewrite E0 in Hin. destruct Hin. }
  exists average. split; auto. split; auto. cbn [length hd]. split; [lia|]. split; [f_equal; lia|]. split; auto.
  assert (Len : forall t, t < S (length os) -> length (nth t (output :: os) []) = length stimulus).
  { induction t as [|t IH]; intros Ht; [exact Lo|]. specialize (H t ltac:(lia)). apply calculate_ok in H as [L _]. rewrite L. apply IH. lia. }
  intros t Ht. split; [apply Len; exact Ht|]. intros i Hi. specialize (H t ltac:(lia)). apply calculate_ok in H as [L H].
  rewrite (Len t ltac:(lia)) in H.
  apply (neuron_mean expminus average stimulus m (nth t (output :: os) []) i); auto. apply Len. lia.
Qed.

Theorem bounded conn k steps stimulus output outs times : good_edges (length stimulus) (edges conn (length stimulus)) ->
  length output = length stimulus -> (forall y, In y output -> in_range y) ->
  simulate distance expminus conn k steps stimulus output = Ok (outs, times) -> forall o y, In o outs -> In y o -> in_range y.
Proof.
  intros Hg Lo Hr E. destruct (simulate_unfold _ _ _ _ _ _ _ E) as (m & os & Em & -> & Ls & -> & H).
  assert (G : forall t, t < S (length os) -> length (nth t (output :: os) []) = length stimulus /\ forall j, j < length stimulus -> in_range (nth j (nth t (output :: os) []) 0%Q)).
  { destruct (edges conn (length stimulus)) as [|ed eds] eqn:Ee.
    - (* nothing is connected *)
      unfold create_weights in Em. rewrite Ee in Em. destruct (average_neighbor_distance distance stimulus k); cbn [bind connect_all] in Em; [|discriminate]. apply Ok_inj in Em.
      intros t Ht. destruct t as [|t]; [cbn [nth]; split; auto; intros j Hj; apply Hr, nth_In; lia|]. exfalso.
      specialize (H 0 ltac:(lia)). apply calculate_ok in H as [L H]. cbn [nth] in H, L. destruct output as [|y output].
      + (* no neuron at all: the average distance is not defined *)
        cbn in Lo. clear H. destruct stimulus; [|discriminate].
        unfold create_weights, average_neighbor_distance in *. unfold simulate, create_weights, average_neighbor_distance in E. cbn in E.
        destruct k; cbn in E; discriminate E.
      + specialize (H 0 ltac:(cbn; lia)). unfold neuron_evolution in H. rewrite <- Em in H. cbn [snd] in H. rewrite nth_repeat in H. discriminate.
    - rewrite <- Ee in Hg. destruct (create_spec distance expminus exp_pos exp_ext conn k stimulus m Hg) as (average & Ea & Hz & C & _); auto; [rewrite Ee; discriminate|].
      induction t as [|t IH]; intros Ht; [cbn [nth]; split; auto; intros j Hj; apply Hr, nth_In; lia|].
      destruct (IH ltac:(lia)) as [I1 I2]. specialize (H t ltac:(lia)). apply calculate_ok in H as [L H]. rewrite I1 in L, H. split; auto.
      intros j Hj. specialize (H j Hj). destruct C as (Sq & C). 
      refine (neuron_range m (nth t (output :: os) []) j _ _ _ _ _ _ H); rewrite ?I1; auto; [|apply C].
      apply (connected_pos (length stimulus) (coupling expminus average stimulus) (edges conn (length stimulus)) m); [intros; apply exp_pos|split; auto]. }
  intros o y Ho Hy. apply (In_nth _ _ []) in Ho as (t & Ht & <-). cbn [length] in Ht. destruct (G t Ht) as [G1 G2].
  apply (In_nth _ _ 0%Q) in Hy as (j & Hj & <-). apply G2. rewrite <- G1. exact Hj.
Qed.

Theorem synchronous k steps stimulus output outs times t y : 2 <= length stimulus -> length output = length stimulus ->
  simulate distance expminus AllToAll k steps stimulus output = Ok (outs, times) -> S t < length outs ->
  (forall i, i < length stimulus -> (nth i (nth t outs []) 0 == y)%Q) -> forall i, i < length stimulus -> (nth i (nth (S t) outs []) 0 == logistic y)%Q.
Proof.
  intros Hn Lo E Ht Hy i Hi. destruct (all_to_all k steps stimulus output outs times Hn Lo E) as (average & _ & _ & _ & _ & _ & H).
  destruct (H t Ht) as [_ H']. destruct (H' i Hi) as [Hz ->]. unfold weighted_mean.
  assert (G : (qsum (map (fun j => coupling expminus average stimulus i j * logistic (nth j (nth t outs []) 0)) (others (length stimulus) i)) ==
             logistic y * qsum (map (fun j => coupling expminus average stimulus i j) (others (length stimulus) i)))%Q).
  { rewrite <- qsum_scale. rewrite map_map || idtac. apply qsum_ext. intros j Hj. unfold others in Hj. apply filter_In in Hj as [Hj _]. apply in_seq in Hj.
    unfold logistic. rewrite (Hy j) by lia. ring. }
  rewrite G. field. exact Hz.
Qed.
End Params.

Definition is_expminus (f : Q -> Q) : Prop := (forall x, (0 <= f x)%Q) /\ (forall x y, (x == y)%Q -> (f x == f y)%Q).

Theorem C146_mean_field :
  forall distance expminus k steps stimulus output outs times, is_expminus expminus ->
  2 <= length stimulus -> length output = length stimulus ->
  simulate distance expminus AllToAll k steps stimulus output = Ok (outs, times) ->
  exists average, average_neighbor_distance distance stimulus k = Ok average /\ ~ (average == 0)%Q /\
    length outs = Nat.max 1 steps /\ times = seq 0 (Nat.max 1 steps) /\ hd [] outs = output /\
    forall t, S t < length outs -> length (nth (S t) outs []) = length stimulus /\
      forall i, i < length stimulus ->
        let w a b := expminus (sqdist (nth a stimulus []) (nth b stimulus []) / (2 * average))%Q in
        ~ (qsum (map (fun j => w i j) (others (length stimulus) i)) == 0)%Q /\
        (nth i (nth (S t) outs []) 0 == weighted_mean (length stimulus) w (nth t outs []) i)%Q.
Proof. intros distance expminus k steps stimulus output outs times [H1 H2]. exact (all_to_all distance expminus H1 H2 k steps stimulus output outs times). Qed.
Print Assumptions C146_mean_field.

(** outputs stay between -1 and 1, for Delaunay whatever triangles of different points are found *)
Theorem C146_bounded :
  forall distance expminus conn k steps stimulus output outs times, is_expminus expminus ->
  (forall triangles, conn = Delaunay triangles -> forall t, In t triangles -> NoDup t /\ forall i, In i t -> i < length stimulus) ->
  length output = length stimulus -> (forall y, In y output -> in_range y) ->
  simulate distance expminus conn k steps stimulus output = Ok (outs, times) -> forall o y, In o outs -> In y o -> in_range y.
Proof.
  intros distance expminus conn k steps stimulus output outs times [H1 H2] Ht. apply (bounded distance expminus H1 H2 conn). destruct conn as [|triangles]; [apply pairs_good|].
  intros i j Hij. cbn [edges] in Hij. apply in_flat_map in Hij as (t & Hin & Hij). apply in_map_iff in Hij as ([a b] & E & Hab). cbn [fst snd] in E. injection E as <- <-.
  apply in_pairs in Hab. destruct (Ht triangles eq_refl t Hin) as [Nd Hb]. split; [apply Hb, nth_In; lia|]. split; [apply Hb, nth_In; lia|].
  intros E. apply (proj1 (NoDup_nth t 0) Nd) in E; lia.
Qed.
Print Assumptions C146_bounded.

(** a rational stand-in for exp(-x), and points on a line with exact distances *)
Definition case_expminus (x : Q) : Q := (1 / (1 + x * x))%Q.
Definition case_distance (x y : point) : Q := Qabs (coord x 0 - coord y 0).
Lemma case_is_expminus : is_expminus case_expminus.
Proof.
  split.
  - intros x. unfold case_expminus. apply Qle_shift_div_l; [|rewrite Qmult_0_l; discriminate]. assert (0 <= x * x)%Q by (destruct (Qlt_le_dec x 0); nra). lra.
  - intros x y E. unfold case_expminus. rewrite E. reflexivity.
Qed.
Example C146_case : exists outs, simulate case_distance case_expminus AllToAll 1 2 [[0]; [2]; [6]]%Q [0; 1 # 2; 1]%Q = Ok (outs, [0; 1]) /\
  map (map Qred) outs = [[0; 1 # 2; 1]; [139 # 308; 27 # 37; 213 # 362]]%Q.
Proof. eexists. split; [vm_compute; reflexivity|]. vm_compute. reflexivity. Qed.

(** ** C147 a synchronous network follows the logistic map *)
Theorem C147_synchronous :
  forall distance expminus k steps stimulus output outs times t y, is_expminus expminus -> 2 <= length stimulus -> length output = length stimulus ->
  simulate distance expminus AllToAll k steps stimulus output = Ok (outs, times) -> S t < length outs ->
  (forall i, i < length stimulus -> (nth i (nth t outs []) 0 == y)%Q) -> forall i, i < length stimulus -> (nth i (nth (S t) outs []) 0 == logistic y)%Q.
Proof. intros distance expminus k steps stimulus output outs times t y [H1 H2]. exact (synchronous distance expminus H1 H2 k steps stimulus output outs times t y). Qed.
Print Assumptions C147_synchronous.

Example C147_case : exists outs, simulate case_distance case_expminus AllToAll 1 3 [[0]; [2]; [6]]%Q [1 # 4; 1 # 4; 1 # 4]%Q = Ok (outs, [0; 1; 2]) /\
  map (map Qred) outs = [[1 # 4; 1 # 4; 1 # 4]; [7 # 8; 7 # 8; 7 # 8]; [-17 # 32; -17 # 32; -17 # 32]]%Q.
Proof. eexists. split; [vm_compute; reflexivity|]. vm_compute. reflexivity. Qed.

(** with the Delaunay triangulation it does not: the weight of an edge between two triangles is counted twice in the sum the
    output is divided by.  Corners of a rectangle and its two triangles, all outputs 1/2, a fixed point of the map. *)
Theorem C147_delaunay_refuted :
  exists stimulus triangles output, length output = length stimulus /\ (forall y, In y output -> (y == 1 # 2)%Q) /\ (logistic (1 # 2) == 1 # 2)%Q /\
    forall distance expminus average, average_neighbor_distance distance stimulus 3 = Ok average -> ~ (average == 0)%Q -> (forall x, (0 < expminus x)%Q) ->
    exists outs times, simulate distance expminus (Delaunay triangles) 3 2 stimulus output = Ok (outs, times) /\ (nth 0 (nth 1 outs []) 0 < 1 # 2)%Q.
Proof.
  exists [[0; 0]; [3; 0]; [3; 4]; [0; 4]]%Q, [[0; 1; 2]; [0; 2; 3]], [1 # 2; 1 # 2; 1 # 2; 1 # 2]%Q. split; [reflexivity|].
  split; [intros y [<-|[<-|[<-|[<-|[]]]]]; reflexivity|]. split; [reflexivity|]. intros distance expminus average Ea Hz Hp.
  assert (Hb : Qeq_bool average 0 = false) by (apply not_true_is_false; intros H; apply Hz, Qeq_bool_iff, H).
  set (st := [[0; 0]; [3; 0]; [3; 4]; [0; 4]]%Q : list point) in *.
  set (w := fun i j => expminus (sqdist (nth i st []) (nth j st []) / (2 * average))%Q).
  unfold simulate, create_weights. rewrite Ea. cbn [bind].
  assert (Ec : connect_all expminus average st (edges (Delaunay [[0; 1; 2]; [0; 2; 3]]) (length st)) (repeat (repeat 0%Q (length st)) (length st), repeat 0%Q (length st)) =
    Ok ([[0; w 0%nat 1%nat; w 0%nat 2%nat; w 0%nat 3%nat]; [w 0%nat 1%nat; 0; w 1%nat 2%nat; 0]; [w 0%nat 2%nat; w 1%nat 2%nat; 0; w 2%nat 3%nat]; [w 0%nat 3%nat; 0; w 2%nat 3%nat; 0]]%Q,
        [0 + w 0%nat 1%nat + w 0%nat 2%nat + w 0%nat 2%nat + w 0%nat 3%nat; 0 + w 0%nat 1%nat + w 1%nat 2%nat; 0 + w 0%nat 2%nat + w 1%nat 2%nat + w 0%nat 2%nat + w 2%nat 3%nat; 0 + w 0%nat 3%nat + w 2%nat 3%nat]%Q)).
  { change (edges (Delaunay [[0; 1; 2]; [0; 2; 3]]) (length st)) with [(0, 1); (0, 2); (1, 2); (0, 2); (0, 3); (2, 3)].
    cbn [connect_all]. unfold calculate_weight. rewrite Hb. cbn [bind]. reflexivity. }
  lazymatch goal with |- context [connect_all ?a ?b ?c ?d ?e] => replace (connect_all a b c d e) with (connect_all expminus average st (edges (Delaunay [[0; 1; 2]; [0; 2; 3]]) (length st)) (repeat (repeat 0%Q (length st)) (length st), repeat 0%Q (length st))) by reflexivity end.
  rewrite Ec. clear Ec. cbn [bind Nat.sub simulate_loop].
  assert (P : forall i j, (0 < w i j)%Q) by (intros; apply Hp). pose proof (P 0 1) as P1. pose proof (P 0 2) as P2. pose proof (P 0 3) as P3. pose proof (P 1 2) as P4. pose proof (P 2 3) as P5.
  generalize dependent (w 0 1). intros a1 P1. generalize dependent (w 0 2). intros a2 P2. generalize dependent (w 0 3). intros a3 P3.
  generalize dependent (w 1 2). intros a4 P4. generalize dependent (w 2 3). intros a5 P5. clear - P1 P2 P3 P4 P5.
  unfold calculate_states. cbn [length seq evolve]. unfold neuron_evolution. cbn [fst snd nth].
  assert (Z : forall x, (0 < x)%Q -> Qeq_bool x 0 = false) by (intros x Hx; apply not_true_is_false; intros H; apply Qeq_bool_iff in H; lra).
  rewrite !Z by lra. cbn [bind fst snd]. do 2 eexists. split; [reflexivity|]. cbn [nth length seq fold_left].
  apply Qlt_shift_div_r; [lra|]. ring_simplify. lra.
Qed.
Print Assumptions C147_delaunay_refuted.

Example C147_delaunay_case : exists average, average_neighbor_distance case_distance [[0; 0]; [3; 0]; [3; 4]; [0; 4]]%Q 3 = Ok average /\ ~ (average == 0)%Q /\ forall x, (0 < case_expminus x)%Q.
Proof.
  eexists. split; [vm_compute; reflexivity|]. split; [discriminate|]. intros x. unfold case_expminus. apply Qlt_shift_div_l; [|rewrite Qmult_0_l; reflexivity].
  assert (0 <= x * x)%Q by (destruct (Qlt_le_dec x 0); nra). lra.
Qed.

(** ** C148 ensembles *)
Theorem C148_sync_ensembles :
  forall output steps, output <> [] -> hd [] output <> [] ->
  exists es, allocate_sync_ensembles output steps = Ok es /\ partitions (length (hd [] output)) es /\ no_empty es /\
    forall i j, i < length (hd [] output) -> j < length (hd [] output) -> ((exists e, In e es /\ In i e /\ In j e) <-> same_activity output steps i j).
Proof.
  intros [|o output] steps Ho Hn; [congruence|]. cbn [hd] in *. unfold allocate_sync_ensembles. eexists. split; [reflexivity|].
  set (pat := neuron_pattern _ _ _). set (es := fold_left _ _ _).
  assert (Iv : inv pat (length o) es).
  { replace (length o) with (1 + length (seq 1 (length o - 1))) by (rewrite seq_length; destruct o; [congruence|cbn [length]; lia]). apply fold_inv; [|now rewrite seq_length].
    split; [apply Permutation_refl|]. split; [|repeat constructor; auto]. intros e [<-|[]]. split; [discriminate|]. intros i [<-|[]]. reflexivity. }
  split; [apply Iv|]. split; [apply Forall_forall; intros e He; apply Iv; exact He|]. intros i j Hi Hj. rewrite (inv_classes pat (length o) es Iv i j Hi Hj). apply pattern_activity.
Qed.
Print Assumptions C148_sync_ensembles.

Example C148_case : allocate_sync_ensembles [[1; -1; 1]; [1; 1; -1]; [1 # 2; 2; 0]]%Q 2 = Ok [[0; 1]; [2]] /\ allocate_sync_ensembles [[1; -1; 1]; [1; 1; -1]; [1 # 2; 2; 0]]%Q 3 = Ok [[0]; [1]; [2]].
Proof. vm_compute. auto. Qed.

Theorem C148_observation :
  forall output, output <> [] -> exists m, observation_matrix output = Ok m /\ length m = length output /\
    forall t i, t < length output -> i < length (hd [] output) -> nth i (nth t m []) 0 = 1 /\ (0 < nth i (nth t output []) 0)%Q \/ nth i (nth t m []) 0 = 0 /\ (nth i (nth t output []) 0 <= 0)%Q.
Proof.
  intros [|o output] H; [congruence|]. unfold observation_matrix. eexists. split; [reflexivity|]. cbn [hd]. split; [apply map_length|]. intros t i Ht Hi.
  rewrite (nth_indep _ [] (map (fun i => heaviside (nth i [] 0%Q)) (seq 0 (length o)))) by (rewrite map_length; exact Ht).
  rewrite (map_nth (fun row => map (fun i => heaviside (nth i row 0%Q)) (seq 0 (length o)))). rewrite nth_map_seq_from by exact Hi. cbn [Nat.add]. unfold heaviside.
  destruct (Qltb 0 _) eqn:E; [apply Qltb_true in E|apply Qltb_false in E]; auto.
Qed.
Print Assumptions C148_observation.

Example C148_observation_case : observation_matrix [[1; -1]; [0; 2]]%Q = Ok [[1; 0]; [0; 1]].
Proof. reflexivity. Qed.

(** ** C149 when simulate works *)
(** at least one neighbour is asked for *)
Theorem C149_too_few_points :
  forall distance expminus conn k steps stimulus output, length stimulus <= k -> simulate distance expminus conn k steps stimulus output = Raise NameError.
Proof.
  intros distance expminus conn k steps stimulus output H. unfold simulate, create_weights, average_neighbor_distance.
  destruct (Z.ltb_spec (Z.of_nat (length stimulus) - 1) (Z.of_nat k)); [reflexivity|lia].
Qed.
Print Assumptions C149_too_few_points.

Example C149_too_few_case : length [[0]; [1]; [2]]%Q <= 3.
Proof. auto. Qed.

(** a neuron whose weights all vanish stops the simulation *)
Theorem C149_isolated :
  forall distance expminus k steps stimulus output average i, is_expminus expminus -> 2 <= steps -> 2 <= length stimulus -> length output = length stimulus ->
  average_neighbor_distance distance stimulus k = Ok average -> i < length stimulus ->
  (forall j, j < length stimulus -> j <> i -> (expminus (sqdist (nth i stimulus []) (nth j stimulus []) / (2 * average)) == 0)%Q) ->
  simulate distance expminus AllToAll k steps stimulus output = Raise ZeroDivisionError.
Proof.
  intros distance expminus k steps stimulus output average i [H1 H2] Hst Hn Lo Ea Hi Hz.
  destruct (simulate distance expminus AllToAll k steps stimulus output) as [[outs times]|e] eqn:E.
  - exfalso. destruct (all_to_all distance expminus H1 H2 k steps stimulus output outs times Hn Lo E) as (av & E1 & _ & L & _ & _ & H). rewrite Ea in E1. apply Ok_inj in E1. subst av.
    destruct (H 0 ltac:(lia)) as [_ H']. destruct (H' i Hi) as [Hne _]. apply Hne.
    transitivity (qsum (map (fun _ : nat => 0%Q) (others (length stimulus) i))).
    + apply qsum_ext. intros j Hj. unfold others in Hj. apply filter_In in Hj as [Hj Hji]. apply in_seq in Hj. apply negb_true_iff, Nat.eqb_neq in Hji. apply Hz; [lia|exact Hji].
    + clear. induction (others (length stimulus) i) as [|x l IH]; cbn [map qsum]; [reflexivity|rewrite IH; reflexivity].
  - f_equal. revert E. unfold simulate, create_weights. rewrite Ea. cbn [bind].
    assert (C : forall l m e, connect_all expminus average stimulus l m = Raise e -> e = ZeroDivisionError).
    { induction l as [|[a b] l IH]; intros m e'; cbn [connect_all]; [discriminate|]. unfold calculate_weight. destruct (Qeq_bool average 0); cbn [bind]; [intros X; injection X as <-; reflexivity|apply IH]. }
    destruct (connect_all expminus average stimulus _ _) as [m|e'] eqn:Ec; cbn [bind]; [|intros X; injection X as <-; eapply C; eauto].
    assert (V : forall m o l e, evolve m o l = Raise e -> e = ZeroDivisionError).
    { clear. induction l as [|a l IH]; intros e; cbn [evolve]; [discriminate|]. unfold neuron_evolution. destruct (Qeq_bool _ 0); cbn [bind]; [intros X; injection X as <-; reflexivity|].
      destruct (evolve m o l) as [r|e'] eqn:E'; cbn [bind]; [discriminate|]. intros X. injection X as <-. auto. }
    assert (G : forall left o st e, simulate_loop m o st left = Raise e -> e = ZeroDivisionError).
    { induction left as [|left IH]; intros o st e'; cbn [simulate_loop]; [discriminate|]. unfold calculate_states. destruct (evolve m o _) as [r|e''] eqn:E'; cbn [bind]; [|intros X; injection X as <-; eapply V; eauto].
      destruct (simulate_loop m r (S st) left) as [[a b]|e2] eqn:E2; cbn [bind]; [discriminate|]. intros X. injection X as <-. eapply IH; eauto. }
    destruct (simulate_loop m output 1 (steps - 1)) as [[a b]|e2] eqn:E2; cbn [bind]; [discriminate|]. intros X. injection X as <-. eapply G; eauto.
Qed.
Print Assumptions C149_isolated.

(** exp(-x) as in floats: 0 for large arguments.  Points 0, 4000, 8000. *)
Definition case_underflow (x : Q) : Q := if Qltb 746 x then 0%Q else case_expminus x.
Example C149_isolated_case : simulate case_distance case_underflow AllToAll 1 2 [[0]; [4000]; [8000]]%Q [0; 0; 0]%Q = Raise ZeroDivisionError.
Proof. vm_compute. reflexivity. Qed.

(** "simulate works for every stimulus with more than amount_neighbors points" is false: equal points *)
Theorem C149_any_points_refuted :
  exists stimulus output, length stimulus = 4 /\ length output = 4 /\
    forall distance expminus steps, (forall x, distance x x = 0%Q) -> simulate distance expminus AllToAll 3 steps stimulus output = Raise ZeroDivisionError.
Proof.
  exists [[1]; [1]; [1]; [1]]%Q, [0; 0; 0; 0]%Q. split; [reflexivity|]. split; [reflexivity|]. intros distance expminus steps Hd.
  assert (Hm : neighbor_matrix distance [[1]; [1]; [1]; [1]]%Q = repeat (repeat 0%Q 4) 4).
  { unfold neighbor_matrix. cbn [length seq Nat.sub fold_left nth]. rewrite !Hd. vm_compute. reflexivity. }
  unfold simulate, create_weights, average_neighbor_distance. rewrite Hm. reflexivity.
Qed.
Print Assumptions C149_any_points_refuted.
