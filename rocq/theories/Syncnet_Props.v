(** C119, C120, C121: the oscillatory networks over data (syncnet) and their hierarchical version (hsyncnet). *)
From Verif Require Import Base Kmeans_Model Kmeans_Proofs Topology_Model Topology_Proofs Ensembles_Model Ensembles_Proofs Cldist_Model Cldist_Proofs Syncnet_Model Syncnet_Proofs.

(** C120: two oscillators are connected exactly if their points are different positions of the data within the radius,
    in both representations, with and without weights; no neighbour is listed twice. *)
Theorem C120_connections_within_radius :
  forall distance locs radius r enable, locs <> [] ->
  exists net w, syncnet distance locs (Some radius) r enable = Ok (net, w) /\
    connects_within (pair_distance distance locs) (length locs) radius net /\
    forall i, NoDup (get_neighbors net i).
Proof.
  intros distance locs radius r enable Hne. destruct (syncnet_connects distance locs radius r enable Hne) as (net & w & E & H).
  exists net, w. split; [exact E|]. split; [exact H|]. intros i. apply neighbors_nodup.
  destruct (network_init (length locs) CDynamic r None) as [net0|e] eqn:E0; [|discriminate].
  change net with (fst (net, w)). apply (fresh_create distance locs r radius enable net0 (net, w) E0).
  rewrite syncnet_unfold, E0 in E by exact Hne. exact E.
Qed.
Print Assumptions C120_connections_within_radius.

Theorem C120_no_radius_and_no_data :
  forall distance locs r enable,
  (syncnet distance [] (Some 0%Q) r enable = Raise ValueError /\ syncnet distance [] None r enable = Raise ValueError) /\
  (locs <> [] -> exists net, syncnet distance locs None r enable = Ok (net, None) /\ forall i j, has_connection net i j = false).
Proof.
  intros distance locs r enable. split; [split; reflexivity|]. intros Hne. destruct (fresh_ok locs r) as (net & E & _ & Hf).
  exists net. split; [|exact Hf]. unfold syncnet. destruct locs as [|p t]; [contradiction Hne; reflexivity|]. rewrite E. reflexivity.
Qed.
Print Assumptions C120_no_radius_and_no_data.

Example C120_meets_hypotheses :
  let dist p q := Qabs (coord p 0 - coord q 0) in
  exists net w, syncnet dist [[0]; [1]; [3]; [10]]%Q (Some 2%Q) RList false = Ok (net, w) /\
    map (get_neighbors net) (seq 0 4) = [[1]; [0; 2]; [1]; []].
Proof. do 2 eexists. split; vm_compute; reflexivity. Qed.

(** C121: the weights are symmetric, grow with the distance and lie in [0, 1] with 0 for the closest and 1 for the farthest
    pair as soon as two distances differ. *)
Theorem C121_weights_scaled :
  forall distance locs radius r net w, (forall p q, (0 <= distance p q)%Q) -> 2 <= length locs ->
  syncnet distance locs (Some radius) r true = Ok (net, w) ->
  let n := length locs in let dist := pair_distance distance locs in
  exists W, w = Some W /\ (forall i, i < n -> get2 W i i = 0%Q) /\ (forall i j, i < n -> j < n -> get2 W i j = get2 W j i) /\
  ((exists i j k l, i < n /\ j < n /\ i <> j /\ k < n /\ l < n /\ k <> l /\ ~ (dist i j == dist k l)%Q) ->
    forall i j k l, i < n -> j < n -> i <> j -> k < n -> l < n -> k <> l ->
    (0 <= get2 W i j <= 1)%Q /\ ((dist i j <= dist k l)%Q <-> (get2 W i j <= get2 W k l)%Q) /\
    ((get2 W i j == 0)%Q <-> forall a b, a < n -> b < n -> a <> b -> (dist i j <= dist a b)%Q) /\
    ((get2 W i j == 1)%Q <-> forall a b, a < n -> b < n -> a <> b -> (dist a b <= dist i j)%Q)).
Proof.
  intros distance locs radius r net w Hd Hn E n dist.
  assert (Hne : locs <> []) by (intros ->; simpl in Hn; lia). rewrite syncnet_unfold in E by exact Hne.
  destruct (network_init (length locs) CDynamic r None) as [net0|e] eqn:E0; [|discriminate]. cbn [bind] in E.
  destruct (weights_spec distance locs Hd net0 radius net w Hn E) as (W & lo & hi & Ew & Hb & (a1 & b1 & Ha1 & Hb1 & Hab1 & Hlo) & (a2 & b2 & Ha2 & Hb2 & Hab2 & Hhi) & Hdiag & Hsym & Hval).
  exists W. split; [exact Ew|]. split; [exact Hdiag|]. split; [exact Hsym|].
  intros (i0 & j0 & k0 & l0 & Hi0 & Hj0 & Hij0 & Hk0 & Hl0 & Hkl0 & Hdiff) i j k l Hi Hj Hij Hk Hl Hkl.
  assert (Hlt : (lo < hi)%Q).
  { pose proof (Hb i0 j0 Hi0 Hj0 Hij0). pose proof (Hb k0 l0 Hk0 Hl0 Hkl0). apply Qnot_le_lt. intros Hle. apply Hdiff. unfold dist. lra. }
  assert (P : (0 < hi - lo)%Q) by lra.
  destruct (Hval i j Hi Hj Hij) as [Hv1 _]. destruct (Hval k l Hk Hl Hkl) as [Hv2 _]. specialize (Hv1 Hlt). specialize (Hv2 Hlt).
  pose proof (Hb i j Hi Hj Hij) as B1. pose proof (Hb k l Hk Hl Hkl) as B2.
  fold dist in Hv1, Hv2, B1, B2. set (x := get2 W i j) in *. set (y := get2 W k l) in *.
  assert (X : (x * (hi - lo) == dist i j - lo)%Q) by (rewrite Hv1; field; lra).
  assert (Y : (y * (hi - lo) == dist k l - lo)%Q) by (rewrite Hv2; field; lra).
  assert (C : forall a b : Q, (a <= b)%Q <-> (a * (hi - lo) <= b * (hi - lo))%Q) by (intros a b; symmetry; apply Qmult_le_r; exact P).
  split; [split; apply C; rewrite X; lra|]. split; [rewrite (C x y), X, Y; split; intros; lra|]. split.
  - split.
    + intros H a b Ha Hb' Hab. rewrite H in X. pose proof (Hb a b Ha Hb' Hab). unfold dist in *. lra.
    + intros H. specialize (H a1 b1 Ha1 Hb1 Hab1). assert (K : (x * (hi - lo) <= 0 * (hi - lo))%Q) by (rewrite X; unfold dist in *; lra). apply C in K.
      assert (K2 : (0 * (hi - lo) <= x * (hi - lo))%Q) by (rewrite X; lra). apply C in K2. lra.
  - split.
    + intros H a b Ha Hb' Hab. rewrite H in X. pose proof (Hb a b Ha Hb' Hab). unfold dist in *. lra.
    + intros H. specialize (H a2 b2 Ha2 Hb2 Hab2). assert (K : (1 * (hi - lo) <= x * (hi - lo))%Q) by (rewrite X; unfold dist in *; lra). apply C in K.
      assert (K2 : (x * (hi - lo) <= 1 * (hi - lo))%Q) by (rewrite X; lra). apply C in K2. lra.
Qed.
Print Assumptions C121_weights_scaled.

(** C121: if all distances are equal the weight is the distance itself and can exceed 1. *)
Theorem C121_equal_distances_refuted :
  exists distance locs net W, (forall p q, (0 <= distance p q)%Q) /\
    syncnet distance locs (Some 6%Q) RMatrix true = Ok (net, Some W) /\ has_connection net 0 1 = true /\ (get2 W 0 1 == 5)%Q.
Proof.
  exists (fun p q => Qabs (coord p 0 - coord q 0)), [[0]; [5]]%Q. do 2 eexists. split; [intros; apply Qabs_nonneg|].
  split; [vm_compute; reflexivity|]. split; vm_compute; reflexivity.
Qed.
Print Assumptions C121_equal_distances_refuted.

(** C121: the closest pair, connected, gets no coupling at all. *)
Theorem C121_closest_not_coupled_refuted :
  exists distance locs net W, (forall p q, (0 <= distance p q)%Q) /\
    syncnet distance locs (Some 2%Q) RMatrix true = Ok (net, Some W) /\
    get_neighbors net 0 = [1] /\ get_neighbors net 1 = [0] /\ (get2 W 0 1 == 0)%Q.
Proof.
  exists (fun p q => Qabs (coord p 0 - coord q 0)), [[0]; [1]; [9]]%Q. do 2 eexists. split; [intros; apply Qabs_nonneg|].
  split; [vm_compute; reflexivity|]. split; [|split]; vm_compute; reflexivity.
Qed.
Print Assumptions C121_closest_not_coupled_refuted.

Example C121_meets_hypotheses :
  let dist p q := Qabs (coord p 0 - coord q 0) in
  exists net W, syncnet dist [[0]; [1]; [3]]%Q (Some 2%Q) RMatrix true = Ok (net, Some W) /\
    (get2 W 0 1 == 0)%Q /\ (get2 W 1 2 == 1 # 2)%Q /\ (get2 W 0 2 == 1)%Q.
Proof. do 2 eexists. split; [vm_compute; reflexivity|]. vm_compute. auto. Qed.

(** C119: hsyncnet, whatever the simulation does with the phases.  The radii never shrink, at every level the connections are
    exactly the pairs within the radius, the run stops at the first level with at most [number] ensembles, and the returned
    analyser gives these ensembles, a partition of the data, again. *)
Theorem C119_hsyncnet :
  forall distance locs simulate period fuel collect number neighbors increase phases,
  let n := length locs in
  (forall p q, (0 <= distance p q)%Q) ->
  (forall net ph, length ph = n -> simulate net ph <> [] /\ forall st, In st (simulate net ph) -> length st = n) ->
  2 <= n -> 1 <= neighbors -> (0 <= increase)%Q -> length phases = n ->
  match hsyncnet distance locs simulate period fuel collect number neighbors increase phases with
  | Raise e => e = OutOfFuel
  | Ok r =>
    exists iters fin, h_trace r = iters ++ [fin] /\
      average_neighbor_distance distance locs (Nat.min neighbors (n - 1)) = Ok (it_radius (hd fin iters)) /\
      StronglySorted (fun a b => (it_radius a <= it_radius b)%Q) (h_trace r) /\
      Forall (fun e => connects_within (pair_distance distance locs) n (it_radius e) (it_net e)) (h_trace r) /\
      Forall (fun e => number < length (it_clusters e)) iters /\
      length (it_clusters fin) <= number /\ partitions n (it_clusters fin) /\
      sync_ensembles period (dyn_phase r) (1 # 20) None None = Ok (it_clusters fin) /\
      length (dyn_phase r) = (if collect then S (length (h_trace r)) else 1) /\ dyn_time r = seq 0 (length (dyn_phase r))
  end.
Proof.
  intros distance locs simulate period fuel collect number neighbors increase phases n Hd Hs Hn Hk Hp Hph. unfold hsyncnet. fold n.
  set (k := if n <=? neighbors then n - 1 else neighbors).
  assert (Ek : k = Nat.min neighbors (n - 1)) by (unfold k; destruct (Nat.leb_spec n neighbors); lia).
  assert (Hk2 : 1 <= k < n) by lia.
  assert (Hne : locs <> []) by (intros Hl; unfold n in Hn; rewrite Hl in Hn; simpl in Hn; lia).
  destruct (syncnet_connects distance locs 0 RMatrix false Hne) as (net & w & E & Hw).
  rewrite E. cbn [bind fst]. rewrite <- Ek.
  destruct (average_total distance locs k ltac:(lia) ltac:(fold n; lia)) as (radius & Er & _). rewrite Er. cbn [bind].
  pose proof (neighbor_nonneg distance locs k radius Hd Er) as Hr.
  assert (Hok : dyn_ok locs net).
  { destruct (fresh_ok locs RMatrix) as (net0 & E0 & H0 & _). destruct (create_connections_net distance locs false 0 net0 H0) as (net1 & w1 & E1 & H1 & _).
    rewrite syncnet_unfold, E0 in E by exact Hne. cbn [bind] in E. rewrite E in E1. apply Ok_inj in E1. injection E1 as <- <-. exact H1. }
  pose proof (hloop_spec distance locs simulate period Hd Hs Hn collect increase number (increase_step locs increase) Hp fuel net phases k radius ([], []) []) as H.
  specialize (H Hok Hph). match type of H with ?A -> _ => assert (Ha : A) end.
  { intros i j Hi Hj Hc. apply (proj1 (proj2 Hw i j Hi Hj)) in Hc. destruct Hc as [H1 H2]. split; auto. eapply Qle_trans; [exact H2|exact Hr]. }
  specialize (H Ha). match type of H with ?A -> _ => assert (Hb : A) by (split; [lia|]; split; [exact Hr|intros _; exact Er]) end.
  specialize (H Hb). match type of H with ?A -> _ => assert (Hc : A) by (split; [intros ? []|]; split; [reflexivity|]; destruct collect; reflexivity) end.
  specialize (H Hc (SSorted_nil _) ltac:(intros ? [])).
  destruct (hloop distance locs simulate period fuel collect increase number (increase_step locs increase) net phases k radius ([], []) []) as [r|e] eqn:Eh; [|exact H].
  destruct H as (iters & fin & R1 & R2 & R3 & R4 & R5 & R6 & R7 & R8 & R9). cbn [rev app] in R1. exists iters, fin.
  split; [exact R1|]. split.
  - f_equal. symmetry.
    (* the first iteration uses the initial radius *)
    destruct fuel as [|fuel]; [discriminate|]. cbn [hloop] in Eh.
    destruct (create_connections_net distance locs false radius net Hok) as (net1 & w1 & E1 & Hn1 & _). rewrite E1 in Eh. cbn [bind fst] in Eh.
    destruct (sync_ensembles period (simulate net1 phases) (1 # 20) None None) as [gs|e]; cbn [bind] in Eh; [|discriminate].
    destruct (calculate_radius distance locs increase (k + increase_step locs increase) radius) as [radius1|e]; cbn [bind] in Eh; [|discriminate].
    assert (G : forall fuel net ph nb rad dyn trace r, hloop distance locs simulate period fuel collect increase number (increase_step locs increase) net ph nb rad dyn trace = Ok r ->
       exists rest, h_trace r = rev trace ++ rest).
    { clear. induction fuel as [|fuel IH]; intros net ph nb rad dyn trace r E; cbn [hloop] in E; [discriminate|].
      destruct (create_connections distance locs false net rad) as [nw|e]; cbn [bind] in E; [|discriminate].
      destruct (sync_ensembles period (simulate (fst nw) ph) (1 # 20) None None) as [gs|e]; cbn [bind] in E; [|discriminate].
      destruct (calculate_radius distance locs increase (nb + increase_step locs increase) rad) as [rad1|e]; cbn [bind] in E; [|discriminate].
      destruct (number <? length gs).
      - apply IH in E as [rest E]. cbn [rev] in E. rewrite <- app_assoc in E. eauto.
      - apply Ok_inj in E. subst r. cbn [h_trace rev]. eauto. }
    assert (exists rest, h_trace r = [mkIter radius net1 gs] ++ rest) as [rest Erest].
    { destruct (number <? length gs); [apply G in Eh; exact Eh|]. apply Ok_inj in Eh. subst r. exists []. reflexivity. }
    rewrite R1 in Erest. destruct iters as [|x xs]; cbn [app hd] in *; injection Erest as -> _; reflexivity.
  - split; [exact R2|]. split; [rewrite R1; exact R3|]. auto 10.
Qed.
Print Assumptions C119_hsyncnet.

(** C119: one point is an error although the constructor accepts it. *)
Theorem C119_single_point_refuted :
  exists locs, length locs = 1 /\ (exists nw, syncnet (fun _ _ => 0%Q) locs (Some 0%Q) RMatrix false = Ok nw) /\
   forall simulate period fuel collect number neighbors increase phases,
   hsyncnet (fun _ _ => 0%Q) locs simulate period fuel collect number (S neighbors) increase phases = Raise ZeroDivisionError.
Proof.
  exists [[1%Q]]. split; [reflexivity|]. split; [eexists; vm_compute; reflexivity|]. intros. reflexivity.
Qed.
Print Assumptions C119_single_point_refuted.

(** C119: with [number_clusters] = 0 the run never ends. *)
Theorem C119_zero_clusters_never_end :
  forall distance locs simulate period fuel collect neighbors increase phases,
  let n := length locs in
  (forall p q, (0 <= distance p q)%Q) ->
  (forall net ph, length ph = n -> simulate net ph <> [] /\ forall st, In st (simulate net ph) -> length st = n) ->
  2 <= n -> 1 <= neighbors -> (0 <= increase)%Q -> length phases = n ->
  hsyncnet distance locs simulate period fuel collect 0 neighbors increase phases = Raise OutOfFuel.
Proof.
  intros distance locs simulate period fuel collect neighbors increase phases n Hd Hs Hn Hk Hp Hph.
  pose proof (C119_hsyncnet distance locs simulate period fuel collect 0 neighbors increase phases Hd Hs Hn Hk Hp Hph) as H.
  destruct (hsyncnet distance locs simulate period fuel collect 0 neighbors increase phases) as [r|e]; [|now subst e].
  exfalso. destruct H as (iters & fin & _ & _ & _ & _ & _ & H1 & H2 & _). destruct (it_clusters fin) as [|g gs]; [|simpl in H1; lia].
  unfold partitions in H2. simpl in H2. apply Permutation_length in H2. rewrite seq_length in H2. simpl in H2. lia.
Qed.
Print Assumptions C119_zero_clusters_never_end.

(** a simulation that makes connected oscillators equal at once *)
Definition instant (net : network) (ph : list Q) : list (list Q) :=
  [ph; map (fun i => fold_left (fun a j => if Qltb (nth j ph 0%Q) a then nth j ph 0%Q else a) (get_neighbors net i) (nth i ph 0%Q)) (seq 0 (length ph))].

Example C119_meets_hypotheses :
  let dist p q := Qabs (coord p 0 - coord q 0) in
  (forall net ph, length ph = 4 -> instant net ph <> [] /\ forall st, In st (instant net ph) -> length st = 4) /\
  exists r, hsyncnet dist [[0]; [1]; [4]; [5]]%Q instant 6 10 true 1 1 (1 # 5) [0; 1; 2; 3]%Q = Ok r /\
    map it_clusters (h_trace r) = [[[0; 1]; [2; 3]]; [[0; 1]; [2; 3]]; [[0; 1; 2]; [3]]; [[0; 1; 2; 3]]] /\
    Forall2 Qeq (map it_radius (h_trace r)) [1; 9 # 4; 3; 18 # 5]%Q /\ length (dyn_phase r) = 5.
Proof.
  cbv zeta. split.
  - intros net ph H. split; [discriminate|]. intros st [<-|[<-|[]]]; auto. rewrite map_length, seq_length. auto.
  - eexists. split; [vm_compute; reflexivity|]. split; [vm_compute; reflexivity|]. split; [vm_compute; repeat constructor|vm_compute; reflexivity].
Qed.

Theorem C119_zero_clusters_refuted :
  exists distance locs simulate phases, (forall p q, (0 <= distance p q)%Q) /\ 2 <= length locs /\ length phases = length locs /\
   (forall net ph, length ph = length locs -> simulate net ph <> [] /\ forall st, In st (simulate net ph) -> length st = length locs) /\
   forall fuel, hsyncnet distance locs simulate 6 fuel false 0 3 (3 # 20) phases = Raise OutOfFuel.
Proof.
  exists (fun p q => Qabs (coord p 0 - coord q 0)), [[0]; [1]; [4]; [5]]%Q, instant, [0; 1; 2; 3]%Q.
  assert (Hs : forall net ph, length ph = 4 -> instant net ph <> [] /\ forall st, In st (instant net ph) -> length st = 4).
  { intros net ph H. split; [discriminate|]. intros st [<-|[<-|[]]]; auto. rewrite map_length, seq_length. auto. }
  split; [intros; apply Qabs_nonneg|]. split; [simpl; lia|]. split; [reflexivity|]. split; [exact Hs|].
  intros fuel. apply C119_zero_clusters_never_end; auto; try (simpl; lia); try (intros; apply Qabs_nonneg). vm_compute; discriminate.
Qed.
Print Assumptions C119_zero_clusters_refuted.
