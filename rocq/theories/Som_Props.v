(** C105-C115: self-organised feature map and SOM-SC *)
From Verif Require Import Base Kmeans_Model Kmeans_Proofs Small_Model Small_Proofs Topology_Model Topology_Proofs Som_Model Som_Proofs.

(** ** C105 captured objects and awards *)
Theorem C105_train_captures_all :
  forall rows cols conn influence radius rate threshold init data epochs autostop s,
  0 < rows * cols -> data <> [] -> 1 <= epochs ->
  length (s_award s) = rows * cols -> length (s_captured s) = rows * cols ->
  exists e s', train rows cols conn influence radius rate threshold init data epochs autostop s = Ok (e, s') /\
    1 <= e <= epochs /\ (autostop = false -> e = epochs) /\ length (s_weights s') = rows * cols /\
    captured_once (rows * cols) (length data) (s_award s') (s_captured s') /\
    get_winner_number s' = length (filter nonempty (s_captured s')).
Proof.
  intros rows cols conn influence radius rate threshold init data epochs autostop s H1 H2 H3 H4 H5.
  destruct (train_spec rows cols conn influence radius rate threshold init data epochs autostop s H1 H2 H3 H4 H5)
    as [e [s' (E & B & F & G)]].
  exists e, s'. do 3 (split; auto). split; [apply G|]. split; [apply G|]. eapply winners_count; eauto.
Qed.
Print Assumptions C105_train_captures_all.

(** training again starts afresh: nothing of the earlier state is left in the result *)
Theorem C105_train_forgets :
  forall rows cols conn influence radius rate threshold init data epochs autostop s1 s2,
  length (s_award s1) = length (s_award s2) -> length (s_captured s1) = length (s_captured s2) ->
  train rows cols conn influence radius rate threshold init data epochs autostop s1 =
  train rows cols conn influence radius rate threshold init data epochs autostop s2.
Proof.
  intros rows cols conn influence radius rate threshold init data epochs autostop s1 s2 H1 H2.
  unfold train, clear_statistics. cbn [s_award s_captured]. rewrite !repeat_map_const, H1, H2. reflexivity.
Qed.
Print Assumptions C105_train_forgets.

Definition case_data : list point := [[0; 10]; [0; 4]; [0; 8]; [0; 7]; [0; 6]; [0; 6]; [0; 0]]%Q.
Definition case_influence (d r : Q) : Q := (1 # 2)%Q.
Definition case_train (epochs : nat) (autostop : bool) :=
  train 1 2 SGridFour case_influence (fun _ => (1 # 2)%Q) (fun _ => (1 # 2)%Q) (1 # 1000)%Q UniformGrid case_data epochs autostop
    (som_create 2).

Example C105_case : exists s, case_train 2 false = Ok (2, s) /\ s_captured s = [[1; 6]; [0; 2; 3; 4; 5]] /\ s_award s = [2; 5] /\
  get_winner_number s = 2.
Proof. eexists. split; [vm_compute; reflexivity|]. repeat split. Qed.

(** ** C106 the weights stay inside the box of the data *)
Theorem C106_weights_in_box :
  forall rows cols conn influence radius rate threshold init data dims epochs autostop s e s',
  0 < rows * cols -> data <> [] -> (forall p, In p data -> length p = dims) ->
  (forall e, in_unit (rate e)) -> (forall d r, (0 <= d)%Q -> (d < r)%Q -> in_unit (influence d r)) ->
  on_surface dims (rows * cols) init ->
  train rows cols conn influence radius rate threshold init data epochs autostop s = Ok (e, s') ->
  forall w, In w (s_weights s') -> length w = dims /\ forall d, d < dims -> within data d w.
Proof.
  intros rows cols conn influence radius rate threshold init data dims epochs autostop s e s' H1 H2 H3 H4 H5 H6 E w Hw.
  pose proof (train_inside rows cols conn influence radius rate threshold H4 H5 init data dims epochs autostop s e s' H1 H2 H3 H6 E) as F.
  rewrite Forall_forall in F. apply F. auto.
Qed.
Print Assumptions C106_weights_in_box.

Example C106_case : exists s, case_train 1 true = Ok (1, s) /\
  map (map Qred) (s_weights s) = [[0; 1]; [0; 13 # 2]]%Q /\ in_unit (1 # 2) /\
  (forall d r, (0 <= d)%Q -> (d < r)%Q -> in_unit (case_influence d r)) /\ on_surface 2 2 UniformGrid.
Proof.
  eexists. split; [vm_compute; reflexivity|]. split; [vm_compute; reflexivity|].
  assert (H : in_unit (1 # 2)) by (split; lra). repeat split; intros; apply H.
Qed.

(** ** C107 simulate and predict return a nearest neuron *)
Theorem C107_simulate_nearest : forall s x, s_weights s <> [] ->
  exists i, simulate s x = Ok i /\ i < length (s_weights s) /\
    forall j, j < length (s_weights s) -> (sqdist (nth i (s_weights s) []) x <= sqdist (nth j (s_weights s) []) x)%Q.
Proof. intros s x H. apply competition_ok. auto. Qed.
Print Assumptions C107_simulate_nearest.

Theorem C107_predict_nearest : forall s points, s_weights s <> [] ->
  exists labels, somsc_predict (Some s) points = Ok labels /\ length labels = length points /\
    forall k, k < length points -> nth k labels 0 < length (s_weights s) /\
      forall j, j < length (s_weights s) ->
        (sqdist (nth (nth k labels 0%nat) (s_weights s) []) (nth k points []) <= sqdist (nth j (s_weights s) []) (nth k points []))%Q.
Proof.
  intros s points H. unfold somsc_predict.
  destruct (collect_ok (map (fun x => simulate s x) points) 0) as [labels (E & L & N)].
  - intros r Hr. apply in_map_iff in Hr as [x [<- _]]. destruct (C107_simulate_nearest s x H) as [i [E _]]. eauto.
  - rewrite map_length in L, N. exists labels. split; [exact E|]. split; [exact L|]. intros k Hk. specialize (N k Hk).
    rewrite nth_indep with (d' := simulate s []) in N by (rewrite map_length; auto).
    rewrite (map_nth (simulate s)) in N.
    destruct (C107_simulate_nearest s (nth k points []) H) as [i (Ei & Hi & Hm)]. rewrite Ei in N. apply Ok_inj in N. rewrite <- N. auto.
Qed.
Print Assumptions C107_predict_nearest.

Example C107_case : somsc_predict (Some (mk_som [[0; 1]; [0; 13 # 2]]%Q [] [])) [[0; 3]; [0; 5]]%Q = Ok [0; 1].
Proof. reflexivity. Qed.

(** ** C108 is false: a training point may be captured by one neuron and be predicted for another, because the weights keep
    moving after the point has been captured *)
Theorem C108_predict_agrees_refuted :
  exists influence radius rate threshold data amount epouch s clusters labels,
    (forall e, in_unit (rate e)) /\ (forall d r, in_unit (influence d r)) /\
    somsc_process influence radius rate threshold data amount epouch = Ok s /\
    somsc_clusters (Some s) = Ok clusters /\ somsc_predict (Some s) data = Ok labels /\
    exists i, i < length data /\ ~ In i (nth (nth i labels 0) clusters []).
Proof.
  exists case_influence, (fun _ => (1 # 2)%Q), (fun _ => (1 # 2)%Q), (1 # 1000)%Q, case_data, 2%Z, 1%Z.
  do 3 eexists. split; [intros; split; lra|]. split; [intros; split; unfold case_influence; lra|].
  split; [vm_compute; reflexivity|]. split; [reflexivity|]. split; [vm_compute; reflexivity|].
  exists 1. split; [simpl; lia|]. simpl. lia.
Qed.
Print Assumptions C108_predict_agrees_refuted.

(** ** C109 distance matrix *)
Theorem C109_distance_matrix : forall conn rows cols s, 2 <= rows * cols ->
  exists m, get_distance_matrix rows cols conn s = Ok m /\ length m = rows /\
    forall i j, i < rows -> j < cols -> exists N, NoDup N /\ N <> [] /\
      (forall k, In k N <-> k < rows * cols /\
         adjacent (matrix_conn conn) (Z.of_nat cols) (Z.of_nat (i * cols + j)) (Z.of_nat k)) /\
      (nth j (nth i m []) 0 * inject_Z (Z.of_nat (length N)) ==
       qsum (map (fun k => sqdist (nth (i * cols + j) (s_weights s) []) (nth k (s_weights s) [])) N))%Q.
Proof. exact distance_matrix_spec. Qed.
Print Assumptions C109_distance_matrix.

Example C109_case : get_distance_matrix 2 2 SGridFour (mk_som [[0]; [1]; [3]; [7]]%Q [] []) = Ok [[10 # 2; 37 # 2]; [25 # 2; 52 # 2]]%Q.
Proof. reflexivity. Qed.

(** ** C110 density matrix *)
Theorem C110_density_matrix : forall rows cols divider data s D,
  0 < cols -> s_weights s <> [] -> length (s_weights s) = rows * cols ->
  (forall w, In w (s_weights s) -> length w = D) -> (forall p, In p data -> length p = D) ->
  exists m, get_density_matrix rows cols divider data s = Ok m /\ length m = rows /\ (forall i, i < rows -> length (nth i m []) = cols) /\
    exists lo hi, (forall d, d < D -> tight (s_weights s) d (lo d) (hi d)) /\
    forall i j, i < rows -> j < cols -> exists covered, nth j (nth i m []) 0 = length (filter covered data) /\
      forall p, In p data -> (covered p = true <->
        forall d, d < D -> (Qabs (coord p d - coord (nth (i * cols + j) (s_weights s) []) d) <= (hi d - lo d) / divider)%Q).
Proof. exact density_matrix_spec. Qed.
Print Assumptions C110_density_matrix.

Example C110_case : get_density_matrix 2 1 4 [[0]; [1]; [2]; [9]]%Q (mk_som [[1]; [9]]%Q [] []) = Ok [[3]; [1]].
Proof. reflexivity. Qed.

(** ** C111 is false: the map of one neuron can be trained but its distance matrix cannot be computed *)
Theorem C111_single_neuron : forall conn influence radius rate threshold init data epochs autostop s,
  data <> [] -> 1 <= epochs -> length (s_award s) = 1 -> length (s_captured s) = 1 ->
  exists e s', train 1 1 conn influence radius rate threshold init data epochs autostop s = Ok (e, s') /\
    get_distance_matrix 1 1 conn s' = Raise ZeroDivisionError.
Proof.
  intros conn influence radius rate threshold init data epochs autostop s H1 H2 H3 H4.
  destruct (C105_train_captures_all 1 1 conn influence radius rate threshold init data epochs autostop s) as [e [s' [E _]]]; auto.
  exists e, s'. split; [exact E|]. destruct conn; reflexivity.
Qed.
Print Assumptions C111_single_neuron.

Example C111_case : exists e s, train 1 1 SGridFour case_influence (fun _ => 1%Q) (fun _ => (1 # 2)%Q) 0 UniformGrid [[0; 0]; [0; 2]]%Q 2 false (som_create 1) = Ok (e, s) /\
  s_award s = [2] /\ get_distance_matrix 1 1 SGridFour s = Raise ZeroDivisionError.
Proof. do 2 eexists. split; [vm_compute; reflexivity|]. split; reflexivity. Qed.

Theorem C111_single_neuron_refuted : exists rows cols conn influence radius rate threshold init data epochs autostop e s, data <> [] /\ 1 <= epochs /\ 1 <= rows * cols /\
  train rows cols conn influence radius rate threshold init data epochs autostop (som_create (rows * cols)) = Ok (e, s) /\ get_distance_matrix rows cols conn s = Raise ZeroDivisionError.
Proof.
  destruct C111_case as (e & s & E & _ & D). exists 1, 1. do 6 eexists. exists [[0; 0]; [0; 2]]%Q, 2. do 3 eexists. split; [discriminate|]. split; [lia|]. split; [lia|]. split; [exact E|exact D].
Qed.
Print Assumptions C111_single_neuron_refuted.

(** ** C112 uniform grid *)
(** the grid is stretched over the box of the data in its first two dimensions *)
Theorem C112_grid_covers_partial : forall rows cols data dims, 2 <= rows -> 2 <= cols -> data <> [] -> (forall p, In p data -> length p = dims) ->
  exists w, create_initial_weights rows cols UniformGrid data = Ok w /\ length w = rows * cols /\
  exists lo hi, (forall d, d < dims -> tight data d (lo d) (hi d)) /\
    forall r c, r < rows -> c < cols ->
      (0 < dims -> (coord (nth (r * cols + c) w []) 0 * inject_Z (Z.of_nat (rows - 1)) ==
                    inject_Z (Z.of_nat (rows - 1 - r)) * lo 0%nat + inject_Z (Z.of_nat r) * hi 0%nat)%Q) /\
      (1 < dims -> (coord (nth (r * cols + c) w []) 1 * inject_Z (Z.of_nat (cols - 1)) ==
                    inject_Z (Z.of_nat (cols - 1 - c)) * lo 1%nat + inject_Z (Z.of_nat c) * hi 1%nat)%Q).
Proof.
  intros rows cols data dims Hr Hc Hne Hd.
  destruct (dimension_minmax_spec data dims Hne Hd) as [[lo hi] [Em (L1 & L2 & Ht)]]. cbn [fst snd] in *.
  assert (Hh : length (hd [] data) = dims) by (destruct data; [congruence|apply Hd; simpl; auto]).
  unfold create_initial_weights, dimension_width, dimension_center. rewrite Em, Hh. cbn [bind fst snd].
  eexists. split; [reflexivity|]. split; [now rewrite map_length, seq_length|].
  exists (coord lo), (coord hi). split; [auto|]. intros r c Hrr Hcc.
  assert (Hi : r * cols + c < rows * cols) by nia.
  assert (D1 : (r * cols + c) / cols = r) by (rewrite Nat.div_add_l by lia; rewrite Nat.div_small by auto; lia).
  assert (D2 : (r * cols + c) mod cols = c) by (rewrite Nat.add_comm, Nat.mod_add by lia; apply Nat.mod_small; auto).
  assert (NZ : forall n, 2 <= n -> ~ (inject_Z (Z.of_nat (n - 1)) == 0)%Q).
  { intros n Hn Hz. change 0%Q with (inject_Z 0) in Hz. apply (proj1 (inject_Z_injective _ _)) in Hz. lia. }
  assert (SUB : forall n k, k < n -> (inject_Z (Z.of_nat (n - 1 - k)) == inject_Z (Z.of_nat (n - 1)) - inject_Z (Z.of_nat k))%Q).
  { intros n k Hk. rewrite Nat2Z.inj_sub by lia. unfold Z.sub. rewrite inject_Z_plus, inject_Z_opp. reflexivity. }
  rewrite nth_map_seq0 by auto. split; intros Hdim; rewrite coord_map by auto; unfold grid_coord.
  - replace (1 <? rows) with true by (symmetry; apply Nat.ltb_lt; lia). rewrite coord_map, location_0, D1 by auto.
    rewrite SUB by auto. specialize (NZ rows Hr). revert NZ. generalize (inject_Z (Z.of_nat (rows - 1))). intros N NZ. field. auto.
  - replace (1 <? cols) with true by (symmetry; apply Nat.ltb_lt; lia). rewrite coord_map, location_1, D2 by auto.
    rewrite SUB by auto. specialize (NZ cols Hc). revert NZ. generalize (inject_Z (Z.of_nat (cols - 1))). intros N NZ. field. auto.
Qed.
Print Assumptions C112_grid_covers_partial.

Example C112_case : create_initial_weights 2 3 UniformGrid [[0; 0]; [4; 10]]%Q =
  Ok [[0; 0 # 2]; [0; 10 # 2]; [0; 20 # 2]; [4; 0 # 2]; [4; 10 # 2]; [4; 20 # 2]]%Q.
Proof. vm_compute. reflexivity. Qed.

(** the row of neurons used by SOM-SC is not spread over one-dimensional data at all: all neurons start at the same point *)
Theorem C112_grid_1d : forall amount data, data <> [] -> (forall p, In p data -> length p = 1) ->
  exists w0, create_initial_weights 1 amount UniformGrid data = Ok (repeat w0 amount).
Proof.
  intros amount data Hne Hd. destruct (dimension_minmax_spec data 1 Hne Hd) as [[lo hi] [Em _]].
  assert (Hh : length (hd [] data) = 1) by (destruct data; [congruence|apply Hd; simpl; auto]).
  unfold create_initial_weights, dimension_width, dimension_center. rewrite Em, Hh. cbn [bind fst snd].
  exists [((coord hi 0 + coord lo 0) / 2)%Q]. f_equal. rewrite Nat.mul_1_l.
  change (map (fun _ : nat => [((coord hi 0 + coord lo 0) / 2)%Q]) (seq 0 amount) = repeat [((coord hi 0 + coord lo 0) / 2)%Q] amount).
  now rewrite repeat_map_const, seq_length.
Qed.
Print Assumptions C112_grid_1d.

Example C112_1d_case : create_initial_weights 1 3 UniformGrid [[0]; [4]; [10]]%Q = Ok [[10 # 2]; [10 # 2]; [10 # 2]]%Q.
Proof. vm_compute. reflexivity. Qed.

Theorem C112_grid_1d_refuted : exists amount data w, 2 <= amount /\ (forall p, In p data -> length p = 1) /\ (exists p q, In p data /\ In q data /\ ~ peq p q) /\
  create_initial_weights 1 amount UniformGrid data = Ok w /\ forall i j, i < amount -> j < amount -> nth i w [] = nth j w [].
Proof.
  exists 3, [[0]; [4]; [10]]%Q. eexists. split; [lia|]. split; [intros p [<-|[<-|[<-|[]]]]; reflexivity|]. split; [exists [0]%Q, [4]%Q; split; [simpl; auto|]; split; [simpl; auto|]; intro H; inversion H as [|? ? ? ? H1]; discriminate H1|].
  split; [exact C112_1d_case|]. intros [|[|[|i]]] [|[|[|j]]] Hi Hj; try lia; reflexivity.
Qed.
Print Assumptions C112_grid_1d_refuted.

(** ** C113 SOM-SC clusters *)
Theorem C113_somsc_partition : forall influence radius rate threshold data amount epouch,
  data <> [] -> (1 <= amount)%Z -> (1 <= epouch)%Z ->
  exists s clusters, somsc_process influence radius rate threshold data amount epouch = Ok s /\
    somsc_clusters (Some s) = Ok clusters /\ Z.of_nat (length clusters) = amount /\ partitions (length data) clusters.
Proof.
  intros influence radius rate threshold data amount epouch Hne Ha He. unfold somsc_process, somsc_verify.
  replace (length data =? 0) with false by (destruct data; [congruence|reflexivity]).
  replace (amount <=? 0)%Z with false by (symmetry; apply Z.leb_gt; lia).
  replace (epouch <? 0)%Z with false by (symmetry; apply Z.ltb_ge; lia). cbn [bind].
  destruct (C105_train_captures_all 1 (Z.to_nat amount) SGridFour influence radius rate threshold UniformGrid data
    (Z.to_nat epouch) true (som_create (1 * Z.to_nat amount))) as [e [s' (E & _ & _ & _ & (L & P & _) & _)]];
    try lia; auto; try (cbn; apply repeat_length).
  rewrite E. cbn [bind snd]. exists s', (s_captured s'). do 2 (split; [reflexivity|]). split; [lia|exact P].
Qed.
Print Assumptions C113_somsc_partition.

Theorem C113_arguments : forall influence radius rate threshold data amount epouch,
  data = [] \/ (amount <= 0)%Z \/ (epouch < 0)%Z ->
  somsc_process influence radius rate threshold data amount epouch = Raise ValueError.
Proof.
  intros influence radius rate threshold data amount epouch H. unfold somsc_process, somsc_verify.
  destruct H as [->|[H|H]]; [reflexivity| |].
  - destruct (length data =? 0); [reflexivity|]. now rewrite (proj2 (Z.leb_le _ _) H).
  - destruct (length data =? 0); [reflexivity|]. destruct (amount <=? 0)%Z; [reflexivity|]. now rewrite (proj2 (Z.ltb_lt _ _) H).
Qed.
Print Assumptions C113_arguments.

Example C113_case : exists s, somsc_process case_influence (fun _ => (1 # 2)%Q) (fun _ => (1 # 2)%Q) (1 # 1000)%Q case_data 2 1 = Ok s /\
  somsc_clusters (Some s) = Ok [[1; 6]; [0; 2; 3; 4; 5]].
Proof. eexists. split; [vm_compute; reflexivity|reflexivity]. Qed.

(** ** C114 is false: an allocated cluster may be empty, with zero epochs (which is accepted) all of them are; and predict before
    process() raises instead of returning the documented empty collection *)
Theorem C114_zero_epochs : forall influence radius rate threshold data amount, data <> [] -> (1 <= amount)%Z ->
  exists s, somsc_process influence radius rate threshold data amount 0 = Ok s /\
    somsc_clusters (Some s) = Ok (repeat [] (Z.to_nat amount)).
Proof.
  intros influence radius rate threshold data amount Hne Ha. unfold somsc_process, somsc_verify.
  replace (length data =? 0) with false by (destruct data; [congruence|reflexivity]).
  replace (amount <=? 0)%Z with false by (symmetry; apply Z.leb_gt; lia). cbn [bind Z.ltb Z.compare].
  unfold train. destruct (create_initial_ok 1 (Z.to_nat amount) UniformGrid data Hne) as [w [E _]]. rewrite E. cbn [bind].
  change (Z.to_nat 0) with 0. cbn [train_loop bind snd]. eexists. split; [reflexivity|]. cbn [somsc_clusters s_captured clear_statistics som_create].
  rewrite repeat_map_const, repeat_length, Nat.mul_1_l. reflexivity.
Qed.
Print Assumptions C114_zero_epochs.

Example C114_case : exists s, somsc_process case_influence (fun _ => 1%Q) (fun _ => (1 # 2)%Q) 0 case_data 2 0 = Ok s /\
  somsc_clusters (Some s) = Ok [[]; []].
Proof. eexists. split; [vm_compute; reflexivity|reflexivity]. Qed.

Theorem C114_zero_epochs_refuted : exists influence radius rate threshold data amount s clusters, data <> [] /\ (1 <= amount)%Z /\
  somsc_process influence radius rate threshold data amount 0 = Ok s /\ somsc_clusters (Some s) = Ok clusters /\ ~ no_empty clusters /\ ~ partitions (length data) clusters.
Proof.
  destruct C114_case as (s & E & C). do 4 eexists. exists case_data, 2%Z. do 2 eexists. split; [discriminate|]. split; [lia|]. split; [exact E|]. split; [exact C|]. split.
  - intro H. inversion_clear H. congruence.
  - intro H. apply Permutation_length in H. discriminate.
Qed.
Print Assumptions C114_zero_epochs_refuted.

Theorem C114_empty_cluster_refuted :
  exists influence radius rate threshold data amount epouch s clusters,
    (Z.of_nat (length data) > amount)%Z /\ (1 <= epouch)%Z /\ NoDup data /\
    (forall e, in_unit (rate e)) /\ (forall d r, in_unit (influence d r)) /\
    somsc_process influence radius rate threshold data amount epouch = Ok s /\
    somsc_clusters (Some s) = Ok clusters /\ ~ no_empty clusters.
Proof.
  exists case_influence, (fun _ => (1 # 2)%Q), (fun _ => (1 # 2)%Q), (1 # 1000)%Q, [[0; 0]; [0; 1]; [0; 2]; [0; 21]; [0; 22]]%Q, 3%Z, 3%Z.
  do 2 eexists. split; [reflexivity|]. split; [lia|]. split.
  { repeat constructor; simpl; intros H; repeat destruct H as [H|H]; try discriminate; auto. }
  split; [intros; split; lra|]. split; [intros; split; unfold case_influence; lra|].
  split; [vm_compute; reflexivity|]. split; [reflexivity|].
  cbn [s_captured]. intros H. inversion_clear H as [|? ? _ H1]. inversion_clear H1 as [|? ? H2 _]. congruence.
Qed.
Print Assumptions C114_empty_cluster_refuted.

Theorem C114_predict_before_process_refuted : exists points e, points <> [] /\ somsc_predict None points = Raise e.
Proof. exists [[0%Q]], AttributeError. split; [discriminate|reflexivity]. Qed.
Print Assumptions C114_predict_before_process_refuted.

(** what holds: one cluster has all points *)
Theorem C114_one_cluster influence radius rate threshold data epouch : data <> [] -> (1 <= epouch)%Z ->
  exists s c, somsc_process influence radius rate threshold data 1 epouch = Ok s /\ somsc_clusters (Some s) = Ok [c] /\ Permutation c (seq 0 (length data)) /\ c <> [].
Proof.
  intros Hd He. destruct (C113_somsc_partition influence radius rate threshold data 1 epouch Hd) as (s & cl & E & C & L & P); [lia|exact He|].
  destruct cl as [|c [|c' cl]]; cbn [length] in L; try lia. exists s, c. unfold partitions in P. cbn [concat] in P. rewrite app_nil_r in P. repeat (split; [assumption|]).
  intros ->. apply Permutation_nil in P. destruct data; [congruence|discriminate].
Qed.
Print Assumptions C114_one_cluster.
Example C114_one_case : case_data <> [] /\ (1 <= 3)%Z.
Proof. split; [discriminate|lia]. Qed.

(** ** C115 the default radius *)
(** a fresh parameter object gives the radius of the map size and is filled with it *)
Theorem C115_default_radius_partial : forall rows cols,
  let (r, after) := radius_of_parameters None rows cols in
  after = Some r /\ ((r == 2)%Q <-> 4 < rows + cols) /\ ((r == 3 # 2)%Q <-> rows = 2 /\ cols = 2) /\ (1 <= r)%Q.
Proof.
  intros rows cols. unfold radius_of_parameters, initial_radius. split; [reflexivity|].
  destruct (Nat.ltb_spec 4 (cols + rows)) as [H|H].
  - split; [split; [lia|reflexivity]|]. split; [split; [discriminate|lia]|discriminate].
  - destruct (Nat.ltb_spec 1 cols), (Nat.ltb_spec 1 rows); cbn [andb];
      (split; [split; [discriminate|lia]|]; split; [split; [try discriminate; lia|try discriminate; try lia; reflexivity]|discriminate]).
Qed.
Print Assumptions C115_default_radius_partial.

(** but a second map built with the same object gets the radius of the first *)
Theorem C115_shared_parameters_refuted :
  exists rows1 cols1 rows2 cols2,
    let (_, parameters) := radius_of_parameters None rows1 cols1 in
    ~ (fst (radius_of_parameters parameters rows2 cols2) == fst (radius_of_parameters None rows2 cols2))%Q.
Proof. exists 1, 1, 5, 5. discriminate. Qed.
Print Assumptions C115_shared_parameters_refuted.
