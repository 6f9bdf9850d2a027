(** C124, C125: the two-layer network syncsom. *)
From Verif Require Import Base Kmeans_Model Kmeans_Proofs Small_Model Small_Proofs Topology_Model Topology_Proofs Ensembles_Model Ensembles_Proofs Cldist_Model Cldist_Proofs
  Som_Model Som_Proofs Syncnet_Model Syncnet_Proofs Syncsom_Model Syncsom_Proofs.

(** C124: whatever the training parameters and the simulation are, the clusters partition the objects, objects captured by one
    neuron stay together; the neurons of the SOM clusters are the neurons that captured something, each once; two oscillators
    are connected exactly if their weights coincide or some of their objects are within the radius. *)
Theorem C124_syncsom :
  forall distance influence som_radius som_rate threshold simulate initial_phases period rows cols data radius s,
  sane_simulation simulate -> (forall m, length (initial_phases m) = m) -> 0 < rows * cols -> data <> [] ->
  length (s_award s) = rows * cols -> length (s_captured s) = rows * cols ->
  exists y, syncsom_process distance influence som_radius som_rate threshold simulate initial_phases rows cols data radius s = Ok y /\
    let captured i := nth i (s_captured (y_som y)) [] in
    (forall eps, exists gs, get_clusters period y eps = Ok gs /\ partitions (length data) gs /\ no_empty gs /\
       forall i, i < rows * cols -> captured i <> [] -> exists g, In g gs /\ incl (captured i) g) /\
    (exists ns, get_som_clusters period y = Ok ns /\ no_empty ns /\ NoDup (concat ns) /\
       forall i, In i (concat ns) <-> i < rows * cols /\ captured i <> []).
Proof.
  intros distance influence sr sl threshold simulate phases period rows cols data radius s H1 H2 H3 H4 H5 H6.
  destruct (process_spec distance influence sr sl threshold simulate phases H1 H2 rows cols data radius s H3 H4 H5 H6) as (y & E & (_ & G & _) & T & Tn & _ & O1 & O2).
  exists y. split; [exact E|]. cbv zeta. split.
  - intros eps. eapply clusters_spec; eauto.
  - destruct (som_clusters_spec period y _ _ G T Tn O1 O2) as (ns & E1 & E2 & E3 & E4 & _). exists ns. auto.
Qed.
Print Assumptions C124_syncsom.

Theorem C124_oscillator_connections :
  forall distance influence som_radius som_rate threshold simulate initial_phases rows cols data radius s,
  sane_simulation simulate -> (forall m, length (initial_phases m) = m) -> 0 < rows * cols -> data <> [] ->
  length (s_award s) = rows * cols -> length (s_captured s) = rows * cols ->
  exists y, syncsom_process distance influence som_radius som_rate threshold simulate initial_phases rows cols data radius s = Ok y /\
    let m := length (y_table y) in
    let captured a := nth (nth a (y_table y) 0) (s_captured (y_som y)) [] in
    let weights := map (fun i => nth i (s_weights (y_som y)) []) (y_table y) in
    n_osc (y_net y) = m /\
    forall a b, a < m -> b < m ->
      (has_connection (y_net y) a b = true <->
       a <> b /\ ((pair_distance distance weights a b <= 0)%Q \/ objects_meet data radius (captured a) (captured b))).
Proof.
  intros distance influence sr sl threshold simulate phases rows cols data radius s H1 H2 H3 H4 H5 H6.
  destruct (process_spec distance influence sr sl threshold simulate phases H1 H2 rows cols data radius s H3 H4 H5 H6) as (y & E & _ & T & Tn & C & _).
  exists y. split; [exact E|]. exact C.
Qed.
Print Assumptions C124_oscillator_connections.

Definition w124 : list point := [[0; 0]; [10; 10]; [1; 1]; [9; 9]]%Q.
(** the simulation records the given phases only *)
Definition still (net : network) (ph : list Q) : list (list Q) := [ph].
Definition p124 (m : nat) : list Q := map (fun k => (inject_Z (Z.of_nat k) * (1 # 20))%Q) (seq 0 m).
Definition run124 (radius : Q) := syncsom_process sqdist (fun _ _ => 1%Q) (fun _ => 1%Q) (fun _ => 0%Q) 0%Q still p124 2 2 w124 radius (som_create 4).

Lemma still_sane : sane_simulation still.
Proof. intros net ph H. split; [discriminate|]. intros st [<-|[]]. auto. Qed.
Lemma p124_length m : length (p124 m) = m.
Proof. unfold p124. now rewrite map_length, seq_length. Qed.

Example C124_meets_hypotheses :
  sane_simulation still /\ (forall m, length (p124 m) = m) /\
  exists y, run124 2 = Ok y /\ y_table y = [0; 3] /\ s_captured (y_som y) = [[0; 2]; []; []; [1; 3]] /\ has_connection (y_net y) 0 1 = false /\
    get_clusters 6 y (1 # 100) = Ok [[0; 2]; [1; 3]].
Proof.
  split; [exact still_sane|]. split; [exact p124_length|]. eexists. split; [vm_compute; reflexivity|]. repeat split; vm_compute; reflexivity.
Qed.

(** C125: for the tolerance 0.01 the clusters are the objects of the SOM clusters … *)
Theorem C125_same_tolerance_partial :
  forall distance influence som_radius som_rate threshold simulate initial_phases period rows cols data radius s,
  sane_simulation simulate -> (forall m, length (initial_phases m) = m) -> 0 < rows * cols -> data <> [] ->
  length (s_award s) = rows * cols -> length (s_captured s) = rows * cols ->
  exists y ns, syncsom_process distance influence som_radius som_rate threshold simulate initial_phases rows cols data radius s = Ok y /\
    get_som_clusters period y = Ok ns /\
    get_clusters period y (1 # 100) = Ok (map (flat_map (fun i => nth i (s_captured (y_som y)) [])) ns).
Proof.
  intros distance influence sr sl threshold simulate phases period rows cols data radius s H1 H2 H3 H4 H5 H6.
  destruct (process_spec distance influence sr sl threshold simulate phases H1 H2 rows cols data radius s H3 H4 H5 H6) as (y & E & (_ & G & _) & T & Tn & _ & O1 & O2).
  destruct (som_clusters_spec period y _ _ G T Tn O1 O2) as (ns & E1 & _ & _ & _ & E2). exists y, ns. auto.
Qed.
Print Assumptions C125_same_tolerance_partial.

(** … but with the default arguments, 0.1 here and 0.01 there, they are not. *)
Theorem C125_default_tolerances_refuted :
  exists distance influence som_radius som_rate threshold simulate initial_phases period rows cols data radius s y ns gs,
  sane_simulation simulate /\ (forall m, length (initial_phases m) = m) /\
  syncsom_process distance influence som_radius som_rate threshold simulate initial_phases rows cols data radius s = Ok y /\
  get_som_clusters period y = Ok ns /\ get_clusters period y (1 # 10) = Ok gs /\ length ns = 2 /\ length gs = 1.
Proof.
  exists sqdist, (fun _ _ => 1%Q), (fun _ => 1%Q), (fun _ => 0%Q), 0%Q, still, p124, 6%Q, 2, 2, w124, 2%Q, (som_create 4).
  do 3 eexists. split; [exact still_sane|]. split; [exact p124_length|]. split; [vm_compute; reflexivity|]. repeat split; vm_compute; reflexivity.
Qed.
Print Assumptions C125_default_tolerances_refuted.
