(** Model of the two-layer network cluster/syncsom.py.  Numbers are exact rationals. *)
From Verif Require Import Base Kmeans_Model Small_Model Topology_Model Ensembles_Model Cldist_Model Som_Model Syncnet_Model.

(** what process() leaves: [_som], [_som_osc_table], the network [_sync], and the output of [_analyser]; for [syncsom_process], syncsom.py:96-125 *)
Record syncsom_state := mkSyncsom { y_som : som_state; y_table : list nat; y_net : network; y_out : list (list Q) }.

Section Syncsom.
(** euclidean_distance as computed in floats (used by syncnet) *)
Variable distance : point -> point -> Q.
(** the parameters of the training, as in Som_Model.v *)
Variable influence : Q -> Q -> Q.
Variables (som_radius som_rate : nat -> Q) (threshold : Q).
(** [simulate_dynamic(...).output] for a network and its phases *)
Variable simulate : network -> list Q -> list (list Q).
(** the random initial phases of a network of the given size *)
Variable initial_phases : nat -> list Q.
(** 2 * pi *)
Variable period : Q.

(** syncsom.py:114-119: the numbers of the neurons with awards *)
Definition osc_table (size : nat) (award : list nat) : list nat := filter (fun i => 0 <? nth i award 0) (seq 0 size).

(** syncsom.py:147-166 __has_object_connection; [radius2] is the squared radius (line 84) *)
Definition has_object_connection (data : list point) (radius2 : Q) (captured : list (list nat)) (table : list nat) (a b : nat) : bool :=
  existsb (fun x => existsb (fun y => Qle_bool (sqdist (nth x data []) (nth y data [])) radius2) (nth (nth b table 0) captured []))
          (nth (nth a table 0) captured []).

(** syncsom.py:128-144 __create_sync_layer *)
Definition create_sync_layer (data : list point) (radius2 : Q) (captured : list (list nat)) (table : list nat) (weights : list point) : res network :=
  do nw <- syncnet distance weights (Some 0%Q) RMatrix false;
  set_connections (fst nw) (filter (fun ab => has_object_connection data radius2 captured table (fst ab) (snd ab)) (pairs (length weights))).

(** syncsom.py:96-125 process, on a network whose map is in state [s] ([som_create] after the constructor, lines 72-93) *)
Definition syncsom_process (rows cols : nat) (data : list point) (radius : Q) (s : som_state) : res syncsom_state :=
  do r <- train rows cols SGridFour influence som_radius som_rate threshold UniformGrid data 100 false s;
  let s := snd r in
  let table := osc_table (rows * cols) (s_award s) in
  let weights := map (fun i => nth i (s_weights s) []) table in
  do net <- create_sync_layer data (radius * radius)%Q (s_captured s) table weights;
  Ok (mkSyncsom s table net (simulate net (initial_phases (length weights)))).

(** syncsom.py:169-192 get_som_clusters; allocate_clusters() uses its default eps = 0.01 (syncnet.py:59) *)
Definition get_som_clusters (y : syncsom_state) : res (list (list nat)) :=
  do gs <- sync_ensembles period (y_out y) (1 # 100) None None;
  Ok (map (map (fun k => nth k (y_table y) 0)) gs).

(** syncsom.py:195-220 get_clusters; the default is eps = 0.1 *)
Definition get_clusters (y : syncsom_state) (eps : Q) : res (list (list nat)) :=
  do gs <- sync_ensembles period (y_out y) eps None None;
  Ok (map (flat_map (fun k => nth (nth k (y_table y) 0) (s_captured (y_som y)) [])) gs).
End Syncsom.
