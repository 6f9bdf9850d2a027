(** nnet/sync.py, cluster/syncnet.py, cluster/hsyncnet.py, nnet/pcnn.py, nnet/legion.py: networks that live in the C++ library.  The library's network is given by its
    size and its connections; what the library reports of them is a matrix of numbers. *)
From Coq Require Import Reals.
From Verif Require Import Base Topology_Model Order_Model Netpic_Model Codec_Model Wrapper_Model.
Open Scope nat_scope.

(** the cells of a matrix of connections: python's booleans (nnet/__init__.py:176-316) or the numbers that the library sends
    (ccore/src/interface/sync_interface.cpp:65-85, extracted by core/sync_wrapper.py:62-71) *)
Inductive cell := CBool (b : bool) | CNumber (q : Q).
(** [x is True]: the object True itself; nnet/sync.py:82, cluster/syncnet.py:369 *)
Definition is_true (c : cell) : bool := match c with CBool b => b | CNumber _ => false end.
(** [x == True]: 1.0 == True holds; nnet/__init__.py:407, nnet/sync.py:835 *)
Definition eq_true (c : cell) : bool := match c with CBool b => b | CNumber q => Qeq_bool q 1 end.

(** a network in the library: nnet/sync.py:736-739 and the like; ccore/src/interface/sync_interface.cpp:65-85 *)
Record remote := mkRemote { r_size : nat; r_conn : nat -> nat -> bool }.
(** ccore/src/interface/sync_interface.cpp:65-85, core/sync_wrapper.py:62-71 *)
Definition sync_connectivity_matrix (r : remote) : list (list cell) :=
  map (fun i => map (fun j => CNumber (if r_conn r i j then 1 else 0)) (seq 0 (r_size r))) (seq 0 (r_size r)).

(** the attributes of an object whose network is in the library; those that no constructor assigns have the value of the class:
    nnet/__init__.py:89-96; [o_height], [o_width], [o_structure]: the properties of nnet/__init__.py:99-126; [o_locs]: _osc_loc, if assigned *)
Record object := mkObj { o_remote : remote; o_num : nat; o_matrix : option (list (list cell)); o_height : nat; o_width : nat; o_structure : option conn_type;
                         o_locs : option (list point) }.
(** nnet/sync.py:734-739 *)
Definition sync_by_library (r : remote) : object := mkObj r (r_size r) None 0 0 None None.
(** cluster/syncnet.py:200-210 *)
Definition syncnet_by_library (r : remote) (sample : list point) : object := mkObj r (length sample) None 0 0 None (Some sample).
(** cluster/hsyncnet.py:68-76: the constructor of syncnet is not called *)
Definition hsyncnet_by_library (r : remote) : object := mkObj r 0 None 0 0 None None.

(** nnet/__init__.py:168-173 *)
Definition len (o : object) : nat := o_num o.
(** nnet/sync.py:1036-1037, 1051-1052: the matrix is asked for once *)
Definition with_matrix (o : object) : object :=
  match o_matrix o with
  | Some _ => o
  | None => mkObj (o_remote o) (o_num o) (Some (sync_connectivity_matrix (o_remote o))) (o_height o) (o_width o) (o_structure o) (o_locs o)
  end.
(** self._osc_conn[i][j]; nnet/__init__.py:360 *)
Definition lookup (o : object) (i j : nat) : res cell :=
  match o_matrix o with
  | None => Raise TypeError
  | Some m => match nth_error m i with None => Raise IndexError | Some row => match nth_error row j with None => Raise IndexError | Some c => Ok c end end
  end.
(** nnet/sync.py:1042-1054, nnet/__init__.py:351-360: _conn_represent is MATRIX for sync and syncnet *)
Definition connection (o : object) (i j : nat) : object * res cell := let o' := with_matrix o in (o', lookup o' i j).
(** nnet/__init__.py:407: the comparison of the row with True; [js] is what is left of range(self._num_osc) *)
Fixpoint neighbors_from (o : object) (i : nat) (js : list nat) : res (list nat) :=
  match js with [] => Ok [] | j :: t => do c <- lookup o i j; do rest <- neighbors_from o i t; Ok (if eq_true c then j :: rest else rest) end.
(** nnet/sync.py:1026-1039, nnet/__init__.py:394-409 *)
Definition neighbors (o : object) (i : nat) : object * res (list nat) := let o' := with_matrix o in (o', neighbors_from o' i (seq 0 (o_num o))).

(** nnet/sync.py:80-84 with the connections of such an object; the lookups are in range (C256_value) *)
Definition is_connected (o : object) (i j : nat) : bool := match snd (connection o i j) with Ok c => is_true c | Raise _ => false end.
(** nnet/sync.py:63-89 order_estimator.calculate_local_sync_order(phases, network) *)
Definition local_order (phases : list R) (o : object) : R := calculate_local_sync_order phases (len o) (is_connected o).
(** cluster/syncnet.py:338-390 show_network; AttributeError: _osc_loc is not assigned *)
Definition show (o : object) : res (list mark) :=
  match o_locs o with
  | None => Raise AttributeError
  | Some locs => do d <- dimension_of locs; draw d locs (fun i => filter (is_connected o i) (seq i (o_num o - i))) (seq 0 (o_num o))
  end.

(** ** outputs that live in the library *)
(** nnet/sync.py:200-203: ensemble[index] = indexes[ensemble[index]] for every member of every ensemble *)
Definition renamed (indexes : list nat) (ensemble : list nat) : res (list nat) :=
  mapM (fun i => match nth_error indexes i with Some k => Ok k | None => Raise IndexError end) ensemble.
(** nnet/sync.py:196-205 sync_dynamic.allocate_sync_ensembles with a pointer; core/sync_wrapper.py:85-98.  [size]: what sync_dynamic_get_size
    says; [lib]: the ensembles of the library for a state *)
Definition library_ensembles (lib : carg -> list (list nat)) (size : Z) (indexes : option (list nat)) (iteration : option Z) : res (list (list nat)) :=
  let ensembles := lib (iteration_arg iteration size) in
  match indexes with None => Ok ensembles | Some ix => mapM (renamed ix) ensembles end.
