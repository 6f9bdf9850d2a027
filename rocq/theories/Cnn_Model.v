(** Model of the chaotic neural network nnet/cnn.py.  Numbers are exact rationals. *)
From Verif Require Import Base Kmeans_Model Cldist_Model Syncnet_Model.

(** cnn.py:28-40 type_conn; Delaunay carries the triangles found by scipy.spatial *)
Inductive cnn_conn := AllToAll | Delaunay (triangles : list (list nat)).

Section Network.
(** euclidean_distance and the function [math.exp(-x)] as computed in floats *)
Variable distance : point -> point -> Q.
Variable expminus : Q -> Q.

(** cnn.py:385-386 and 407-411: the pairs of neurons in the order in which they are connected *)
Definition edges (conn : cnn_conn) (n : nat) : list (nat * nat) :=
  match conn with
  | AllToAll => pairs n
  | Delaunay triangles =>
      flat_map (fun triangle => map (fun ij => (nth (fst ij) triangle 0, nth (snd ij) triangle 0)) (pairs (length triangle))) triangles
  end.

(** cnn.py:422-434 __calculate_weight *)
Definition calculate_weight (average : Q) (x y : point) : res Q :=
  if Qeq_bool average 0 then Raise ZeroDivisionError else Ok (expminus (sqdist x y / (2 * average))).

(** cnn.py:387-393 and 413-419 for the pair [i], [j] with the weight [w] *)
Definition connect (m : list (list Q) * list Q) (i j : nat) (w : Q) : list (list Q) * list Q :=
  let weights := set2 (set2 (fst m) i j w) j i w in
  let summary := upd (snd m) i (nth i (snd m) 0 + w)%Q in
  (weights, upd summary j (nth j summary 0 + w)%Q).

(** for [create_weights], cnn.py:357-419 *)
Fixpoint connect_all (average : Q) (stimulus : list point) (l : list (nat * nat)) (m : list (list Q) * list Q) : res (list (list Q) * list Q) :=
  match l with
  | [] => Ok m
  | (i, j) :: t =>
      do w <- calculate_weight average (nth i stimulus []) (nth j stimulus []);
      connect_all average stimulus t (connect m i j w)
  end.

(** cnn.py:357-419 __create_weights; as many points as neurons *)
Definition create_weights (conn : cnn_conn) (amount_neighbors : nat) (stimulus : list point) : res (list (list Q) * list Q) :=
  let n := length stimulus in
  do average <- average_neighbor_distance distance stimulus amount_neighbors;
  connect_all average stimulus (edges conn n) (repeat (repeat 0%Q n) n, repeat 0%Q n).

(** cnn.py:340-354 __neuron_evolution *)
Definition neuron_evolution (m : list (list Q) * list Q) (output : list Q) (index : nat) : res Q :=
  let value := fold_left (fun acc j => (acc + nth j (nth index (fst m) []) 0 * (1 - 2 * (nth j output 0 * nth j output 0)))%Q) (seq 0 (length output)) 0%Q in
  if Qeq_bool (nth index (snd m) 0%Q) 0 then Raise ZeroDivisionError else Ok (value / nth index (snd m) 0)%Q.

(** for [calculate_states], cnn.py:323-337 *)
Fixpoint evolve (m : list (list Q) * list Q) (output : list Q) (l : list nat) : res (list Q) :=
  match l with
  | [] => Ok []
  | i :: t => do v <- neuron_evolution m output i; do rest <- evolve m output t; Ok (v :: rest)
  end.

(** cnn.py:323-337 __calculate_states *)
Definition calculate_states (m : list (list Q) * list Q) (output : list Q) : res (list Q) := evolve m output (seq 0 (length output)).

(** cnn.py:314-318: the outputs that are appended; [left] steps from [step] on *)
Fixpoint simulate_loop (m : list (list Q) * list Q) (output : list Q) (step left : nat) : res (list (list Q) * list nat) :=
  match left with
  | 0 => Ok ([], [])
  | S k => do o <- calculate_states m output; do r <- simulate_loop m o (S step) k; Ok (o :: fst r, step :: snd r)
  end.

(** cnn.py:294-320 simulate from the outputs [output] (drawn by random.random() in the constructor, cnn.py:283, or left by the
    previous simulation): output and time of the dynamic; the number of neurons is the number of points *)
Definition simulate (conn : cnn_conn) (amount_neighbors steps : nat) (stimulus : list point) (output : list Q) : res (list (list Q) * list nat) :=
  do m <- create_weights conn amount_neighbors stimulus;
  do r <- simulate_loop m output 1 (steps - 1);
  Ok (output :: fst r, 0 :: snd r).
End Network.

(** utils/__init__.py:526-539 heaviside *)
Definition heaviside (v : Q) : nat := if Qltb 0 v then 1 else 0.

(** cnn.py:75-93 allocate_observation_matrix ([self.output[0]] raises for an empty dynamic) *)
Definition observation_matrix (output : list (list Q)) : res (list (list nat)) :=
  match output with
  | [] => Raise IndexError
  | o :: _ => Ok (map (fun row => map (fun i => heaviside (nth i row 0%Q)) (seq 0 (length o))) output)
  end.

(** cnn.py:96-113 __allocate_neuron_patterns, the pattern of one neuron *)
Definition neuron_pattern (output : list (list Q)) (start stop i : nat) : list nat :=
  map (fun t => heaviside (nth i (nth t output []) 0%Q)) (seq start (stop - start)).

(** for [join], cnn.py:146-155 *)
Definition list_eqb (a b : list nat) : bool := if list_eq_dec Nat.eq_dec a b then true else false.

(** cnn.py:146-155: the neuron joins the first ensemble whose first neuron has the same pattern *)
Fixpoint join (pattern : nat -> list nat) (i : nat) (ensembles : list (list nat)) : list (list nat) :=
  match ensembles with
  | [] => [[i]]
  | e :: t => if list_eqb (pattern i) (pattern (hd 0 e)) then (e ++ [i]) :: t else e :: join pattern i t
  end.

(** cnn.py:116-157 allocate_sync_ensembles for [steps] >= 0 *)
Definition allocate_sync_ensembles (output : list (list Q)) (steps : nat) : res (list (list nat)) :=
  match output with
  | [] => Raise IndexError
  | o :: _ =>
      let iterations := if length output <=? steps then length output else steps in
      let pattern := neuron_pattern output (length output - iterations) (length output) in
      Ok (fold_left (fun es i => join pattern i es) (seq 1 (length o - 1)) [[0]])
  end.
