(** Model of the training of the self-organised feature map, nnet/som.py, and of SOM-SC, cluster/somsc.py
    (python implementation).  Numbers are exact rationals. *)
From Verif Require Import Base Kmeans_Model Small_Model Topology_Model.

(** what the network keeps between calls: [_weights], [_award], [_capture_objects]; for [som_create], som.py:270-277 *)
Record som_state := mk_som { s_weights : list point; s_award : list nat; s_captured : list (list nat) }.

(** som.py:270-277 (in __init__): the state of a network of [size] neurons: weights [[0.0]], no awards, nothing captured *)
Definition som_create (size : nat) : som_state :=
  mk_som (repeat [0%Q] size) (repeat 0 size) (repeat [] size).

(** som.py:346-362 __initialize_locations, neuron [index] *)
Definition location (cols index : nat) : point :=
  [inject_Z (Z.of_nat (index / cols)); inject_Z (Z.of_nat (index mod cols))].

(** som.py:364-381 __initialize_distances; the table is kept as a function, the name is [_sqrt_distances] but the
    values are squared distances *)
Definition loc_distance (cols i j : nat) : Q := sqdist (location cols i) (location cols j).

(** som.py:325-345 __initialize_initial_radius *)
Definition initial_radius (rows cols : nat) : Q :=
  if (4 <? cols + rows) then 2%Q else if (1 <? cols) && (1 <? rows) then (3 # 2)%Q else 1%Q.

(** som.py:260-261 (in __init__): the radius the network works with and the value left in the caller's parameter object,
    [init] being its [init_radius] *)
Definition radius_of_parameters (init : option Q) (rows cols : nat) : Q * option Q :=
  match init with
  | Some r => (r, Some r)
  | None => (initial_radius rows cols, Some (initial_radius rows cols))
  end.

(** som.py:407-425, one coordinate of one neuron of the uniform grid; [lo], [width], [center] describe the box of the data *)
Definition grid_coord (rows cols : nat) (lo width center : point) (index dim : nat) : Q :=
  match dim with
  | 0 => if 1 <? rows
         then (coord lo 0 + coord width 0 / inject_Z (Z.of_nat (rows - 1)) * coord (location cols index) 0)%Q
         else coord center 0
  | 1 => if 1 <? cols
         then (coord lo 1 + coord width 1 / inject_Z (Z.of_nat (cols - 1)) * coord (location cols index) 1)%Q
         else coord center 1
  | _ => coord center dim
  end.

(** som.py:48-63 type_init; the random ways carry the random numbers that will be drawn, one list per neuron:
    for [RandomSurface] the position between the corners as a share, for the others the value of random.random() *)
Inductive som_init :=
| UniformGrid
| RandomSurface (draws : list point)
| RandomCentroid (draws : list point)
| Random (draws : list point).

(** som.py:383-440 _create_initial_weights *)
Definition create_initial_weights (rows cols : nat) (init : som_init) (data : list point) : res (list point) :=
  do mm <- dimension_minmax data;
  do width <- dimension_width data;
  do center <- dimension_center data;
  let dims := seq 0 (length (hd [] data)) in
  let draw draws i d := coord (nth i draws []) d in
  Ok (map (fun i => map (fun d =>
        match init with
        | UniformGrid => grid_coord rows cols (fst mm) width center i d
        | RandomSurface draws => (coord (fst mm) d + (coord (snd mm) d - coord (fst mm) d) * draw draws i d)%Q
        | RandomCentroid draws => (draw draws i d + coord center d)%Q
        | Random draws => draw draws i d
        end) dims) (seq 0 (rows * cols))).

(** som.py:522-541 _competition ([self._weights[0]] raises for a network without neurons) *)
Definition competition (weights : list point) (x : point) : res nat :=
  match weights with
  | [] => Raise IndexError
  | _ => Ok (argmin (map (fun w => sqdist w x) weights))
  end.

(** som.py:561-564, 567-568, 575-578: the loop over [range(dimension)] *)
Definition move (dimension : nat) (k : Q) (w x : point) : point :=
  map (fun i => (coord w i + k * (coord x i - coord w i))%Q) (seq 0 dimension).

Section Training.
Variables (rows cols : nat) (conn : som_conn).
(** [math.exp(-(distance / (2.0 * radius)))], som.py:559, 573 *)
Variable influence : Q -> Q -> Q.

(** som.py:543-578 _adaptation *)
Definition adaptation (radius rate : Q) (index : nat) (x : point) (weights : list point) : list point :=
  let dimension := length (hd [] weights) in
  let attract ws j :=
    let distance := loc_distance cols index j in
    if Qltb distance radius
    then upd ws j (move dimension (rate * influence distance radius) (nth j ws []) x)
    else ws in
  match conn with
  | SFuncNeighbor => fold_left attract (seq 0 (rows * cols)) weights
  | _ =>
      fold_left attract (map Z.to_nat (nth index (som_create_connections conn rows cols) []))
        (upd weights index (move dimension rate (nth index weights []) x))
  end.

(** som.py:619-629, the pass over the data of one epoch; [record] is the condition of line 627 *)
Fixpoint epoch_pass (radius rate : Q) (record : bool) (data : list point) (i : nat) (s : som_state) : res som_state :=
  match data with
  | [] => Ok s
  | x :: t =>
      do index <- competition (s_weights s) x;
      let weights := adaptation radius rate index x (s_weights s) in
      epoch_pass radius rate record t (S i)
        (if record
         then mk_som weights (upd (s_award s) index (S (nth index (s_award s) 0))) (push (s_captured s) index i)
         else mk_som weights (s_award s) (s_captured s))
  end.

(** som.py:660-683 _get_maximal_adaptation *)
Definition maximal_adaptation (dimension : nat) (previous weights : list point) : Q :=
  fold_left (fun m v => if Qltb m v then v else m)
    (flat_map (fun n => map (fun d => Qabs (coord (nth n previous []) d - coord (nth n weights []) d)) (seq 0 dimension))
              (seq 0 (rows * cols))) 0%Q.

(** som.py:599-601, 614-617 *)
Definition clear_statistics (s : som_state) : som_state :=
  mk_som (s_weights s) (map (fun _ => 0) (s_award s)) (map (fun _ => []) (s_captured s)).

(** som.py:610-611: the values of the radius and of the rate in an epoch *)
Variables (radius rate : nat -> Q).
Variable threshold : Q.

(** som.py:608-640, epochs [epoch], …, [epochs], [left] of them *)
Fixpoint train_loop (autostop : bool) (data : list point) (epochs epoch left : nat) (previous : option (list point))
    (s : som_state) : res (nat * som_state) :=
  match left with
  | 0 => Ok (epochs, s)
  | S left' =>
      let s := if autostop then clear_statistics s else s in
      do s <- epoch_pass (radius epoch) (rate epoch) (autostop || (epoch =? epochs)) data 0 s;
      let continue := train_loop autostop data epochs (S epoch) left' (Some (s_weights s)) s in
      match autostop, previous with
      | true, Some w =>
          if Qltb (maximal_adaptation (length (hd [] data)) w (s_weights s)) threshold then Ok (epoch, s) else continue
      | _, _ => continue
      end
  end.

(** som.py:580-640 train *)
Definition train (init : som_init) (data : list point) (epochs : nat) (autostop : bool) (s : som_state)
    : res (nat * som_state) :=
  let s := clear_statistics s in
  do weights <- create_initial_weights rows cols init data;
  train_loop autostop data epochs 1 epochs None (mk_som weights (s_award s) (s_captured s)).

End Training.

(** som.py:642-658 simulate *)
Definition simulate (s : som_state) (x : point) : res nat := competition (s_weights s) x.

(** som.py:685-701 get_winner_number *)
Definition get_winner_number (s : som_state) : nat :=
  fold_left (fun n a => if 0 <? a then S n else n) (s_award s) 0.

(** som.py:743-747, one entry of the distance matrix; division of a float by the number of neighbours *)
Definition distance_entry (weights : list point) (neighbors : list nat) (index : nat) : res Q :=
  let total := sumQ (map (fun j => sqdist (nth index weights []) (nth j weights [])) neighbors) in
  match neighbors with
  | [] => Raise ZeroDivisionError
  | _ => Ok (total / inject_Z (Z.of_nat (length neighbors)))%Q
  end.

(** the first exception stops the loops; for [get_distance_matrix], som.py:717-749 *)
Fixpoint collect {A : Type} (l : list (res A)) : res (list A) :=
  match l with
  | [] => Ok []
  | r :: t => do a <- r; do rest <- collect t; Ok (a :: rest)
  end.

(** som.py:717-749 get_distance_matrix *)
Definition get_distance_matrix (rows cols : nat) (conn : som_conn) (s : som_state) : res (list (list Q)) :=
  let conn := match conn with SFuncNeighbor => SGridEight | _ => conn end in
  collect (map (fun i => collect (map (fun j =>
    let index := i * cols + j in
    distance_entry (s_weights s) (map Z.to_nat (nth index (som_create_connections conn rows cols) [])) index)
    (seq 0 cols))) (seq 0 rows)).

(** som.py:785-794: largest and smallest coordinate; the fold starts from the first weight instead of infinities
    (the comparison of the first weight with itself changes nothing) *)
Definition weights_extent (weights : list point) (d : nat) : Q * Q :=
  let col := map (fun w => coord w d) weights in
  (fold_left (fun m v => if Qltb v m then v else m) col (hd 0%Q col),
   fold_left (fun m v => if Qltb m v then v else m) col (hd 0%Q col)).

(** som.py:803-808, the loop with [break] *)
Fixpoint point_covered (p w radius : list Q) : bool :=
  match p, w, radius with
  | a :: p', b :: w', r :: radius' => if Qltb r (Qabs (a - b)) then false else point_covered p' w' radius'
  | _, _, _ => true
  end.

(** som.py:767-816 get_density_matrix; neuron [row * cols + col] is counted in entry [row][col].  A zero divider raises
    ZeroDivisionError in python and is excluded in the theorems. *)
Definition get_density_matrix (rows cols : nat) (divider : Q) (data : list point) (s : som_state) : res (list (list nat)) :=
  match s_weights s with
  | [] => Raise IndexError
  | w0 :: _ =>
      let radius := map (fun d => let e := weights_extent (s_weights s) d in ((snd e - fst e) / divider)%Q)
                        (seq 0 (length w0)) in
      Ok (fold_left (fun m p =>
            fold_left (fun m index =>
              let row := index / cols in
              let col := index - row * cols in
              if point_covered p (nth index (s_weights s) []) radius
              then upd m row (upd (nth row m []) col (S (nth col (nth row m []) 0)))
              else m) (seq 0 (rows * cols)) m)
          data (repeat (repeat 0 cols) rows))
  end.

(** * cluster/somsc.py *)

(** somsc.py:145-159 __verify_arguments *)
Definition somsc_verify (data : list point) (amount epouch : Z) : res unit :=
  if length data =? 0 then Raise ValueError
  else if (amount <=? 0)%Z then Raise ValueError
  else if (epouch <? 0)%Z then Raise ValueError
  else Ok tt.

Section Somsc.
Variable influence : Q -> Q -> Q.
Variables (radius rate : nat -> Q).
Variable threshold : Q.

(** somsc.py:54-99: constructor followed by process(): the trained 1 x amount network *)
Definition somsc_process (data : list point) (amount epouch : Z) : res som_state :=
  do _ <- somsc_verify data amount epouch;
  do r <- train 1 (Z.to_nat amount) SGridFour influence radius rate threshold UniformGrid data (Z.to_nat epouch) true
                (som_create (1 * Z.to_nat amount));
  Ok (snd r).
End Somsc.

(** somsc.py:102-118 predict; [network] is None before process() *)
Definition somsc_predict (network : option som_state) (points : list point) : res (list nat) :=
  collect (map (fun x => match network with None => Raise AttributeError | Some s => simulate s x end) points).

(** somsc.py:121-129 get_clusters *)
Definition somsc_clusters (network : option som_state) : res (list (list nat)) :=
  match network with None => Raise AttributeError | Some s => Ok (s_captured s) end.
