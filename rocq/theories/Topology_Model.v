(** Models of the connection builders: nnet/som.py [_create_connections] and nnet/__init__.py [network]. *)
From Verif Require Import Base.

(** * nnet/som.py:27-45 type_conn *)
Inductive som_conn := SGridFour | SGridEight | SHoneycomb | SFuncNeighbor.

(** list made of the elements whose guard holds, in order; for [som_neighbors], som.py:452-520 *)
Definition guarded (l : list (bool * Z)) : list Z := map snd (filter fst l).

(** som.py:452-520, the body of the loop: what is appended to [self._neighbors[index]];
    [math.floor(a / b)] is integer division here *)
Definition som_neighbors (conn : som_conn) (rows cols : Z) (index : Z) : list Z :=
  let size := (rows * cols)%Z in
  let upper_index := (index - cols)%Z in
  let upper_left_index := (index - cols - 1)%Z in
  let upper_right_index := (index - cols + 1)%Z in
  let lower_index := (index + cols)%Z in
  let lower_left_index := (index + cols - 1)%Z in
  let lower_right_index := (index + cols + 1)%Z in
  let left_index := (index - 1)%Z in
  let right_index := (index + 1)%Z in
  let node_row_index := (index / cols)%Z in
  let upper_row_index := (node_row_index - 1)%Z in
  let lower_row_index := (node_row_index + 1)%Z in
  let vertical := [((0 <=? upper_index)%Z, upper_index); ((lower_index <? size)%Z, lower_index)] in
  let horizontal :=
    [((0 <=? left_index)%Z && (left_index / cols =? node_row_index)%Z, left_index);
     ((right_index <? size)%Z && (right_index / cols =? node_row_index)%Z, right_index)] in
  let diagonal ul ur ll lr :=
    [((0 <=? ul)%Z && (ul / cols =? upper_row_index)%Z, ul);
     ((0 <=? ur)%Z && (ur / cols =? upper_row_index)%Z, ur);
     ((ll <? size)%Z && (ll / cols =? lower_row_index)%Z, ll);
     ((lr <? size)%Z && (lr / cols =? lower_row_index)%Z, lr)] in
  match conn with
  | SGridFour => guarded (vertical ++ horizontal)
  | SGridEight => guarded (vertical ++ horizontal ++
                           diagonal upper_left_index upper_right_index lower_left_index lower_right_index)
  | SHoneycomb =>
    guarded (horizontal ++
      (if (node_row_index mod 2 =? 0)%Z
       then diagonal (index - cols)%Z (index - cols + 1)%Z (index + cols)%Z (index + cols + 1)%Z
       else diagonal (index - cols - 1)%Z (index - cols)%Z (index + cols - 1)%Z (index + cols)%Z))
  | SFuncNeighbor => []
  end.

(** som.py:442-520 [_create_connections] *)
Definition som_create_connections (conn : som_conn) (rows cols : nat) : list (list Z) :=
  map (fun i => som_neighbors conn (Z.of_nat rows) (Z.of_nat cols) (Z.of_nat i)) (seq 0 (rows * cols)).

(** * nnet/__init__.py:44-66 conn_type *)
Inductive conn_type := CNone | CAllToAll | CGridFour | CGridEight | CListBidir | CDynamic.
(** for [no_connections], __init__.py:207-210 *)
Inductive conn_represent := RList | RMatrix.

(** [_osc_conn]; matrix entries are only used as truth values ([True]/[False]/[0]); for [create_connection], __init__.py:176-180 *)
Inductive conns := CMatrix (m : list (list bool)) | CList (l : list (list nat)).

(** __init__.py:176-180 [__create_connection] *)
Definition create_connection (c : conns) (i j : nat) : conns :=
  match c with
  | CMatrix m => CMatrix (upd m i (upd (nth i m []) j true))
  | CList l => CList (upd l i (nth i l [] ++ [j]))
  end.

(** no connection: __init__.py:207-210, 295-316 *)
Definition no_connections (r : conn_represent) (n : nat) : conns :=
  match r with
  | RMatrix => CMatrix (repeat (repeat false n) n)
  | RList => CList (repeat [] n)
  end.

(** [math.ceil(a / b)]; for [grid_four_targets], __init__.py:214-231 *)
Definition ceil_div (a b : Z) : Z := (- ((- a) / b))%Z.

(** __init__.py:214-231: connections created for [index] by [__create_grid_four_connections] *)
Definition grid_four_targets (n side : Z) (index : Z) : list Z :=
  let upper_index := (index - side)%Z in
  let lower_index := (index + side)%Z in
  let left_index := (index - 1)%Z in
  let right_index := (index + 1)%Z in
  let node_row_index := ceil_div index side in
  guarded [((0 <=? upper_index)%Z, upper_index); ((lower_index <? n)%Z, lower_index);
           ((0 <=? left_index)%Z && (ceil_div left_index side =? node_row_index)%Z, left_index);
           ((right_index <? n)%Z && (ceil_div right_index side =? node_row_index)%Z, right_index)].

(** __init__.py:244-265: the additional connections of [__create_grid_eight_connections] *)
Definition grid_eight_targets (n side : Z) (index : Z) : list Z :=
  let ul := (index - side - 1)%Z in
  let ur := (index - side + 1)%Z in
  let ll := (index + side - 1)%Z in
  let lr := (index + side + 1)%Z in
  let node_row_index := (index / side)%Z in
  let upper_row_index := (node_row_index - 1)%Z in
  let lower_row_index := (node_row_index + 1)%Z in
  guarded [((0 <=? ul)%Z && (ul / side =? upper_row_index)%Z, ul);
           ((0 <=? ur)%Z && (ur / side =? upper_row_index)%Z, ur);
           ((ll <? n)%Z && (ll / side =? lower_row_index)%Z, ll);
           ((lr <? n)%Z && (lr / side =? lower_row_index)%Z, lr)].

(** the loop [for index in range(0, self._num_osc, 1)] over a function giving the targets; for [create_structure], __init__.py:183-316 *)
Definition connect_all (n : nat) (targets : nat -> list nat) (c : conns) : conns :=
  fold_left (fun c i => fold_left (fun c j => create_connection c i j) (targets i) c) (seq 0 n) c.

(** for [create_structure], __init__.py:183-316 *)
Definition to_nats (l : list Z) : list nat := map Z.to_nat l.

(** __init__.py:183-316, 319-348 [_create_structure]; [width] is used by the grids only.
    The appends of line 275-292 and 189-196 build row [index] at iteration [index]. *)
Definition create_structure (t : conn_type) (r : conn_represent) (n width : nat) : conns :=
  let four := fun i => to_nats (grid_four_targets (Z.of_nat n) (Z.of_nat width) (Z.of_nat i)) in
  let eight := fun i => to_nats (grid_eight_targets (Z.of_nat n) (Z.of_nat width) (Z.of_nat i)) in
  match t with
  | CNone | CDynamic => no_connections r n
  | CAllToAll =>
    match r with
    | RMatrix => CMatrix (map (fun i => upd (repeat true n) i false) (seq 0 n))
    | RList => CList (map (fun i => filter (fun j => negb (i =? j)) (seq 0 n)) (seq 0 n))
    end
  | CGridFour => connect_all n four (no_connections r n)
  | CGridEight => connect_all n eight (connect_all n four (no_connections r n))
  | CListBidir =>
    match r with
    | RMatrix => CMatrix (map (fun i =>
        let row := upd (repeat false n) i false in
        let row := if 0 <? i then upd row (i - 1) true else row in
        if i <? n - 1 then upd row (i + 1) true else row) (seq 0 n))
    | RList => CList (map (fun i =>
        (if 0 <? i then [i - 1] else []) ++ (if i <? n - 1 then [i + 1] else [])) (seq 0 n))
    end
  end.

(** for [network_init], __init__.py:129-165 *)
Record network := mkNet { n_osc : nat; n_type : conn_type; n_conn : conns; n_height : nat; n_width : nat }.

(** for [network_init], __init__.py:129-165 *)
Definition is_grid (t : conn_type) : bool := match t with CGridFour | CGridEight => true | _ => false end.

(** __init__.py:129-165 [network.__init__]; [num_osc ** 0.5] is taken to be exact on squares *)
Definition network_init (n : nat) (t : conn_type) (r : conn_represent) (size : option (nat * nat)) : res network :=
  if is_grid t then
    match size with
    | Some (h, w) => if h * w =? n then Ok (mkNet n t (create_structure t r n w) h w) else Raise NameError
    | None => let s := Nat.sqrt n in
              if s * s =? n then Ok (mkNet n t (create_structure t r n s) s s) else Raise NameError
    end
  else Ok (mkNet n t (create_structure t r n 0) 0 0).

(** __init__.py:351-369 [has_connection] (indices in range) *)
Definition has_connection (net : network) (i j : nat) : bool :=
  match n_conn net with
  | CMatrix m => nth j (nth i m []) false
  | CList l => existsb (fun k => k =? j) (nth i l [])
  end.

(** __init__.py:372-391 [set_connection] (indices in range) *)
Definition set_connection (net : network) (i j : nat) : res network :=
  match n_type net with
  | CDynamic => Ok (mkNet (n_osc net) (n_type net) (create_connection (create_connection (n_conn net) i j) j i)
                          (n_height net) (n_width net))
  | _ => Raise NameError
  end.

(** any history of calls of [set_connection] (__init__.py:372-391), as made by the loops of the derived networks *)
Fixpoint set_connections (net : network) (l : list (nat * nat)) : res network :=
  match l with [] => Ok net | (i, j) :: t => do net <- set_connection net i j; set_connections net t end.

(** __init__.py:394-409 [get_neighbors] *)
Definition get_neighbors (net : network) (i : nat) : list nat :=
  match n_conn net with
  | CMatrix m => filter (fun j => nth j (nth i m []) false) (seq 0 (n_osc net))
  | CList l => nth i l []
  end.
