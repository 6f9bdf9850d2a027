(** A self-organised feature map as an object: what its pictures show, what a
    pickled map remembers and which of the lists handed out by its properties
    are its own; pyclustering/nnet/som.py (python implementation).  Numbers are
    exact rationals; matplotlib is the list of the things it is told to draw. *)
From Verif Require Import Base Small_Model Topology_Model Som_Model.

(** * The object *)

(** An attribute of a python object may have never been assigned. for [som], som.py:239-284 *)
Inductive attr (A : Type) : Type := Missing | Set_ (a : A).
Arguments Missing {A}.
Arguments Set_ {A} a.

(** som.py:239-284: the attributes used by the methods below; [_data] is None
    until the map is trained, [_neighbors] is None for func_neighbor;
    [_sqrt_distances], [_local_radius], [_learn_rate] and [_params] are used by
    training alone, which sets or reads them before anything else, and are
    left out. *)
Record som := mk_obj {
  o_rows : nat;
  o_cols : nat;
  o_conn : som_conn;
  o_neighbors : option (list (list Z));
  o_location : list point;
  o_data : attr (option (list point));
  o_state : som_state }.

(** som.py:346-362 __initialize_locations. *)
Definition initialize_locations (rows cols : nat) : list point := map (location cols) (seq 0 (rows * cols)).

(** som.py:227-284 __init__ (without ccore). *)
Definition new_som (rows cols : nat) (conn : som_conn) : som :=
  mk_obj rows cols conn
    (match conn with SFuncNeighbor => None | _ => Some (som_create_connections conn rows cols) end)
    (initialize_locations rows cols) (Set_ None) (som_create (rows * cols)).

(** som.py:948-961 __get_dump_from_python: the entries of the dictionary that
    belong to the attributes above. *)
Record dump := mk_dump {
  d_cols : nat; d_rows : nat; d_size : nat; d_conn : som_conn; d_neighbors : option (list (list Z));
  d_location : list point; d_weights : list point; d_award : list nat; d_captured : list (list nat) }.

(** som.py:305-314 __getstate__. *)
Definition getstate (o : som) : dump :=
  mk_dump (o_cols o) (o_rows o) (o_rows o * o_cols o) (o_conn o) (o_neighbors o) (o_location o)
    (s_weights (o_state o)) (s_award (o_state o)) (s_captured (o_state o)).

(** som.py:316-324, 969-991 __setstate__, __upload_common_part and
    __upload_dump_to_python, on an object without attributes. *)
Definition setstate (d : dump) : som :=
  mk_obj (d_rows d) (d_cols d) (d_conn d) (Some (som_create_connections (d_conn d) (d_rows d) (d_cols d)))
    (initialize_locations (d_rows d) (d_cols d)) Missing (mk_som (d_weights d) (d_award d) (d_captured d)).

(** What the user calls. for [invoke], som.py:165-225 *)
Inductive call :=
| Weights | Awards | Captured | Simulate (x : point) | WinnerNumber | DistanceMatrix
| DensityMatrix (divider : Q)
| Train (init : som_init) (data : list point) (epochs : nat) (autostop : bool).

(** What they get. for [invoke], som.py:165-225 *)
Inductive answer :=
| APoints (l : list point) | ANumbers (l : list nat) | ALists (l : list (list nat)) | ANumber (n : nat)
| AMatrix (m : list (list Q)) | ACounts (m : list (list nat)) | AError (e : exn).

(** for [invoke], som.py:165-225 *)
Definition answer_of {A : Type} (f : A -> answer) (r : res A) : answer :=
  match r with Ok a => f a | Raise e => AError e end.

(** The connection lists are always those made by [_create_connections]
    (constructor, __setstate__ and get_distance_matrix); using other lists
    is not modelled and stands as an AssertionError, which som.py never
    raises; without them the loops over neighbours fail ([None] cannot be subscripted). *)
Definition own_connections (o : som) : res unit :=
  match o_conn o with
  | SFuncNeighbor => Ok tt
  | _ => match o_neighbors o with
         | Some ns => if list_eq_dec (list_eq_dec Z.eq_dec) ns (som_create_connections (o_conn o) (o_rows o) (o_cols o))
                      then Ok tt else Raise AssertionError
         | None => Raise TypeError
         end
  end.

Section Calls.
Variable influence : Q -> Q -> Q.
(** the values of the radius and of the rate in an epoch of a training of so many epochs, som.py:610-611 *)
Variables (radius rate : nat -> nat -> Q).
Variable threshold : Q.

(** som.py:165-225, 580-640, 642-658, 685-701, 717-749, 767-816: one call: the
    answer and the object afterwards.  A training
    fails, if at all, in [_create_initial_weights] (som.py:604), with the
    statistics already cleared. *)
Definition invoke (c : call) (o : som) : answer * som :=
  match c with
  | Weights => (APoints (s_weights (o_state o)), o)
  | Awards => (ANumbers (s_award (o_state o)), o)
  | Captured => (ALists (s_captured (o_state o)), o)
  | Simulate x => (answer_of ANumber (simulate (o_state o) x), o)
  | WinnerNumber => (ANumber (get_winner_number (o_state o)), o)
  | DistanceMatrix =>
      (answer_of AMatrix (do _ <- own_connections o; get_distance_matrix (o_rows o) (o_cols o) (o_conn o) (o_state o)),
       match o_conn o with
       | SFuncNeighbor =>
           mk_obj (o_rows o) (o_cols o) (o_conn o) (Some (som_create_connections SGridEight (o_rows o) (o_cols o)))
             (o_location o) (o_data o) (o_state o)
       | _ => o
       end)
  | DensityMatrix divider =>
      (match o_data o with
       | Missing => AError AttributeError
       | Set_ None => AError TypeError
       | Set_ (Some data) => answer_of ACounts (get_density_matrix (o_rows o) (o_cols o) divider data (o_state o))
       end, o)
  | Train init data epochs autostop =>
      let o1 := mk_obj (o_rows o) (o_cols o) (o_conn o) (o_neighbors o) (o_location o) (Set_ (Some data))
                  (clear_statistics (o_state o)) in
      match (do _ <- own_connections o;
             train (o_rows o) (o_cols o) (o_conn o) influence (radius epochs) (rate epochs) threshold init data epochs autostop
               (o_state o)) with
      | Ok (n, s) =>
          (ANumber n, mk_obj (o_rows o) (o_cols o) (o_conn o) (o_neighbors o) (o_location o) (Set_ (Some data)) s)
      | Raise e => (AError e, o1)
      end
  end.

(** A series of calls: all answers and the object afterwards. a program calling the methods of nnet/som.py:205-225 and 580-930 *)
Fixpoint invoke_all (cs : list call) (o : som) : list answer * som :=
  match cs with
  | [] => ([], o)
  | c :: rest =>
      let (a, o') := invoke c o in
      let (l, o'') := invoke_all rest o' in (a :: l, o'')
  end.

(** * The lists behind the properties *)

(** som.py:271-277: the lists of weights, of awards and of captured objects are
    python objects; here they have addresses.  The weights are one object with
    their rows, as are the captured objects: both are replaced or changed as a
    whole in what follows. *)
Inductive content := CPoints (l : list point) | CNumbers (l : list nat) | CLists (l : list (list nat)).
(** with [content], som.py:271-277 *)
Record shared := mk_shared {
  h_heap : nat -> option content;
  h_next : nat;                   (* the first free address *)
  h_weights : nat; h_award : nat; h_captured : nat }.

(** the state read through the addresses; for [train_shared], som.py:580-640 *)
Definition read (h : shared) : option som_state :=
  match h_heap h (h_weights h), h_heap h (h_award h), h_heap h (h_captured h) with
  | Some (CPoints w), Some (CNumbers a), Some (CLists c) => Some (mk_som w a c)
  | _, _, _ => None
  end.

(** for [share], som.py:227-284 *)
Definition put (f : nat -> option content) (a : nat) (c : content) : nat -> option content :=
  fun b => if b =? a then Some c else f b.

(** som.py:227-284: a new map. *)
Definition share (size : nat) : shared :=
  let s := som_create size in
  mk_shared (put (put (put (fun _ => None) 0 (CPoints (s_weights s))) 1 (CNumbers (s_award s))) 2 (CLists (s_captured s)))
    3 0 1 2.

(** som.py:580-640: [_award] and the lists of [_capture_objects] are changed in
    place (L600-601, L616-617, L628-629); [_create_initial_weights] makes a new
    list of weights (L409, L429, L435, L440), which is then changed in place
    (L562, L568, L576). *)
Definition train_shared (rows cols : nat) (conn : som_conn) (init : som_init) (data : list point) (epochs : nat) (autostop : bool)
    (h : shared) : res shared :=
  match read h with
  | None => Raise AssertionError
  | Some s =>
      do r <- train rows cols conn influence (radius epochs) (rate epochs) threshold init data epochs autostop s;
      let s' := snd r in
      Ok (mk_shared
            (put (put (put (h_heap h) (h_next h) (CPoints (s_weights s'))) (h_award h) (CNumbers (s_award s')))
                 (h_captured h) (CLists (s_captured s')))
            (S (h_next h)) (h_next h) (h_award h) (h_captured h))
  end.

End Calls.

(** * Pictures *)

(** The text of a label is a number; colours by their letters. for [neuron_labels], som.py:899-908 *)
Inductive colour := Green | Yellow | Blue | Black.
(** for [neuron_labels], som.py:899-908 *)
Inductive drawn :=
| Mark (at_ : point) (c : colour)
| Label (at_ : point) (text : nat) (c : colour)
| Line (from to : point) (c : colour).

(** where a point of a space of so many dimensions is drawn (som.py:882, 885,
    888, 897, 911, 932) *)
Definition place (dimension : nat) (p : point) : point :=
  match dimension with
  | 1 => [coord p 0; 0%Q]
  | 2 => [coord p 0; coord p 1]
  | _ => [coord p 0; coord p 1; coord p 2]
  end.

Section Network.
Variables (awards belongs coupling dataset : bool).

(** som.py:899-908, 913-922: the labels of neuron [index], the same text in one
    and in two dimensions, none in three. *)
Definition neuron_labels (dimension : nat) (data : option (list point)) (s : som_state) (index : nat) : list drawn :=
  let w := place dimension (nth index (s_weights s) []) in
  if 3 <=? dimension then []
  else (if awards then [Label w (nth index (s_award s) 0) Black] else []) ++
       match data with
       | Some points =>
           if belongs
           then Label w index Black ::
                map (fun k => Label (place dimension (nth k points [])) index Blue) (nth index (s_captured s) [])
           else []
       | None => []
       end.

(** som.py:924-929, 935-941: the connections of neuron [index]; in one
    dimension none is drawn. *)
Definition neuron_lines (dimension : nat) (o : som) (index : nat) : list drawn :=
  let ws := s_weights (o_state o) in
  if dimension =? 1 then []
  else match o_conn o with
       | SFuncNeighbor => []
       | _ => if coupling
              then map (fun j => Line (place dimension (nth index ws [])) (place dimension (nth (Z.to_nat j) ws [])) Green)
                     (filter (fun j => (Z.of_nat index <? j)%Z)
                        (match o_neighbors o with Some ns => nth index ns [] | None => [] end))
              else []
       end.

(** som.py:891-897, 911, 932: neuron [index]. *)
Definition neuron_mark (dimension : nat) (s : som_state) (index : nat) : drawn :=
  Mark (place dimension (nth index (s_weights s) [])) (if nth index (s_award s) 0 =? 0 then Yellow else Green).

(** som.py:847-946 show_network: everything that is drawn; the
    NotImplementedError of L877 is a RuntimeError. *)
Definition show_network (o : som) : res (list drawn) :=
  match s_weights (o_state o) with
  | [] => Raise IndexError
  | w0 :: _ =>
      let dimension := length w0 in
      if (1 <=? dimension) && (dimension <=? 3) then
        match o_data o with
        | Missing => Raise AttributeError
        | Set_ data =>
            Ok ((match data with
                 | Some points => if dataset then map (fun x => Mark (place dimension x) Blue) points else []
                 | None => []
                 end) ++
                flat_map (fun index =>
                  neuron_mark dimension (o_state o) index ::
                  neuron_labels dimension data (o_state o) index ++ neuron_lines dimension o index)
                  (seq 0 (o_rows o * o_cols o)))
        end
      else Raise RuntimeError
  end.
End Network.

(** The picture of [imshow]: the square around the place (x, y) shows element
    [y][x] of the matrix (documentation of matplotlib, origin 'upper'); the
    texts with their places. for [show_winner_matrix], som.py:818-845 *)
Record winner_picture := mk_winner { w_square : nat -> nat -> option nat; w_texts : list (nat * nat * nat) }.

(** som.py:818-845 show_winner_matrix. *)
Definition show_winner_matrix (o : som) : winner_picture :=
  let cols := o_cols o in
  let award i j := nth (i * cols + j) (s_award (o_state o)) 0 in
  let matrix := map (fun i => map (fun j => award i j) (seq 0 cols)) (seq 0 (o_rows o)) in
  mk_winner
    (fun x y => match nth_error matrix y with Some row => nth_error row x | None => None end)
    (flat_map (fun i => map (fun j => (i, j, award i j)) (seq 0 cols)) (seq 0 (o_rows o))).
