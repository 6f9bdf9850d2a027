(** Drawing of clusters.  pyclustering/cluster/__init__.py: canvas_cluster_descr
    (L22-55) and cluster_visualizer (L427-796); pyclustering/utils/color.py.
    A cluster is a list of points or a list of indexes together with its data
    (negative indexes are not modelled); coordinates are exact rationals.  What
    matplotlib gets is modelled by the list of the axes that are created, with
    the marks put on them; tick labels, the grid of an axis and the window are
    left out. *)
From Coq Require Import String.
From Verif Require Import Base.
Open Scope nat_scope.

(** color.py:32-38 (color.TITLES). *)
Definition TITLES : list string :=
  ["red"; "blue"; "darkgreen"; "gold"; "violet"; "deepskyblue"; "darkgrey"; "lightsalmon"; "deeppink"; "yellow";
   "black"; "mediumspringgreen"; "orange"; "darkviolet"; "darkblue"; "silver"; "lime"; "pink"; "brown"; "bisque";
   "dimgray"; "firebrick"; "darksalmon"; "chartreuse"; "skyblue"; "purple"; "fuchsia"; "palegoldenrod"; "coral"; "hotpink";
   "gray"; "tan"; "crimson"; "teal"; "olive"]%string.

(** color.py:19-28 (color.get_color). *)
Definition get_color (index : nat) : string := nth (index mod length TITLES) TITLES EmptyString.

(** The arguments [cluster] and [data] of cluster/__init__.py:515: points, or
    indexes into the data. *)
Inductive content : Type := Points (l : list point) | Indexes (l : list nat) (data : list point).

(** cluster/__init__.py:530: len(cluster). *)
Definition amount (c : content) : nat := match c with Points l => length l | Indexes l _ => length l end.

(** cluster/__init__.py:544, 551: len(cluster[0]), len(data[0]); None if there
    is no element 0 (IndexError). *)
Definition dimension_of (c : content) : option nat :=
  match c with
  | Points (p :: _) | Indexes _ (p :: _) => Some (length p)
  | _ => None
  end.

(** cluster/__init__.py:28-52 (canvas_cluster_descr without its attributes);
    markersize None is the default of matplotlib. *)
Record layer : Type := mkLayer { la_content : content; la_marker : string; la_size : option Q; la_color : string }.

(** cluster/__init__.py:54-55: a descriptor with its attributes. *)
Record entry : Type := mkEntry { en_layer : layer; en_attributes : list layer }.

(** cluster/__init__.py:502-509: the fields of cluster_visualizer. *)
Record visualizer : Type := mkVis
  { vi_number : nat; vi_row : nat; vi_clusters : list (list entry); vi_dims : list (option nat);
    vi_titles : list (option string) }.

(** cluster/__init__.py:459-512 (__init__). *)
Definition vis_init (number row : nat) (titles : option (list (option string))) : visualizer :=
  mkVis number row (repeat [] number) (repeat None number)
    (match titles with Some t => t | None => repeat None number end).

(** cluster/__init__.py:515-567 (append_cluster), with the visualizer it leaves
    behind: the descriptor is stored at L541, before the checks of the
    dimension, and gets its default size only after them.  The format of the
    message at L534 has two places and gets one number: a TypeError instead of
    the ValueError. *)
Definition append_cluster (v : visualizer) (c : content) (canvas : Z) (marker : string) (size : option Q)
    (color : option string) : visualizer * res (option nat) :=
  if amount c =? 0 then (v, Ok None)
  else if (Z.of_nat (vi_number v) <? canvas)%Z || (canvas <? 0)%Z then (v, Raise TypeError)
  else
    let k := Z.to_nat canvas in
    match nth_error (vi_clusters v) k with
    | None => (v, Raise IndexError)
    | Some entries =>
        let col := match color with Some x => x | None => nth (length entries mod length TITLES) TITLES EmptyString end in
        let stored s dims :=
          mkVis (vi_number v) (vi_row v) (upd (vi_clusters v) k (entries ++ [mkEntry (mkLayer c marker s col) []])) dims
            (vi_titles v) in
        match dimension_of c with
        | None => (stored size (vi_dims v), Raise IndexError)
        | Some d =>
            let dims := match nth k (vi_dims v) None with None => upd (vi_dims v) k (Some d) | Some _ => vi_dims v end in
            if match nth k (vi_dims v) None with None => false | Some d' => negb (d' =? d) end
            then (stored size dims, Raise ValueError)
            else if (d <? 1) || (3 <? d) then (stored size dims, Raise ValueError)
            else
              let s := match size with Some x => Some x | None => if d =? 3 then Some 30%Q else Some 5%Q end in
              (stored s dims, Ok (Some (length entries)))
        end
    end.

(** cluster/__init__.py:570-595 (append_cluster_attribute), the data given as
    points. *)
Definition append_attribute (v : visualizer) (canvas cluster : nat) (data : list point) (marker : option string)
    (size : option Q) : visualizer * res unit :=
  match nth_error (vi_clusters v) canvas with
  | None => (v, Raise IndexError)
  | Some entries =>
      match nth_error entries cluster with
      | None => (v, Raise IndexError)
      | Some e =>
          let la := en_layer e in
          let a := mkLayer (Points data)
                     (match marker with Some m => m | None => la_marker la end)
                     (match size with Some s => Some s | None => la_size la end) (la_color la) in
          (mkVis (vi_number v) (vi_row v)
             (upd (vi_clusters v) canvas (upd entries cluster (mkEntry la (en_attributes e ++ [a]))))
             (vi_dims v) (vi_titles v), Ok tt)
      end
  end.

(** cluster/__init__.py:598-611 (append_clusters): stops at the first
    exception. *)
Fixpoint append_clusters (v : visualizer) (cs : list content) (canvas : Z) (marker : string) (size : option Q)
  : visualizer * res unit :=
  match cs with
  | [] => (v, Ok tt)
  | c :: rest =>
      match append_cluster v c canvas marker size None with
      | (v', Ok _) => append_clusters v' rest canvas marker size
      | (v', Raise e) => (v', Raise e)
      end
  end.

(** cluster/__init__.py:614-627 (set_canvas_title).  The message at L624 has
    two places and gets one number: TypeError.  A negative index counts from
    the end. *)
Definition set_canvas_title (v : visualizer) (text : string) (canvas : Z) : visualizer * res unit :=
  if (Z.of_nat (vi_number v) <? canvas)%Z then (v, Raise TypeError)
  else
    let n := Z.of_nat (length (vi_titles v)) in
    let i := if (canvas <? 0)%Z then (canvas + n)%Z else canvas in
    if (i <? 0)%Z || (n <=? i)%Z then (v, Raise IndexError)
    else (mkVis (vi_number v) (vi_row v) (vi_clusters v) (vi_dims v) (upd (vi_titles v) (Z.to_nat i) (Some text)), Ok tt).

(** cluster/__init__.py:630-635 (get_cluster_color). *)
Definition get_cluster_color (v : visualizer) (cluster canvas : nat) : res string :=
  match nth_error (vi_clusters v) canvas with
  | None => Raise IndexError
  | Some entries => match nth_error entries cluster with None => Raise IndexError | Some e => Ok (la_color (en_layer e)) end
  end.

(** What ax.plot and ax.scatter put on an axis. for [draw_item], cluster/__init__.py:780-796 *)
Inductive mark : Type :=
| Plot (x y : Q) (color marker : string) (size : option Q)
| Scatter (x y z : Q) (color marker : string) (size : option Q).

(** An axis of the figure: its cell in the grid, whether it is 3d, the marks,
    the title. for [show_canvases], cluster/__init__.py:721-753 *)
Record axes : Type := mkAxes { ax_cell : nat; ax_3d : bool; ax_marks : list mark; ax_title : option string }.

(** item[k] of a point. for [draw_item], cluster/__init__.py:780-796 *)
Definition fetch (p : point) (k : nat) : res Q :=
  match nth_error p k with Some x => Ok x | None => Raise IndexError end.

(** cluster/__init__.py:779-796: the items of a cluster, data[item] with data. *)
Definition items (c : content) : list (res point) :=
  match c with
  | Points l => map Ok l
  | Indexes l data => map (fun i => match nth_error data i with Some p => Ok p | None => Raise IndexError end) l
  end.

(** cluster/__init__.py:780-796: one item; nothing for other dimensions. *)
Definition draw_item (dim : option nat) (la : layer) (item : res point) : res (list mark) :=
  match dim with
  | Some 1 => do p <- item; do x <- fetch p 0; Ok [Plot x 0 (la_color la) (la_marker la) (la_size la)]
  | Some 2 => do p <- item; do x <- fetch p 0; do y <- fetch p 1; Ok [Plot x y (la_color la) (la_marker la) (la_size la)]
  | Some 3 => do p <- item; do x <- fetch p 0; do y <- fetch p 1; do z <- fetch p 2;
              Ok [Scatter x y z (la_color la) (la_marker la) (la_size la)]
  | _ => Ok []
  end.

(** A loop that draws: the marks in order, or the first exception. for [draw_layer], cluster/__init__.py:761-796 *)
Fixpoint draw_all {A : Type} (f : A -> res (list mark)) (l : list A) : res (list mark) :=
  match l with
  | [] => Ok []
  | a :: rest => do ms <- f a; do more <- draw_all f rest; Ok (ms ++ more)
  end.

(** cluster/__init__.py:761-796 (__draw_canvas_cluster). *)
Definition draw_layer (dim : option nat) (la : layer) : res (list mark) :=
  draw_all (draw_item dim la) (items (la_content la)).

(** cluster/__init__.py:737-741: a cluster and its attributes. *)
Definition draw_entry (dim : option nat) (e : entry) : res (list mark) :=
  do ms <- draw_layer dim (en_layer e);
  do more <- draw_all (draw_layer dim) (en_attributes e);
  Ok (ms ++ more).

(** cluster/__init__.py:721-753: the loop over the canvases; canvases without
    clusters are skipped. *)
Fixpoint show_canvases (v : visualizer) (shift : nat) (ks : list nat) : res (list axes) :=
  match ks with
  | [] => Ok []
  | k :: rest =>
      let entries := nth k (vi_clusters v) [] in
      match entries with
      | [] => show_canvases v shift rest
      | _ =>
          let dim := nth k (vi_dims v) None in
          let flat := match dim with Some 1 | Some 2 => true | _ => false end in
          do ms <- draw_all (draw_entry dim) entries;
          match nth_error (vi_titles v) k with
          | None => Raise IndexError
          | Some title =>
              do more <- show_canvases v shift rest;
              Ok (mkAxes (k + shift) (negb flat) ms title :: more)
          end
      end
  end.

(** cluster/__init__.py:687-758 (show) on a figure that already has [shift]
    axes: the grid (rows, columns) and the axes.  A grid without rows is refused
    by matplotlib (ValueError). *)
Definition show (v : visualizer) (shift : nat) : res ((nat * nat) * list axes) :=
  if vi_row v =? 0 then Raise ZeroDivisionError
  else
    let rows := (vi_number v + shift + (vi_row v - 1)) / vi_row v in
    if rows =? 0 then Raise ValueError
    else do l <- show_canvases v shift (seq 0 (length (vi_clusters v))); Ok ((rows, vi_row v), l).
