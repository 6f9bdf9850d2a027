(** Drawing of clusters in many dimensions: pyclustering/cluster/__init__.py,
    cluster_visualizer_multidim (L58-423); and draw_clusters of
    pyclustering/utils/__init__.py (L696-795).  Same representation of clusters,
    marks and axes as in Canvas_Model; tick labels and windows are left out. *)
From Coq Require Import String.
From Verif Require Import Base Canvas_Model.
Open Scope nat_scope.

(** cluster/__init__.py:167-189 (append_cluster): the descriptors are the
    state.  [markersize or 5] also replaces 0. *)
Definition md_append (v : list layer) (c : content) (marker : string) (size : option Q) (color : option string)
  : list layer * res unit :=
  if amount c =? 0 then (v, Raise ValueError)
  else
    let s := match size with Some q => if Qeq_bool q 0 then 5%Q else q | None => 5%Q end in
    let col := match color with Some x => x | None => nth (length v mod length TITLES) TITLES EmptyString end in
    (v ++ [mkLayer c marker (Some s) col], Ok tt).

(** cluster/__init__.py:192-204 (append_clusters). *)
Fixpoint md_append_all (v : list layer) (cs : list content) (marker : string) (size : option Q) : list layer * res unit :=
  match cs with
  | [] => (v, Ok tt)
  | c :: rest =>
      match md_append v c marker size None with
      | (v', Ok _) => md_append_all v' rest marker size
      | (v', Raise e) => (v', Raise e)
      end
  end.

(** itertools.combinations(range(dimension), 2), in its documented order. for [create_pairs], cluster/__init__.py:307-320 *)
Definition combinations2 (dimension : nat) : list (nat * nat) :=
  flat_map (fun i => map (pair i) (seq (S i) (dimension - S i))) (seq 0 dimension).

(** cluster/__init__.py:307-320 (__create_pairs) with L266. *)
Definition create_pairs (dimension : nat) (pair_filter : option (list (nat * nat))) : list (nat * nat) :=
  match pair_filter with Some (p :: rest) => p :: rest | _ => combinations2 dimension end.

(** cluster/__init__.py:289-304 (__create_grid_spec): (rows, columns). *)
Definition grid_spec (amount_axis max_row : nat) : res (nat * nat) :=
  let row := if max_row <? amount_axis then max_row else amount_axis in
  if row =? 0 then Raise ZeroDivisionError
  else Ok ((amount_axis + (row - 1)) / row, row).

(** cluster/__init__.py:386-423: one item on one axis. *)
Definition md_item (which : option (nat * nat)) (la : layer) (item : res point) : res (list mark) :=
  do p <- item;
  match which with
  | Some (i, j) => do x <- fetch p i; do y <- fetch p j; Ok [Plot x y (la_color la) (la_marker la) (la_size la)]
  | None => do x <- fetch p 0; Ok [Plot x 0 (la_color la) (la_marker la) (la_size la)]
  end.

(** cluster/__init__.py:368-383 (__draw_canvas_cluster): the axes with what is
    on them already. *)
Fixpoint md_cluster (la : layer) (storage : list (option (nat * nat) * list mark)) : res (list (option (nat * nat) * list mark)) :=
  match storage with
  | [] => Ok []
  | (which, ms) :: rest =>
      do more <- draw_all (md_item which la) (items (la_content la));
      do others <- md_cluster la rest;
      Ok ((which, ms ++ more) :: others)
  end.

(** cluster/__init__.py:282-283: all clusters. *)
Fixpoint md_clusters (v : list layer) (storage : list (option (nat * nat) * list mark)) : res (list (option (nat * nat) * list mark)) :=
  match v with
  | [] => Ok storage
  | la :: rest => do s <- md_cluster la storage; md_clusters rest s
  end.

(** cluster/__init__.py:237-286 (show): the grid and the axes in the order of
    their cells, each with the pair of coordinates it is labelled with (None:
    one dimension) and its marks. *)
Definition md_show (v : list layer) (pair_filter : option (list (nat * nat))) (max_row : nat)
  : res ((nat * nat) * list (option (nat * nat) * list mark)) :=
  match v with
  | [] => Raise ValueError
  | first :: _ =>
      match dimension_of (la_content first) with
      | None => Raise IndexError
      | Some d =>
          let which := if 1 <? d then map Some (create_pairs d pair_filter) else [None] in
          do grid <- grid_spec (length which) max_row;
          do axs <- md_clusters v (map (fun w => (w, [])) which);
          Ok (grid, axs)
      end
  end.

(** utils/__init__.py:721-724. *)
Definition COLORS : list string :=
  ["red"; "blue"; "darkgreen"; "brown"; "violet"; "deepskyblue"; "darkgrey"; "lightsalmon"; "deeppink"; "yellow";
   "black"; "mediumspringgreen"; "orange"; "darkviolet"; "darkblue"; "silver"; "lime"; "pink"; "gold"; "bisque"]%string.

(** utils/__init__.py:711-718: data and clusters as given; clusters without
    data are lists of points.  The clusters with data are Some data. *)
Inductive collection : Type := OfPoints (cs : list (list point)) | OfIndexes (cs : list (list nat)) (data : list point).

(** The clusters, as contents. for [draw_clusters], utils/__init__.py:696-795 *)
Definition contents (c : collection) : list content :=
  match c with OfPoints cs => map Points cs | OfIndexes cs data => map (fun l => Indexes l data) cs end.

(** utils/__init__.py:713-716: len(data[0]) or len(clusters[0][0]). *)
Definition collection_dimension (c : collection) : option nat :=
  match c with
  | OfPoints ((p :: _) :: _) => Some (length p)
  | OfIndexes _ (p :: _) => Some (length p)
  | _ => None
  end.

(** utils/__init__.py:743-760 and 764-781: one item (the size of the mark is
    the default of matplotlib). *)
Definition plain_item (d : nat) (color marker : string) (item : res point) : res (list mark) :=
  draw_item (Some d) (mkLayer (Points []) marker None color) item.

(** utils/__init__.py:740-762: the clusters, from colour index k. *)
Fixpoint plain_clusters (d k : nat) (marker : string) (cs : list content) : res (list mark) :=
  match cs with
  | [] => Ok []
  | c :: rest =>
      do ms <- draw_all (plain_item d (nth k COLORS EmptyString) marker) (items c);
      do more <- plain_clusters d (S k) marker rest;
      Ok (ms ++ more)
  end.

(** utils/__init__.py:696-795 (draw_clusters), clusters given; [own_axes]: no
    axes were given.  The noise is a list of points or of indexes like the
    clusters. *)
Definition draw_clusters (c : collection) (noise : content) (marker : string) (own_axes : bool) : res (list mark) :=
  match collection_dimension c with
  | None => Raise IndexError
  | Some d =>
      if length COLORS <? length (contents c) then Raise NameError
      else if own_axes && negb ((d =? 1) || (d =? 2) || (d =? 3)) then Raise NameError
      else
        do ms <- plain_clusters d 0 marker (contents c);
        do ns <- draw_all (plain_item d "w" marker) (items noise);
        Ok (ms ++ ns)
  end.
