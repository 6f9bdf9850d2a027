(** Model of the picture of a graph: /repo/pyclustering/utils/graph.py draw_graph, L212-278. *)
From Verif Require Import Base Syncview_Model.
From Verif Require Files_Model.

(** an element of [graph.data]: python keeps whole numbers and floats apart when it indexes a list; for [dgraph], graph.py:6-71 *)
Inductive elem : Type := EInt (z : Z) | EFloat (q : Q).
(** for [matrix_lines], graph.py:4-256 *)
Definition value_of (e : elem) : Q := match e with EInt z => inject_Z z | EFloat q => q end.

(** graph.py L17-37 type_graph_descr *)
Inductive gtype : Type := TUnknown | TMatrix | TVector.
(** graph.py L46-71: what draw_graph reads of a graph; vertices have two coordinates (read_graph refuses others), no description
    in space is the empty list as in L96 *)
Record dgraph := mkDGraph { d_data : list (list elem); d_type : gtype; d_space : list (Q * Q) }.

(** a graph that was read from a file (graph.py L137-192): the numbers are floats (those of an edge description are whole, they are
    only compared with 1) *)
Definition of_file (g : Files_Model.graph) : dgraph :=
  mkDGraph (map (map EFloat) (Files_Model.g_data g)) (match Files_Model.g_descr g with Files_Model.GMatrix => TMatrix | Files_Model.GVector => TVector end)
    (map (fun p => (nth 0 p 0%Q, nth 1 p 0%Q)) (Files_Model.g_space g)).

(** what axes.plot is told to draw: a black line between two places, or a dot; the colour is an index in available_colors (utils/graph.py L235-241,
    twenty different ones), [None] the default blue *)
Inductive shape : Type := Line (a b : Q * Q) | Dot (a : Q * Q) (color : option nat).
(** with [shape], utils/graph.py:235-241 *)
Definition available_colors : list nat := seq 0 20.

(** [l[e]]; for [vector_lines], graph.py:9-261 *)
Definition at_elem {A : Type} (l : list A) (e : elem) : res A := match e with EInt z => py_get l z | EFloat _ => Raise TypeError end.
(** for [matrix_lines], graph.py:4-256 *)
Definition at_nat {A : Type} (l : list A) (i : nat) : res A := match nth_error l i with Some x => Ok x | None => Raise IndexError end.

(** graph.py L254-256 *)
Fixpoint matrix_lines (g : dgraph) (i : nat) (js : list nat) : res (list shape) :=
  match js with
  | [] => Ok []
  | j :: rest =>
    do row <- at_nat (d_data g) i;
    do e <- at_nat row j;
    do line <- (if Qeq_bool (value_of e) 1 then do a <- at_nat (d_space g) i; do b <- at_nat (d_space g) j; Ok [Line a b] else Ok []);
    do others <- matrix_lines g i rest;
    Ok (line ++ others)
  end.

(** graph.py L259-261 *)
Fixpoint vector_lines (g : dgraph) (i : nat) (js : list elem) : res (list shape) :=
  match js with
  | [] => Ok []
  | j :: rest =>
    do line <- (if Qltb (value_of j) (inject_Z (Z.of_nat i)) then do a <- at_nat (d_space g) i; do b <- at_elem (d_space g) j; Ok [Line a b] else Ok []);
    do others <- vector_lines g i rest;
    Ok (line ++ others)
  end.

(** graph.py L253-267: lines and dot of vertex [i] *)
Definition draw_vertex (g : dgraph) (coloring : option (list Z)) (i : nat) : res (list shape) :=
  let n := length (d_space g) in
  do lines <- match d_type g with
    | TMatrix => matrix_lines g i (seq i (n - i))
    | TVector => do row <- at_nat (d_data g) i; vector_lines g i row
    | TUnknown => Ok []
    end;
  do color <- match coloring with None => Ok None | Some m => do c <- at_nat m i; do k <- py_get available_colors c; Ok (Some k) end;
  do a <- at_nat (d_space g) i;
  Ok (lines ++ [Dot a color]).

(** graph.py L252-267 *)
Fixpoint draw_vertices (g : dgraph) (coloring : option (list Z)) (is : list nat) : res (list shape) :=
  match is with
  | [] => Ok []
  | i :: rest => do s <- draw_vertex g coloring i; do t <- draw_vertices g coloring rest; Ok (s ++ t)
  end.

(** graph.py L247-250, L269-272: least and greatest value; [None] is the infinite start value *)
Definition extent (l : list Q) : option (Q * Q) :=
  fold_left (fun acc x => match acc with
    | None => Some (x, x)
    | Some (lo, hi) => Some (if Qltb x lo then x else lo, if Qltb hi x then x else hi)
    end) l None.

(** graph.py L212-278 draw_graph: shapes in the order of drawing, limits of the axes (L274-275); nothing is shown after an exception *)
Definition draw_graph (g : dgraph) (coloring : option (list Z)) : res (list shape * (Q * Q) * (Q * Q)) :=
  match d_space g with
  | [] => Raise NameError
  | _ =>
    do _ <- match coloring with
      | None => Ok tt
      | Some m => if negb (length (d_data g) =? length m) then Raise NameError
                  else if length available_colors <? length m then Raise NameError else Ok tt
      end;
    do shapes <- draw_vertices g coloring (seq 0 (length (d_space g)));
    match extent (map fst (d_space g)), extent (map snd (d_space g)) with
    | Some (x0, x1), Some (y0, y1) => Ok (shapes, (x0 - (1 # 2), x1 + (1 # 2))%Q, (y0 - (1 # 2), y1 + (1 # 2))%Q)
    | _, _ => Raise ValueError
    end
  end.
