(** The picture of a kd-tree: class [kdtree_visualizer] of
    pyclustering/container/kdtree.py.  Modelled is what matplotlib is told to
    draw; a limit that is still infinite is [None]. *)
From Verif Require Import Base Search_Model Kd_Model.

Section Visualizer.
Context {P : Type}.
Notation item := (item P).
Notation tree := (tree P).
Notation kdt := (kdt P).

(** for [split_colour_of], kdtree.py:70 *)
Inductive split_colour := Blue | Red | Green.
(** for [draw_split_line], kdtree.py:104-117 *)
Inductive drawing :=
| Dot (x y : Q)
| Split (from to : point) (c : split_colour).

(** kdtree.py:70: the colour of a discriminator; a fourth one is an IndexError
    at L116. *)
Definition split_colour_of (d : nat) : res split_colour :=
  match d with 0 => Ok Blue | 1 => Ok Red | 2 => Ok Green | _ => Raise IndexError end.

(** kdtree.py:104-117 __draw_split_line, called with borders of two coordinates
    only (see [verify]). *)
Definition draw_split_line (x : item) (disc : nat) (mn mx : point) : res (list drawing) :=
  let max_coord := upd mx disc (coord (pt x) disc) in
  let min_coord := upd mn disc (coord (pt x) disc) in
  if length mn =? 2 then
    do c <- split_colour_of disc;
    Ok [Dot (coord (pt x) 0) (coord (pt x) 1); Split min_coord max_coord c]
  else Ok [].

(** kdtree.py:91-102 __draw_node; the node is not None for the first call. *)
Fixpoint draw_node (t : tree) (mn mx : point) : res (list drawing) :=
  match t with
  | KLeaf => Ok []
  | KNode l x disc r =>
      do here <- draw_split_line x disc mn mx;
      do at_left <- draw_node l mn (upd mx disc (coord (pt x) disc));
      do at_right <- draw_node r (upd mn disc (coord (pt x) disc)) mx;
      Ok (here ++ at_left ++ at_right)
  end.

(** kdtree.py:228-240 get_children. *)
Definition get_children (t : tree) : list tree :=
  match t with
  | KLeaf => []
  | KNode l _ _ r =>
      (match l with KLeaf => [] | _ => [l] end) ++ (match r with KLeaf => [] | _ => [r] end)
  end.

(** kdtree.py:140-148: the levels; the fuel is the number of nodes and one more. *)
Fixpoint levels (fuel : nat) (next_level : list tree) : res (list tree) :=
  match next_level with
  | [] => Ok []
  | _ =>
      match fuel with
      | 0 => Raise OutOfFuel
      | S fuel' => do rest <- levels fuel' (flat_map get_children next_level); Ok (next_level ++ rest)
      end
  end.

(** kdtree.py:135-150 __get_all_nodes: the data of the nodes. *)
Definition get_all_nodes (t : tree) : res (list item) :=
  do nodes <- levels (S (size t)) [t];
  Ok (flat_map (fun n => match n with KLeaf => [] | KNode _ x _ _ => [x] end) nodes).

(** kdtree.py:127-131: one limit in one dimension. *)
Definition raise_max (m : option Q) (v : Q) : option Q :=
  match m with None => Some v | Some w => if Qltb w v then Some v else Some w end.
(** with [raise_max], kdtree.py:127-131 *)
Definition lower_min (m : option Q) (v : Q) : option Q :=
  match m with None => Some v | Some w => if Qltb v w then Some v else Some w end.

(** kdtree.py:119-133 __get_limits; the loops over nodes and dimensions are
    exchanged (the dimensions do not depend on each other). *)
Definition get_limits (t : tree) : res (list (option Q) * list (option Q)) :=
  match t with
  | KLeaf => Raise AttributeError
  | KNode _ x0 _ _ =>
      do nodes <- get_all_nodes t;
      let limit f d := fold_left f (map (fun x => coord (pt x) d) nodes) None in
      Ok (map (limit lower_min) (seq 0 (length (pt x0))), map (limit raise_max) (seq 0 (length (pt x0))))
  end.

(** kdtree.py:152-160 __verify; NotImplementedError is a RuntimeError. *)
Definition verify (t : tree) : res unit :=
  match t with
  | KLeaf => Raise ValueError
  | KNode _ x _ _ => if length (pt x) =? 2 then Ok tt else Raise RuntimeError
  end.

(** limits are drawn with only if they are finite; for [visualize], kdtree.py:62-89 *)
Definition finite (l : list (option Q)) : res point :=
  fold_right (fun o r => do p <- r; match o with Some q => Ok (q :: p) | None => Raise ValueError end) (Ok []) l.

(** kdtree.py:62-89: the constructor and [visualize]: what is drawn, and the
    corners set by set_xlim and set_ylim. *)
Definition visualize (k : kdt) : res (list drawing * point * point) :=
  do _ <- verify (root k);
  do limits <- get_limits (root k);
  do mn <- finite (fst limits);
  do mx <- finite (snd limits);
  do picture <- draw_node (root k) mn mx;
  Ok (picture, mn, mx).

End Visualizer.
