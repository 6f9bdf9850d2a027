(** The pictures of networks: syncnet.show_network (cluster/syncnet.py) and
    cnn_network.show_network (nnet/cnn.py).  Only what the axes are told to draw;
    fonts, grids and windows are left out.  C++ networks are not modelled. *)
From Verif Require Import Base Topology_Model.
Open Scope nat_scope.

(** syncnet.py:364-387, cnn.py:450-463: what is drawn: a dot and a line between two places *)
Inductive mark := Dot (at_ : point) | Line (from to : point).

(** syncnet.py:365-387, cnn.py:451-463: the coordinates [loc[0] ... loc[dimension - 1]] of a place *)
Definition place (dimension : nat) (p : point) : res point :=
  if dimension <=? length p then Ok (firstn dimension p) else Raise IndexError.

(** syncnet.py:362, cnn.py:449: [loc[i]] *)
Definition location (locs : list point) (i : nat) : res point :=
  match nth_error locs i with Some p => Ok p | None => Raise IndexError end.

(** syncnet.py:367-374, 379-387, cnn.py:452-455, 460-463: the lines from [i] to the given places, in this order *)
Fixpoint lines (dimension : nat) (locs : list point) (i : nat) (ends : list nat) : res (list mark) :=
  match ends with
  | [] => Ok []
  | j :: t =>
    do p <- location locs i; do x <- place dimension p;
    do q <- location locs j; do y <- place dimension q;
    do rest <- lines dimension locs i t;
    Ok (Line x y :: rest)
  end.

(** syncnet.py:364-387, cnn.py:449-463: every place with the lines that begin there *)
Fixpoint draw (dimension : nat) (locs : list point) (ends : nat -> list nat) (places : list nat) : res (list mark) :=
  match places with
  | [] => Ok []
  | i :: t =>
    do p <- location locs i; do x <- place dimension p;
    do own <- lines dimension locs i (ends i);
    do rest <- draw dimension locs ends t;
    Ok (Dot x :: own ++ rest)
  end.

(** syncnet.py:346-349, cnn.py:443-445: the dimension of the first place *)
Definition dimension_of (locs : list point) : res nat :=
  match locs with
  | [] => Raise IndexError
  | p :: _ => if (length p =? 2) || (length p =? 3) then Ok (length p) else Raise NameError
  end.

(** syncnet.py:367-374 (and 379-387): the connections drawn from [i] *)
Definition syncnet_ends (net : network) (i : nat) : list nat :=
  match n_conn net with
  | CMatrix _ => filter (has_connection net i) (seq i (n_osc net - i))
  | CList _ => filter (fun j => has_connection net i j && (j <? i)) (get_neighbors net i)
  end.

(** syncnet.py:338-390 show_network *)
Definition syncnet_show_network (locs : list point) (net : network) : res (list mark) :=
  do d <- dimension_of locs;
  draw d locs (syncnet_ends net) (seq 0 (n_osc net)).

(** cnn.py:452-455 (and 460-463): the connections drawn from [i] *)
Definition cnn_ends (weights : list (list Q)) (n i : nat) : list nat :=
  filter (fun j => Qltb 0 (nth j (nth i weights []) 0%Q)) (seq i (n - i)).

(** cnn.py:437-465 show_network of [n] neurons; [None] before the first
    simulation, otherwise the stimulus and the weights of the last one *)
Definition cnn_show_network (n : nat) (last : option (list point * list (list Q))) : res (list mark) :=
  match last with
  | None => Raise TypeError                 (* [None[0]] *)
  | Some (locs, weights) =>
    do d <- dimension_of locs;
    draw d locs (cnn_ends weights n) (seq 0 n)
  end.
