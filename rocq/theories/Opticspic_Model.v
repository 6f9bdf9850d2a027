(** ordering_visualizer of cluster/optics.py: the picture of the
    cluster-ordering diagram.  Only what the axes are told to draw and where;
    the labels and the window are left out, [round(radius, 4)] in the caption is
    not modelled and distances are exact. *)
From Coq Require Import String.
From Verif Require Import Base Optics_Model Canvas_Model.
Open Scope nat_scope.

(** optics.py:144-161, the rounds of the bisection together with the borders of
    the last call of extract_cluster_amount *)
Fixpoint bisect_borders (ordering : list Q) (wanted : Z) (k : nat) (lower upper : Q) (borders : list nat) :
  res (option Q * list nat) :=
  match k with
  | 0 => Ok (None, borders)
  | S k' =>
    let radius := ((lower + upper) / 2)%Q in
    do r <- extract_cluster_amount ordering radius;
    let '(amount, b) := r in
    if (amount =? wanted)%Z then Ok (Some radius, b)
    else if (amount =? 0)%Z then Ok (None, b)
    else if (wanted <? amount)%Z then bisect_borders ordering wanted k' radius upper b
    else bisect_borders ordering wanted k' lower radius b
  end.

(** optics.py:122-161 calculate_connvectivity_radius, both results *)
Definition radius_and_borders (ordering : list Q) (wanted : Z) (iterations : nat) : res (option Q * list nat) :=
  do m <- list_max ordering;
  do r <- extract_cluster_amount ordering m;
  let '(amount, b) := r in
  if (amount <=? wanted)%Z then bisect_borders ordering wanted iterations 0 m b else Ok (None, b).

(** optics.py:66, 70, 78: one bar of a diagram (matplotlib, Axes.bar of width 1) *)
Record bar := mkBar { bar_at : nat; bar_height : Q; bar_color : string }.

(** optics.py:66: [axis.bar(range(l, r), ordering[l:r], color = c)] for l <= r <= len(ordering) *)
Definition bars (ordering : list Q) (l r : nat) (c : string) : list bar :=
  map (fun k => mkBar k (nth k ordering 0%Q) c) (seq l (r - l)).

(** optics.py:66, 70: [color_list.TITLES[index]] *)
Definition title_at (index : nat) : res string :=
  match nth_error TITLES index with Some c => Ok c | None => Raise IndexError end.

(** optics.py:62-68, the groups from border number [index] on; the bars drawn so
    far, then the left border and the index of the colour of the last group *)
Fixpoint groups (ordering : list Q) (borders : list nat) (index left_index current : nat) (drawn : list bar) :
  list bar * res (nat * nat) :=
  match borders with
  | [] => (drawn, Ok (left_index, current))
  | b :: t =>
    match title_at index with
    | Raise e => (drawn, Raise e)
    | Ok c => groups ordering t (S index) b index (drawn ++ bars ordering left_index b c)
    end
  end.

(** optics.py:36-81 show_ordering_diagram: the bars, then the height of the line
    and the amount in the caption *)
Definition show_ordering_diagram (ordering : list Q) (amount : option Z) : list bar * res (option (Q * Z)) :=
  match amount with
  | None => (bars ordering 0 (length ordering) "black"%string, Ok None)
  | Some wanted =>
    match radius_and_borders ordering wanted 100 with
    | Raise e => ([], Raise e)
    | Ok (radius, borders) =>
      match groups ordering borders 0 0 0 [] with
      | (drawn, Raise e) => (drawn, Raise e)
      | (drawn, Ok (left_index, current)) =>
        match title_at (current + 1) with
        | Raise e => (drawn, Raise e)
        | Ok c =>
          let all := drawn ++ bars ordering left_index (length ordering) c in
          match radius with
          | None => (all, Raise TypeError)      (* axhline(y = None), then [None + ...] *)
          | Some r => (all, Ok (Some (r, wanted)))
          end
        end
      end
    end
  end.
