(** The history of the genetic algorithm, its pictures and its roulette.
    pyclustering/cluster/ga.py: ga_observer (L23-135), ga_visualizer (L139-318),
    the notifications of process (L428-480); pyclustering/cluster/ga_maths.py:
    calc_probability_vector, set_last_value_to_one and get_uniform (L84-164).
    Coordinates and fitness values are exact rationals. *)
From Coq Require Import String.
From Verif Require Import Base Kmeans_Model Ga_Model Canvas_Model.
Open Scope nat_scope.

(** ga.py:29-51: the flags and the lists; chromosomes and values of the
    dictionaries are kept as pairs. *)
Record ga_observer : Type := mkGo
  { need_global : bool; need_population : bool; need_mean : bool;
    go_global : list (list nat * Q); go_population : list (list nat * Q); go_mean : list Q }.

(** ga.py:29-51 (__init__). *)
Definition go_new (global population mean : bool) : ga_observer := mkGo global population mean [] [] [].

(** ga.py:54-63 (__len__). *)
Definition go_len (o : ga_observer) : nat :=
  Nat.max (Nat.max (length (go_global o)) (length (go_population o))) (length (go_mean o)).

(** ga.py:66-79 (collect_global_best). *)
Definition collect_global_best (o : ga_observer) (best : list nat * Q) : ga_observer :=
  if negb (need_global o) then o
  else mkGo (need_global o) (need_population o) (need_mean o) (go_global o ++ [best]) (go_population o) (go_mean o).

(** ga.py:82-95 (collect_population_best). *)
Definition collect_population_best (o : ga_observer) (best : list nat * Q) : ga_observer :=
  if negb (need_population o) then o
  else mkGo (need_global o) (need_population o) (need_mean o) (go_global o) (go_population o ++ [best]) (go_mean o).

(** ga.py:98-109 (collect_mean). *)
Definition collect_mean (o : ga_observer) (values : list Q) : ga_observer :=
  if negb (need_mean o) then o
  else mkGo (need_global o) (need_population o) (need_mean o) (go_global o) (go_population o)
         (go_mean o ++ [sumQ values / inject_Z (Z.of_nat (length values))])%Q.

(** ga.py:445-447, 472-474: the three notifications of a generation. *)
Definition collect (o : ga_observer) (best new : list nat * Q) (values : list Q) : ga_observer :=
  collect_mean (collect_population_best (collect_global_best o best) new) values.

Section Observed.
Variable data : list point.
Variable count_clusters : nat.
(** ga.py:453-459: the next population, Ga_Model.next_population below. *)
Variable next : nat -> list (list nat) -> res (list (list nat)).

(** ga.py:450-474 with an observer; the fitness values come from L462-463. *)
Fixpoint observed_generations (left g : nat) (chromosomes : list (list nat)) (best : list nat * Q) (o : ga_observer)
  : ga_observer * res (list nat * Q) :=
  match left with
  | 0 => (o, Ok best)
  | S left' =>
      match next g chromosomes with
      | Raise e => (o, Raise e)
      | Ok cs =>
          match get_best data count_clusters cs with
          | Raise e => (o, Raise e)
          | Ok new =>
              let best' := if Qltb (snd new) (snd best) then new else best in
              observed_generations left' (S g) cs best' (collect o best' new (map (fitness data count_clusters) cs))
          end
      end
  end.

(** ga.py:428-480 with the checks 705-715, from the first population on. *)
Definition observed_ga (first : list (list nat)) (population_count : nat) (o : ga_observer) : ga_observer * res (list nat * Q) :=
  if length data =? 0 then (o, Raise ValueError)
  else if count_clusters =? 0 then (o, Raise ValueError)
  else
    match get_best data count_clusters first with
    | Raise e => (o, Raise e)
    | Ok best =>
        observed_generations population_count 0 first best (collect o best best (map (fitness data count_clusters) first))
    end.
End Observed.

(** list[start:stop] for non-negative numbers. for [show_evolution], ga.py:183-226 *)
Definition slice {A : Type} (start stop : nat) (l : list A) : list A := firstn (stop - start) (skipn start l).

(** ax.plot of a list: the values at 0, 1, 2, ... for [show_evolution], ga.py:183-226 *)
Definition curve (l : list Q) : list (nat * Q) := combine (seq 0 (length l)) l.

(** ga.py:183-226 (show_evolution): the curves of the best, of the populations
    and of the means, and the limits of the axis of the iterations, if they are
    set.  Negative arguments are not modelled. *)
Definition show_evolution (o : ga_observer) (start : nat) (stop : option nat)
  : (list (nat * Q) * list (nat * Q) * list (nat * Q)) * option (nat * nat) :=
  let stop := match stop with Some s => s | None => go_len o end in
  ((curve (slice start stop (map snd (go_global o))), curve (slice start stop (map snd (go_population o))),
    curve (slice start stop (go_mean o))),
   if start <? stop - 1 then Some (start, stop - 1) else None).

(** ga_maths.py:22-23 (calc_count_centers). *)
Definition calc_count_centers (chromosome : list nat) : nat := S (fold_right Nat.max 0 chromosome).

(** ga_maths.py:26-42 (get_clusters_representation without a number of
    clusters); argmax of an empty chromosome is a ValueError. *)
Definition represent (chromosome : list nat) : res (list (list nat)) :=
  match chromosome with
  | [] => Raise ValueError
  | _ => get_clusters_representation (calc_count_centers chromosome) chromosome
  end.

(** ga.py:248: the clusters of show_clusters, from the last best chromosome. *)
Definition shown_clusters (o : ga_observer) : res (list (list nat)) :=
  match rev (go_global o) with
  | [] => Raise IndexError
  | best :: _ => represent (fst best)
  end.

(** ga.py:229-255 (show_clusters) with the default marker: the canvas of the
    clusters on a figure with one axis, the evolution on that axis. *)
Definition ga_show_clusters (data : list point) (o : ga_observer)
  : res (((nat * nat) * list axes) * ((list (nat * Q) * list (nat * Q) * list (nat * Q)) * option (nat * nat))) :=
  do clusters <- shown_clusters o;
  match append_clusters (vis_init 1 2 None) (map (fun c => Indexes c data) clusters) 0 "." None with
  | (_, Raise e) => Raise e
  | (v, Ok _) => do picture <- show v 1; Ok (picture, show_evolution o 0 None)
  end.

(** ga.py:278-297 (frame_generation): the clusters of the two canvases (best of
    the population, best so far) and the evolution until this iteration; the
    drawing of the canvases is that of Canvas_Model. *)
Definition ga_frame (o : ga_observer) (iteration : nat)
  : res (list (list nat) * list (list nat) * ((list (nat * Q) * list (nat * Q) * list (nat * Q)) * option (nat * nat))) :=
  match nth_error (go_population o) iteration with
  | None => Raise IndexError
  | Some p =>
      do local_ <- represent (fst p);
      match nth_error (go_global o) iteration with
      | None => Raise IndexError
      | Some b => do global <- represent (fst b); Ok (local_, global, show_evolution o 0 (Some (S iteration)))
      end
  end.

(** ga_maths.py:92-103: 1 / fitness, 0 for a fitness of 0; an infinite fitness
    (None) is a ValueError. *)
Fixpoint inverses (fitness : list (option Q)) : res (list Q) :=
  match fitness with
  | [] => Ok []
  | None :: _ => Raise ValueError
  | Some f :: rest =>
      do more <- inverses rest;
      Ok ((if Qeq_bool f 0 then 0 else 1 / f) :: more)%Q
  end.

(** ga_maths.py:106-113: the sums of the beginnings. *)
Fixpoint accumulated (acc : Q) (l : list Q) : list Q :=
  match l with [] => [] | x :: t => (acc + x)%Q :: accumulated (acc + x) t end.

(** ga_maths.py:84-121 (calc_probability_vector); set_last_value_to_one
    (L124-142) changes nothing: range(-1, -len - 1) is empty.  None is a vector
    of NaN (all inverses are 0). *)
Definition calc_probability_vector (fitness : list (option Q)) : res (option (list Q)) :=
  match fitness with
  | [] => Raise AttributeError
  | _ =>
      do inv <- inverses fitness;
      let prob := accumulated 0 inv in
      let total := last prob 0%Q in
      if Qeq_bool total 0 then Ok None else Ok (Some (map (fun p => p / total)%Q prob))
  end.

(** ga_maths.py:145-164 (get_uniform) for a random number. *)
Fixpoint uniform_from (idx : nat) (r : Q) (probabilities : list Q) : option nat :=
  match probabilities with
  | [] => None
  | p :: rest => if Qltb r p then Some idx else uniform_from (S idx) r rest
  end.
(** cluster/ga_maths.py:145-165 *)
Definition get_uniform (r : Q) (probabilities : list Q) : option nat := uniform_from 0 r probabilities.
