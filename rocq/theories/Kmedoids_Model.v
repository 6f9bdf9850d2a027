(** cluster/kmedoids.py: PAM BUILD and k-medoids (python branches).
    [D i j] is the result of __distance_calculator(i, j) for indexes below [n]; both data types
    ('points', 'distance_matrix') are covered by it.  float('inf') is [None]. *)
From Verif Require Import Base Kmeans_Model.

(** for [next_distances], kmedoids.py:204-211 *)
Definition mem (i : nat) (l : list nat) : bool := existsb (Nat.eqb i) l.

Section Kmedoids.
Variable D : nat -> nat -> Q.
Variable n : nat.

(** * BUILD *)

(** python min(a, b): b only if strictly smaller; for [next_distances], kmedoids.py:204-211 *)
Definition pymin (a b : Q) : Q := if Qltb b a then b else a.

(** kmedoids.py:176-190; every candidate fills the whole buffer [current_distances], so the
    exchange of the two buffers keeps the distances of the best candidate *)
Definition first_distances (i : nat) : list Q := map (fun j => if i =? j then 0%Q else D i j) (seq 0 n).

(** the loops over [i]: (best candidate, its deviation, its distances); [total_deviation] adds
    the entries that were not skipped, skipped entries are 0; for [build_next], kmedoids.py:193-219 *)
Definition build_choose (dist : nat -> list Q) (cands : list nat) : option nat :=
  min_by (fun i => sumQ (dist i)) cands.

(** for [build_initialize], kmedoids.py:139-151 *)
Definition build_first : list nat * list Q :=
  match build_choose first_distances (seq 0 n) with
  | Some i => ([i], first_distances i)
  | None => ([], repeat 0%Q n)
  end.

(** kmedoids.py:204-211 *)
Definition next_distances (medoids : list nat) (closest : list Q) (i : nat) : list Q :=
  map (fun j => if (i =? j) || mem j medoids then 0%Q else pymin (D i j) (nth j closest 0%Q)) (seq 0 n).

(** kmedoids.py:193-219; [None] is the case optimal_medoid = -1 (every index is a medoid),
    not reachable after __verify_arguments *)
Definition build_next (st : list nat * list Q) : option (list nat * list Q) :=
  let '(medoids, closest) := st in
  match build_choose (next_distances medoids closest) (filter (fun i => negb (mem i medoids)) (seq 0 n)) with
  | Some i => Some (medoids ++ [i], next_distances medoids closest i)
  | None => None
  end.

(** kmedoids.py:148-149, [k] more medoids *)
Fixpoint build_loop (k : nat) (st : list nat * list Q) : option (list nat * list Q) :=
  match k with
  | 0 => Some st
  | S k' => match build_next st with Some st' => build_loop k' st' | None => None end
  end.

(** kmedoids.py:139-151 with 222-235 *)
Definition build_initialize (k : nat) : res (list nat) :=
  if n =? 0 then Raise ValueError
  else if k <? 1 then Raise ValueError
  else if n <? k then Raise ValueError
  else match build_loop (k - 1) build_first with
       | Some (medoids, _) => Ok medoids
       | None => Raise IndexError
       end.

(** * k-medoids *)

(** kmedoids.py:635-643 after the first medoid (whose finite distance is below infinity):
    (index_optim, dist_optim_first, dist_optim_second) *)
Fixpoint scan (i : nat) (medoids : list nat) (index : nat) (best : nat * Q * option Q) : nat * Q * option Q :=
  match medoids with
  | [] => best
  | m :: t =>
      let '(io, first, second) := best in
      let dist := D i m in
      if Qltb dist first then scan i t (S index) (index, dist, Some first)
      else if (match second with None => true | Some s => Qltb dist s end) then scan i t (S index) (io, first, Some dist)
      else scan i t (S index) (io, first, second)
  end.

(** for [table], kmedoids.py:619-652 *)
Definition nearest2 (medoids : list nat) (i : nat) : nat * Q * option Q :=
  match medoids with [] => (0, 0%Q, None) | m :: t => scan i t 1 (0, D i m, None) end.

(** for [med_clusters], cluster/kmedoids.py:629 *)
Definition t_label (e : nat * Q * option Q) : nat := fst (fst e).
(** for [med_deviation], cluster/kmedoids.py:645 *)
Definition t_first (e : nat * Q * option Q) : Q := snd (fst e).
(** for [swap_cost], kmedoids.py:684-706 *)
Definition t_second (e : nat * Q * option Q) : option Q := snd e.

(** kmedoids.py:619-652 __update_clusters: labels and the two distances of each point *)
Definition table (medoids : list nat) : list (nat * Q * option Q) := map (nearest2 medoids) (seq 0 n).

(** clusters (cluster/kmedoids.py L629, L646) *)
Definition med_clusters (medoids : list nat) : list (list nat) :=
  fold_left (fun cl i => push cl (t_label (nearest2 medoids i)) i) (seq 0 n) (repeat [] (length medoids)).

(** total_deviation (cluster/kmedoids.py L645) *)
Definition med_deviation (medoids : list nat) : Q := sumQ (map t_first (table medoids)).

(** for [swap_cost], kmedoids.py:684-706 *)
Definition entry (tb : list (nat * Q * option Q)) (i : nat) : nat * Q * option Q := nth i tb (0, 0%Q, None).

(** kmedoids.py:684-706 __calculate_swap_cost *)
Definition swap_cost (tb : list (nat * Q * option Q)) (candidate cluster : nat) : Q :=
  (fold_left (fun cost i =>
     if i =? candidate then cost else
     let cd := D i candidate in
     let e := entry tb i in
     if t_label e =? cluster then
       (cost + ((match t_second e with None => cd | Some s => pymin cd s end) - t_first e))%Q
     else if Qltb cd (t_first e) then (cost + (cd - t_first e))%Q
     else cost) (seq 0 n) 0 - t_first (entry tb candidate))%Q.

(** kmedoids.py:667-676: all exchanges in the order of the loops *)
Definition exchanges (medoids : list nat) (tb : list (nat * Q * option Q)) : list (nat * nat) :=
  flat_map (fun k => map (fun c => (k, c))
     (filter (fun c => negb (mem c medoids || Qeq_bool (t_first (entry tb c)) 0)) (seq 0 n)))
   (seq 0 (length medoids)).

(** kmedoids.py:655-681 __swap_medoids: [None] when the cost stays infinite *)
Definition swap_medoids (medoids : list nat) (tb : list (nat * Q * option Q)) : option (list nat) :=
  match min_by (fun kc => swap_cost tb (snd kc) (fst kc)) (exchanges medoids tb) with
  | Some (k, c) => Some (upd medoids k c)
  | None => None
  end.

(** kmedoids.py:440-449; [left] = itermax - iterations, [change] = changes, [total] =
    total_deviation; result: (medoids, iterations, total) *)
Fixpoint kmedoids_loop (tolerance : Q) (left : nat) (change : option Q) (medoids : list nat) (iterations : nat) (total : Q)
  : list nat * nat * Q :=
  match left with
  | 0 => (medoids, iterations, total)
  | S left' =>
      if exceeds change tolerance then
        match swap_medoids medoids (table medoids) with
        | Some medoids' =>
            let total' := med_deviation medoids' in
            kmedoids_loop tolerance left' (Some (total - total')%Q) medoids' (S iterations) total'
        | None => (medoids, S iterations, total)
        end
      else (medoids, iterations, total)
  end.

(** for [kmedoids_process], kmedoids.py:409-455 *)
Record kmedoids_result := { r_clusters : list (list nat); r_medoids : list nat; r_labels : list nat;
                            r_iterations : nat; r_total : Q }.

(** kmedoids.py:709-739 __erase_empty_clusters *)
Definition erase_empty (clusters : list (list nat)) (medoids : list nat) : list (list nat) * list nat :=
  let kept := filter (fun cm => nonempty (fst cm)) (combine clusters medoids) in (map fst kept, map snd kept).

(** kmedoids.py:409-455 (python branch) with 579-596; without iterations there are no clusters
    and the labels stay -1 (represented by an empty list) *)
Definition kmedoids_process (initial : list nat) (tolerance : Q) (itermax : nat) : res kmedoids_result :=
  if n =? 0 then Raise ValueError
  else match initial with
  | [] => Raise ValueError
  | _ =>
    if Qltb tolerance 0 then Raise ValueError
    else match itermax with
    | 0 => Ok {| r_clusters := []; r_medoids := initial; r_labels := []; r_iterations := 0; r_total := 0%Q |}
    | _ =>
      let '(medoids, iterations, total) := kmedoids_loop tolerance itermax None initial 0 (med_deviation initial) in
      let '(clusters, medoids') := erase_empty (med_clusters medoids) medoids in
      Ok {| r_clusters := clusters; r_medoids := medoids'; r_labels := map t_label (table medoids);
            r_iterations := iterations; r_total := total |}
    end
  end.
End Kmedoids.
