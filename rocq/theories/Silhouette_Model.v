(** cluster/silhouette.py (python branch).  Distances are exact; the quotients can be nan or infinite as numpy
    divides by zero without an error. *)
From Verif Require Import Base.

(** for [calculate_score], silhouette.py:212-230 *)
Inductive fl := Fin (q : Q) | NaN | PInf | NInf.

(** quotient of numpy floats; for [calculate_score], silhouette.py:212-230 *)
Definition ndiv (x y : Q) : fl :=
  if Qeq_bool y 0 then (if Qeq_bool x 0 then NaN else if Qltb 0 x then PInf else NInf) else Fin (x / y).

(** silhouette.py:146-165: [rows] are the distances from each point to all points: silhouette.py:305-320
    __calculate_dataset_difference for points, self.__data for a distance matrix *)
Section Silhouette.
Variable rows : list (list Q).
Variable clusters : list (list nat).

(** silhouette.py:298-302 __calculate_cluster_difference *)
Fixpoint cluster_difference (acc : Q) (row : list Q) (cluster : list nat) : res Q :=
  match cluster with
  | [] => Ok acc
  | i :: t => if i <? length row then cluster_difference (acc + nth i row 0)%Q row t else Raise IndexError
  end.

(** silhouette.py:244-247 __calculate_within_cluster_score; None is nan.  For an empty cluster there is no
    point whose score is asked for *)
Definition within_cluster_score (c : nat) (row : list Q) : res (option Q) :=
  do s <- cluster_difference 0 row (nth c clusters []);
  let size := length (nth c clusters []) in
  if size =? 1 then Ok None else Ok (Some (s / inject_Z (Z.of_nat size - 1))%Q).

(** silhouette.py:261-262 __calculate_cluster_score; the sum over an empty cluster is a python float, whose
    quotient by zero is an error *)
Definition cluster_score (c : nat) (row : list Q) : res Q :=
  do s <- cluster_difference 0 row (nth c clusters []);
  let size := length (nth c clusters []) in
  if size =? 0 then Raise ZeroDivisionError else Ok (s / inject_Z (Z.of_nat size))%Q.

(** silhouette.py:276-281; None is infinity *)
Fixpoint neighbor_loop (own : nat) (row : list Q) (cs : list nat) (optimal : option Q) : res (option Q) :=
  match cs with
  | [] => Ok optimal
  | c :: t =>
      if own =? c then neighbor_loop own row t optimal
      else do s <- cluster_score c row;
           neighbor_loop own row t (match optimal with None => Some s | Some o => if Qltb s o then Some s else Some o end)
  end.
(** silhouette.py:265-286 __caclulate_optimal_neighbor_cluster_score *)
Definition neighbor_score (own : nat) (row : list Q) : res Q :=
  do o <- neighbor_loop own row (seq 0 (length clusters)) None;
  Ok (match o with None => (-1)%Q | Some s => s end).

(** silhouette.py:212-230 __calculate_score; max(nan, b) is nan *)
Definition calculate_score (i own : nat) : res fl :=
  if i <? length rows then
    do a <- within_cluster_score own (nth i rows []);
    do b <- neighbor_score own (nth i rows []);
    Ok (match a with None => NaN | Some a => ndiv (b - a) (if Qltb a b then b else a) end)
  else Raise IndexError.

(** silhouette.py:198-199 *)
Fixpoint score_cluster (own : nat) (cluster : list nat) (score : list fl) : res (list fl) :=
  match cluster with
  | [] => Ok score
  | i :: t => do s <- calculate_score i own; score_cluster own t (upd score i s)
  end.
(** silhouette.py:197-199 *)
Fixpoint score_clusters (cs : list nat) (score : list fl) : res (list fl) :=
  match cs with
  | [] => Ok score
  | c :: t => do score <- score_cluster c (nth c clusters []) score; score_clusters t score
  end.
(** silhouette.py:323-333 __verify_arguments, 156 and 192-199 __process_by_python *)
Definition process : res (list fl) :=
  if length rows =? 0 then Raise ValueError else
  if length clusters =? 0 then Raise ValueError else
  score_clusters (seq 0 (length clusters)) (repeat (Fin 0) (length rows)).
End Silhouette.

(** silhouette.py:316 with the default metric EUCLIDEAN_SQUARE *)
Definition point_rows (data : list point) : list (list Q) := map (fun p => map (fun q => sqdist q p) data) data.

(** sum of floats; for [mean], silhouette.py:499 *)
Definition fadd (a b : fl) : fl :=
  match a, b with
  | Fin x, Fin y => Fin (x + y)
  | NaN, _ | _, NaN | PInf, NInf | NInf, PInf => NaN
  | PInf, _ | _, PInf => PInf
  | NInf, _ | _, NInf => NInf
  end.
(** silhouette.py:499 *)
Definition mean (score : list fl) : fl :=
  match fold_left fadd score (Fin 0) with Fin s => Fin (s / inject_Z (Z.of_nat (length score))) | x => x end.
(** comparison of a float with a finite number; for [better], silhouette.py:491-503 *)
Definition fgt (a : fl) (q : Q) : bool := match a with Fin x => Qltb q x | PInf => true | _ => false end.

(** silhouette.py:440-442: __amount (None is -1), __score and __scores *)
Record ksearch := mkK { amount : option nat; best : fl; scores : list (nat * fl) }.

Section Search.
Variable data : list point.
(** the clusters found by the chosen algorithm for each k, silhouette.py:542-553 *)
Variable calculate_clusters : nat -> list (list nat).

(** for [search], silhouette.py:491-503 *)
Definition better (s : fl) (than : fl) : bool := match than with Fin q => fgt s q | NInf => match s with Fin _ | PInf => true | _ => false end | _ => false end.
(** silhouette.py:491-503 *)
Fixpoint search (ks : list nat) (st : ksearch) : res ksearch :=
  match ks with
  | [] => Ok st
  | k :: t =>
      let clusters := calculate_clusters k in
      if negb (length clusters =? k) then search t (mkK (amount st) (best st) (scores st ++ [(k, NaN)]))
      else do score <- process (point_rows data) clusters;
           let m := mean score in
           search t (if better m (best st) then mkK (Some k) m (scores st ++ [(k, m)]) else mkK (amount st) (best st) (scores st ++ [(k, m)]))
  end.
(** silhouette.py:484-503 __process_by_python with the checks of 556-567; [self] is the object before the call *)
Definition ksearch_process (kmin kmax : nat) (self : ksearch) : res ksearch :=
  if length data <? kmax then Raise ValueError else
  if kmin <=? 1 then Raise ValueError else
  search (seq kmin (kmax - kmin)) (mkK (amount self) (best self) []).
End Search.
(** cluster/silhouette.py:416-448 *)
Definition ksearch_initial : ksearch := mkK None (Fin (-1)) [].
