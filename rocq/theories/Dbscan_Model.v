(** Model of cluster/dbscan.py (python path). *)
From Verif Require Import Base Kd_Model.

Section Generic.
(** [self.__neighbor_searcher] (dbscan.py:141), [self.__neighbors] (a negative value behaves as 0) *)
Variable search : nat -> list nat.
Variable minpts : nat.

(** for [expand_loop], dbscan.py:247-258 *)
Record flags := mkFlags { visited : list bool; belong : list bool }.

(** for [expand_loop], dbscan.py:247-258 *)
Definition mem (x : nat) (l : list nat) : bool := existsb (Nat.eqb x) l.

(** dbscan.py:247-258: iteration over the list [neighbors] that grows while it is iterated;
    [all] is the whole list, [todo] the part not yet iterated. *)
Fixpoint expand_loop (fuel : nat) (index_point : nat) (todo all : list nat) (f : flags) (cluster : list nat)
  : res (flags * list nat) :=
  match todo with
  | [] => Ok (f, cluster)
  | i :: t =>
    match fuel with
    | 0 => Raise OutOfFuel
    | S fuel' =>
      if length (visited f) <=? i then Raise IndexError else
      let '(vis, t, all) :=
        if nth i (visited f) false then (visited f, t, all)
        else
          let next := search i in
          let added := if minpts <=? length next
                       then filter (fun k => negb (mem k all) && negb (k =? index_point)) next
                       else [] in
          (upd (visited f) i true, t ++ added, all ++ added) in
      let '(bel, cluster) :=
        if nth i (belong f) false then (belong f, cluster)
        else (upd (belong f) i true, cluster ++ [i]) in
      expand_loop fuel' index_point t all (mkFlags vis bel) cluster
    end
  end.

(** dbscan.py:228-260 [__expand_cluster] *)
Definition expand_cluster (n : nat) (index_point : nat) (f : flags) : res (flags * option (list nat)) :=
  let f := mkFlags (upd (visited f) index_point true) (belong f) in
  let neighbors := search index_point in
  if minpts <=? length neighbors then
    let f := mkFlags (visited f) (upd (belong f) index_point true) in
    do r <- expand_loop n index_point neighbors neighbors f [index_point];
    Ok (fst r, Some (snd r))
  else Ok (f, None).

(** dbscan.py:143-147 *)
Fixpoint scan (n : nat) (idx : list nat) (f : flags) (clusters : list (list nat)) : res (flags * list (list nat)) :=
  match idx with
  | [] => Ok (f, clusters)
  | i :: t =>
    if nth i (visited f) false then scan n t f clusters
    else
      do r <- expand_cluster n i f;
      match snd r with
      | Some c => scan n t (fst r) (clusters ++ [c])
      | None => scan n t (fst r) clusters
      end
  end.

(** dbscan.py:134-153 [process], python branch: [clusters0], [noise0] are the attributes before the
    call, which are appended to. *)
Definition process (n : nat) (clusters0 : list (list nat)) (noise0 : list nat) : res (list (list nat) * list nat) :=
  do r <- scan n (seq 0 n) (mkFlags (repeat false n) (repeat false n)) clusters0;
  Ok (snd r, noise0 ++ filter (fun i => negb (nth i (belong (fst r)) false)) (seq 0 n)).
End Generic.

(** dbscan.py:136 [kdtree_balanced(data, range(len(data)))] *)
Definition indexed (data : list point) : list (item nat) :=
  map (fun p => mkItem (snd p) (fst p)) (combine (seq 0 (length data)) data).

(** dbscan.py:263-273 [__neighbor_indexes_points] *)
Definition search_points (k : kdt nat) (data : list point) (eps : Q) (i : nat) : list nat :=
  filter (fun j => negb (j =? i)) (map (fun dn => pl (snd dn)) (find_nearest_dist_nodes k (nth i data []) eps)).

(** dbscan.py:276-287 [__neighbor_indexes_distance_matrix] *)
Definition search_matrix (m : list (list Q)) (eps : Q) (i : nat) : list nat :=
  filter (fun j => Qle_bool (nth j (nth i m []) 0%Q) eps && negb (j =? i)) (seq 0 (length (nth i m []))).

(** dbscan.py:201-211 [__verify_arguments], then [process] of an object whose attributes are
    [clusters0] and [noise0] *)
Definition dbscan_points (data : list point) (eps : Q) (minpts : nat) (clusters0 : list (list nat)) (noise0 : list nat)
  : res (list (list nat) * list nat) :=
  if length data =? 0 then Raise ValueError
  else if Qltb eps 0 then Raise ValueError
  else do k <- build (indexed data);
       process (search_points k data eps) minpts (length data) clusters0 noise0.

(** cluster/dbscan.py:58-92, 120-153, 201-210, for data_type='distance_matrix' (276-287) *)
Definition dbscan_matrix (m : list (list Q)) (eps : Q) (minpts : nat) (clusters0 : list (list nat)) (noise0 : list nat)
  : res (list (list nat) * list nat) :=
  if length m =? 0 then Raise ValueError
  else if Qltb eps 0 then Raise ValueError
  else process (search_matrix m eps) minpts (length m) clusters0 noise0.
