(** cluster/clique.py (python branch).  Numbers are exact; with floats a point may fall between two
    cells, which is outside of the model. *)
From Verif Require Import Base Kmeans_Model.

Section Clique.
Variable data : list point.
Variable intervals : nat.
Variable threshold : nat.

(** clique.py:749-774 __get_data_size_derscription, one dimension *)
Definition min_corner (d : nat) : Q := fold_left (fun m p => if Qltb (coord p d) m then coord p d else m) (tl data) (coord (hd [] data) d).
(** with [min_corner], clique.py:749-774 *)
Definition max_corner (d : nat) : Q := fold_left (fun m p => if Qltb m (coord p d) then coord p d else m) (tl data) (coord (hd [] data) d).

(** clique.py:692 *)
Definition cell_size (d : nat) : Q := ((max_corner d - min_corner d) / inject_Z (Z.of_nat intervals))%Q.

(** clique.py:723-746 __get_spatial_location, one dimension *)
Definition cell_min (loc : list nat) (d : nat) : Q := (min_corner d + cell_size d * inject_Z (Z.of_nat (nth d loc 0%nat)))%Q.
(** with [cell_min], clique.py:723-746 *)
Definition cell_max (loc : list nat) (d : nat) : Q :=
  if nth d loc 0 =? intervals - 1 then max_corner d else (cell_min loc d + cell_size d)%Q.

(** clique.py:182-193 spatial_block.__contains__ *)
Definition contains (loc : list nat) (p : point) : bool :=
  forallb (fun d => negb (Qltb (coord p d) (cell_min loc d) || Qltb (cell_max loc d) (coord p d))) (seq 0 (length p)).

(** clique.py:400-412 coordinate_iterator.increment, on the list itself; when all coordinates
    overflow the list has become zeros and the iterator holds None *)
Fixpoint increment (l : list nat) : list nat :=
  match l with
  | [] => []
  | x :: t => if x + 1 <? intervals then (x + 1) :: t else 0 :: increment t
  end.

(** clique.py:699-703: get_coordinate() returns the list of the iterator, which increment() changes
    before it is copied, so that the first cell is not the zero cell but the next one *)
Fixpoint locations (count : nat) (cur : list nat) : list (list nat) :=
  match count with
  | 0 => []
  | S c => let cur' := increment cur in cur' :: locations c cur'
  end.
(** with [locations], clique.py:699-703 *)
Definition cells : list (list nat) := locations (intervals ^ dimension data) (repeat 0 (dimension data)).

(** clique.py:329-343 capture_points *)
Definition capture_points (loc : list nat) (available : list bool) : list nat * list bool :=
  let captured := filter (fun i => nth i available false && contains loc (nth i data [])) (seq 0 (length data)) in
  (captured, fold_left (fun a i => upd a i false) captured available).

(** clique.py:697-708: points of each cell *)
Fixpoint capture_all (locs : list (list nat)) (available : list bool) : list (list nat) :=
  match locs with
  | [] => []
  | loc :: t => let '(captured, available') := capture_points loc available in captured :: capture_all t available'
  end.
(** with [capture_all], clique.py:697-708 *)
Definition cell_points : list (list nat) := capture_all cells (repeat true (length data)).

(** clique.py:346-368 get_location_neighbors *)
Definition location_neighbors (loc : list nat) : list (list nat) :=
  flat_map (fun d =>
    (if nth d loc 0 + 1 <? intervals then [upd loc d (nth d loc 0 + 1)] else []) ++
    (if 1 <=? nth d loc 0 then [upd loc d (nth d loc 0 - 1)] else [])) (seq 0 (length loc)).

(** clique.py:710-720: the map from a location (as a string of numbers ended by dots) to its cell *)
Fixpoint index_of (loc : list nat) (locs : list (list nat)) : option nat :=
  match locs with
  | [] => None
  | x :: t => if list_eq_dec Nat.eq_dec x loc then Some 0 else option_map S (index_of loc t)
  end.

(** clique.py:663-681 __get_neighbors over the given locations; [visited] is an attribute of the cells *)
Fixpoint get_neighbors (locs : list (list nat)) (visited : list bool) : res (list nat * list bool) :=
  match locs with
  | [] => Ok ([], visited)
  | loc :: t =>
      match index_of loc cells with
      | None => Raise KeyError
      | Some c =>
          if nth c visited false then get_neighbors t visited
          else do r <- get_neighbors t (upd visited c true); Ok (c :: fst r, snd r)
      end
  end.

(** for [expand_loop], clique.py:652-658 *)
Definition neighbors (c : nat) (visited : list bool) : res (list nat * list bool) :=
  get_neighbors (location_neighbors (nth c cells [])) visited.

(** for [expand_loop], clique.py:652-658 *)
Definition points_of (c : nat) : list nat := nth c cell_points [].
(** for [expand_loop], clique.py:652-658 *)
Definition dense (c : nat) : bool := threshold <? length (points_of c).

(** clique.py:652-658: the loop over the growing list; state: cluster, noise, visited *)
Fixpoint expand_loop (fuel : nat) (work : list nat) (cluster noise : list nat) (visited : list bool) : res (list nat * list nat * list bool) :=
  match work with
  | [] => Ok (cluster, noise, visited)
  | c :: work' =>
      match fuel with
      | 0 => Raise OutOfFuel
      | S f =>
          if dense c then
            do r <- neighbors c visited;
            expand_loop f (work' ++ fst r) (cluster ++ points_of c) noise (snd r)
          else expand_loop f work' cluster (noise ++ points_of c) visited
      end
  end.

(** attributes __clusters and __noise; for [expand_cluster], clique.py:633-660 *)
Record cst := mkS { clusters : list (list nat); noise : list nat }.

(** clique.py:633-660 __expand_cluster *)
Definition expand_cluster (c : nat) (visited : list bool) (s : cst) : res (list bool * cst) :=
  let visited := upd visited c true in
  if dense c then
    do r <- neighbors c visited;
    do e <- expand_loop (length cells) (fst r) (points_of c) (noise s) (snd r);
    let '(cluster, noise', visited') := e in
    Ok (visited', mkS (clusters s ++ [cluster]) noise')
  else Ok (visited, mkS (clusters s) (noise s ++ points_of c)).

(** clique.py:623-630 __allocate_clusters *)
Fixpoint allocate (cs : list nat) (visited : list bool) (s : cst) : res cst :=
  match cs with
  | [] => Ok s
  | c :: cs' =>
      if nth c visited false then allocate cs' visited s
      else do r <- expand_cluster c visited s; allocate cs' (fst r) (snd r)
  end.

(** clique.py:595-603 __process_by_python: the cells are made anew, clusters and noise are not *)
Definition process (s : cst) : res cst := allocate (seq 0 (length cells)) (repeat false (length cells)) s.

(** clique.py:469-499, 606-620; negative arguments are 0 here *)
Definition clique : res cst :=
  match data with
  | [] => Raise ValueError
  | _ => if intervals =? 0 then Raise ValueError else process (mkS [] [])
  end.
End Clique.
