(** Model of the distances between groups of points in utils/__init__.py.  Numbers are exact rationals. *)
From Verif Require Import Base Kmeans_Model.

(** the two ways to pass a cluster: points ([data] is None) or indexes of [data]; for [average_inter_sq], utils/__init__.py:300-328 *)
Inductive group := ByPoints (ps : list point) | ByIndexes (data : list point) (idx : list nat).

(** for [average_inter_sq], utils/__init__.py:300-328 *)
Definition group_len (c : group) : nat := match c with ByPoints ps => length ps | ByIndexes _ idx => length idx end.
(** [cluster[i]] or [data[cluster[i]]] (indexes in range); for [average_inter_sq], utils/__init__.py:300-328 *)
Definition group_at (c : group) (i : nat) : point :=
  match c with ByPoints ps => nth i ps [] | ByIndexes data idx => nth (nth i idx 0) data [] end.

(** utils/__init__.py:1225-1236 list_math_addition *)
Definition list_math_addition (a b : point) : point := map (fun i => (coord a i + coord b i)%Q) (seq 0 (length a)).
(** utils/__init__.py:1253-1264 list_math_division_number *)
Definition list_math_division_number (a : point) (b : Q) : point := map (fun i => (coord a i / b)%Q) (seq 0 (length a)).
(** utils/__init__.py:1295-1306 list_math_multiplication *)
Definition list_math_multiplication (a b : point) : point := map (fun i => (coord a i * coord b i)%Q) (seq 0 (length a)).

(** utils/__init__.py:1148-1172 linear_sum for a list of lists; the additions to one coordinate happen in this order *)
Definition linear_sum (points : list point) : res point :=
  match points with
  | [] => Raise IndexError
  | p0 :: _ => Ok (map (fun d => sumQ (map (fun p => coord p d) points)) (seq 0 (length p0)))
  end.

(** utils/__init__.py:1175-1195 square_sum for a list of lists *)
Definition square_sum (points : list point) : res Q :=
  match points with
  | [] => Raise IndexError
  | _ => Ok (sumQ (map (fun p => sumQ (list_math_multiplication p p)) points))
  end.

(** for [average_inter_sq], utils/__init__.py:300-328 *)
Definition countq (n : nat) : Q := inject_Z (Z.of_nat n).

(** utils/__init__.py:300-328 average_inter_cluster_distance, without the root *)
Definition average_inter_sq (c1 c2 : group) : res Q :=
  let total := fold_left (fun acc i => fold_left (fun acc j => (acc + sqdist (group_at c1 i) (group_at c2 j))%Q)
                 (seq 0 (group_len c2)) acc) (seq 0 (group_len c1)) 0%Q in
  if group_len c1 * group_len c2 =? 0 then Raise ZeroDivisionError
  else Ok (total / countq (group_len c1 * group_len c2))%Q.

(** utils/__init__.py:351-374: point [i] of the two clusters together *)
Definition joint_at (c1 c2 : group) (i : nat) : point :=
  if i <? group_len c1 then group_at c1 i else group_at c2 (i - group_len c1).

(** utils/__init__.py:331-379 average_intra_cluster_distance, without the root *)
Definition average_intra_sq (c1 c2 : group) : res Q :=
  let n := group_len c1 + group_len c2 in
  let total := fold_left (fun acc i => fold_left (fun acc j => (acc + sqdist (joint_at c1 c2 i) (joint_at c1 c2 j))%Q)
                 (seq 0 n) acc) (seq 0 n) 0%Q in
  if n * (n - 1) =? 0 then Raise ZeroDivisionError
  else Ok (total / (countq n * (countq n - 1)))%Q.

(** utils/__init__.py:399-405, 407-417: the sum of the points of a cluster; an empty cluster raises IndexError if given by
    points and makes the later division fail if given by indexes *)
Definition group_sum (c : group) : res point :=
  let go start := fold_left (fun acc i => list_math_addition acc (group_at c i)) (seq 0 (group_len c)) (repeat 0%Q start) in
  match c with
  | ByPoints [] => Raise IndexError
  | ByPoints (p0 :: _) => Ok (go (length p0))
  | ByIndexes [] _ => Raise IndexError
  | ByIndexes (p0 :: _) [] => Raise ZeroDivisionError
  | ByIndexes (p0 :: _) _ => Ok (go (length p0))
  end.

(** utils/__init__.py:430-437, 439-446: sum of squared distances of the points of a cluster to a centre *)
Definition group_scatter (c : group) (center : point) (from : Q) : Q :=
  fold_left (fun acc i => (acc + sqdist (group_at c i) center)%Q) (seq 0 (group_len c)) from.

(** utils/__init__.py:382-448 variance_increase_distance *)
Definition variance_increase_distance (c1 c2 : group) : res Q :=
  do s1 <- group_sum c1;
  do s2 <- group_sum c2;
  let general := list_math_division_number (list_math_addition s1 s2) (countq (group_len c1 + group_len c2)) in
  let m1 := list_math_division_number s1 (countq (group_len c1)) in
  let m2 := list_math_division_number s2 (countq (group_len c2)) in
  Ok (group_scatter c2 general (group_scatter c1 general 0) - group_scatter c1 m1 0 - group_scatter c2 m2 0)%Q.

(** * average_neighbor_distance *)
Section Neighbors.
(** euclidean_distance as computed in floats *)
Variable distance : point -> point -> Q.

(** [matrix[i][j] = v]; for [neighbor_matrix], utils/__init__.py:214-221 *)
Definition set2 (m : list (list Q)) (i j : nat) (v : Q) : list (list Q) := upd m i (upd (nth i m []) j v).

(** utils/__init__.py:214-221: the triangular loop with the sorting of row [i] at its end *)
Definition neighbor_matrix (points : list point) : list (list Q) :=
  let n := length points in
  fold_left (fun m i =>
    let m := fold_left (fun m j =>
      let v := distance (nth i points []) (nth j points []) in
      set2 (set2 m i j v) j i v) (seq (S i) (n - S i)) m in
    upd m i (sort_key (fun v => v) (nth i m []))) (seq 0 n) (repeat (repeat 0%Q n) n).

(** utils/__init__.py:199-229 average_neighbor_distance *)
Definition average_neighbor_distance (points : list point) (num_neigh : nat) : res Q :=
  let n := length points in
  if (Z.of_nat n - 1 <? Z.of_nat num_neigh)%Z then Raise NameError
  else
    let m := neighbor_matrix points in
    let total := fold_left (fun acc i => fold_left (fun acc j => (acc + nth (j + 1) (nth i m []) 0)%Q) (seq 0 num_neigh) acc)
                   (seq 0 n) 0%Q in
    if num_neigh * n =? 0 then Raise ZeroDivisionError else Ok (total / countq (num_neigh * n))%Q.
End Neighbors.
