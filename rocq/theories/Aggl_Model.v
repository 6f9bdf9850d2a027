(** cluster/agglomerative.py (python branch). *)
From Verif Require Import Base Kmeans_Model.

(** agglomerative.py:23-39 type_link *)
Inductive link := SingleLink | CompleteLink | AverageLink | CentroidLink.

Section Agglomerative.
Variable data : list point.
Variable similarity : link.

(** the squared distance computed in cluster/agglomerative.py:330-392 *)
Definition dist (i j : nat) : Q := sqdist (nth i data []) (nth j data []).

(** the loops over objects of two clusters: distances in the order of the loops; for [nearest_distance], agglomerative.py:330-338 *)
Definition distances (c1 c2 : list nat) : list Q := flat_map (fun a => map (dist a) c2) c1.

(** agglomerative.py:330-338 __calculate_nearest_distance; [None] is float('Inf') (an empty
    cluster, not reachable) *)
Definition nearest_distance (c1 c2 : list nat) : option Q := min_by (fun d => d) (distances c1 c2).
(** agglomerative.py:288-296 __calculate_farthest_distance *)
Definition farthest_distance (c1 c2 : list nat) : Q :=
  fold_left (fun m d => if Qltb m d then d else m) (distances c1 c2) 0%Q.
(** agglomerative.py:219-224 *)
Definition average_distance (c1 c2 : list nat) : Q :=
  (sumQ (distances c1 c2) / inject_Z (Z.of_nat (length c1 + length c2)))%Q.

(** agglomerative.py:341-358 __calculate_center *)
Definition calculate_center (c : list nat) : point :=
  mean_point (length (nth (hd 0 c) data [])) (map (fun i => nth i data []) c).

(** attributes __clusters, __centers; for [merge_step], agglomerative.py:207-231 *)
Record ast := mkA { clusters : list (list nat); centers : list point }.

(** pairs in the order of the two loops; for [merge_step], agglomerative.py:207-231 *)
Definition pairs (k : nat) : list (nat * nat) :=
  flat_map (fun i => map (fun j => (i, j)) (seq (S i) (k - S i))) (seq 0 k).

(** list.pop(j); for [merge_step], agglomerative.py:207-231 *)
Fixpoint pop {A : Type} (l : list A) (j : nat) : list A :=
  match l, j with [], _ => [] | _ :: t, 0 => t | x :: t, S j' => x :: pop t j' end.

(** comparison value of a pair of clusters / centres; for [merge_step], agglomerative.py:207-231 *)
Definition pair_value (s : ast) (ij : nat * nat) : Q :=
  let '(i, j) := ij in
  let c1 := nth i (clusters s) [] in
  let c2 := nth j (clusters s) [] in
  match similarity with
  | SingleLink => match nearest_distance c1 c2 with Some d => d | None => 0%Q end
  | CompleteLink => farthest_distance c1 c2
  | AverageLink => average_distance c1 c2
  | CentroidLink => sqdist (nth i (centers s) []) (nth j (centers s) [])
  end.

(** agglomerative.py:207-231, 234-254, 257-275, 299-317: the first pair with the least value is
    merged; without a pair python fails (UnboundLocalError or TypeError), here TypeError *)
Definition merge_step (s : ast) : res ast :=
  let k := match similarity with CentroidLink => length (centers s) | _ => length (clusters s) end in
  match min_by (pair_value s) (pairs k) with
  | None => Raise TypeError
  | Some (i, j) =>
      if j <? length (clusters s) then
        let merged := nth i (clusters s) [] ++ nth j (clusters s) [] in
        Ok (mkA (pop (upd (clusters s) i merged) j)
                (match similarity with
                 | CentroidLink => pop (upd (centers s) i (calculate_center merged)) j
                 | _ => centers s
                 end))
      else Raise IndexError
  end.

(** agglomerative.py:150-152; fuel: the number of merges *)
Fixpoint merge_loop (fuel : nat) (number : nat) (s : ast) : res ast :=
  if number <? length (clusters s) then
    match fuel with
    | 0 => Raise OutOfFuel
    | S f => do s' <- merge_step s; merge_loop f number s'
    end
  else Ok s.

(** agglomerative.py:146-152 process(), python branch, from present attributes *)
Definition process (number : nat) (s : ast) : res ast :=
  merge_loop (length data) number (mkA (map (fun i => [i]) (seq 0 (length data))) (centers s)).

(** agglomerative.py:102-129, 361-371: constructor *)
Definition new (number : nat) : res ast :=
  match data with
  | [] => Raise ValueError
  | _ => if number =? 0 then Raise ValueError
         else Ok (mkA [] (match similarity with CentroidLink => data | _ => [] end))
  end.

(** cluster/agglomerative.py:102-154 *)
Definition agglomerative (number : nat) : res ast := do s <- new number; process number s.
End Agglomerative.
