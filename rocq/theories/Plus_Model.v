(** cluster/center_initializer.py kmeans_plusplus_initializer with its optional arguments:
    data type, amount of candidates and return_index.  The metric is the default one (squared
    Euclidean distance) for points. *)
From Verif Require Import Base Kmeans_Model Kmedoids_Model Init_Model.

(** center_initializer.py:203: the values of the argument data_type; any other string is
    [OtherData] *)
Inductive data_type := Points | DistanceMatrix | OtherData.

(** center_initializer.py:191-196: the argument amount_candidates; [Farthest] is
    FARTHEST_CENTER_CANDIDATE *)
Inductive candidates_arg := DefaultCandidates | Candidates (k : nat) | Farthest.

(** center_initializer.py:191-196; [None] is FARTHEST_CENTER_CANDIDATE as in Init_Model *)
Definition amount_candidates (n : nat) (a : candidates_arg) : option nat :=
  match a with
  | DefaultCandidates => Some (if n <? 3 then n else 3)
  | Candidates k => Some k
  | Farthest => None
  end.

(** center_initializer.py:238-245: the row of a centre [c]; for an unknown data type the row
    of zeros of L238 is left.  A matrix is square. *)
Definition center_distance (t : data_type) (data : list point) (c j : nat) : Q :=
  match t with
  | Points => sqdist (nth j data []) (nth c data [])
  | DistanceMatrix => coord (nth c data []) j
  | OtherData => 0%Q
  end.

(** the result of initialize(): indexes or points; for [plus_call], center_initializer.py:343-379 *)
Inductive centers_result := Indexes (l : list nat) | Centers (l : list point).

(** center_initializer.py:358-364 *)
Definition use_index (t : data_type) (return_index : option bool) : res bool :=
  let is_matrix := match t with DistanceMatrix => true | _ => false end in
  let b := match return_index with None => is_matrix | Some b => b end in
  if negb b && is_matrix then Raise ValueError else Ok b.

(** center_initializer.py:343-379 initialize() of an object with the free indexes [free] *)
Definition plus_call (pick : list nat -> nat) (t : data_type) (data : list point) (amount : nat) (a : candidates_arg)
    (return_index : option bool) (draw0 : nat) (draws : nat -> nat -> Q) (free : list nat) : res (centers_result * list nat) :=
  do b <- use_index t return_index;
  let n := length data in
  do r <- plus_initialize pick (center_distance t data) n amount (amount_candidates n a) draw0 draws free;
  Ok (if b then Indexes (fst r) else Centers (map (fun i => nth i data []) (fst r)), snd r).

(** center_initializer.py:167-224 and 343-379: a new object and its initialize() *)
Definition plus_run (pick : list nat -> nat) (t : data_type) (data : list point) (amount : nat) (a : candidates_arg)
    (return_index : option bool) (draw0 : nat) (draws : nat -> nat -> Q) : res centers_result :=
  do free <- plus_new (length data) amount (amount_candidates (length data) a);
  do r <- plus_call pick t data amount a return_index draw0 draws free;
  Ok (fst r).
