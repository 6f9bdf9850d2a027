(** cluster/clarans.py.  Distances are exact.  random.randint is a stream of numbers [rnd], the draws are counted by
    a position; random.sample is a function of the number of the local search.  The while loops have fuel. *)
From Verif Require Import Base Kmeans_Model.

Section Clarans.
Variable data : list point.
Variable number_clusters : nat.
Variable rnd : nat -> nat.
Let n := length data.
Let pt (i : nat) : point := nth i data [].
(** for [find_another], clarans.py:246-266 *)
Definition d2 (i j : nat) : Q := sqdist (pt i) (pt j).

(** the fields __current, __belong, __clusters, clarans.py:43-45 *)
Record state := mkS { current : list nat; belong : list nat; clusters : list (list nat) }.

(** clarans.py:155-167: [kmedians_nearest] is the same loop over the medoids *)
Definition nearest_index (medoids : list nat) (i : nat) : nat := kmedians_nearest sqdist (pt i) (map pt medoids) 0 0 0%Q.
(** clarans.py:147-170 __update_clusters; for no medoids self.__clusters[-1] fails (the data is not empty) *)
Definition update_clusters (medoids : list nat) : res (list nat * list (list nat)) :=
  if length medoids =? 0 then Raise IndexError
  else Ok (map (nearest_index medoids) (seq 0 n),
           filter nonempty (fold_left (fun cl i => push cl (nearest_index medoids i) i) (seq 0 n) (repeat [] (length medoids)))).

(** for [draw_candidate], clarans.py:185-188 *)
Definition mem (i : nat) (l : list nat) : bool := existsb (Nat.eqb i) l.

(** clarans.py:185-188: draws until the number is not among the medoids: (candidate, next position) *)
Fixpoint draw_candidate (fuel : nat) (medoids : list nat) (pos : nat) : res (nat * nat) :=
  match fuel with
  | 0 => Raise OutOfFuel
  | S f => let c := rnd pos mod n in if mem c medoids then draw_candidate f medoids (S pos) else Ok (c, S pos)
  end.

(** clarans.py:246-266 __find_another_nearest_medoid; None is -1, the distance measured is the one to the current
    medoid (260); best is None for infinity *)
Fixpoint find_another (l : list nat) (point current_medoid : nat) (best : option Q) (found : option nat) : option nat :=
  match l with
  | [] => found
  | x :: t =>
      if x =? current_medoid then find_another t point current_medoid best found
      else let c := d2 point current_medoid in
           if match best with None => true | Some b => Qltb c b end then find_another t point current_medoid (Some c) (Some x)
           else find_another t point current_medoid best found
  end.

(** costs: None is minus infinity (a finite number minus an infinite one); for [candidate_cost], clarans.py:173-243 *)
Definition add_cost (c : option Q) (x : option Q) : option Q :=
  match c, x with Some a, Some b => Some (a + b)%Q | _, _ => None end.

(** clarans.py:191-230, the contribution of one point that is no medoid *)
Definition point_cost (st : state) (current_medoid candidate p : nat) : option Q :=
  let current_cluster := nth current_medoid (belong st) 0 in
  let point_cluster := nth p (belong st) 0 in
  let point_medoid := nth point_cluster (current st) 0 in
  let other_cluster :=
    match find_another (current st) p current_medoid None None with
    | Some o => nth o (belong st) 0
    | None => nth (n - 1) (belong st) 0 (* self.__belong[-1] *)
    end in
  let distance_current := d2 p current_medoid in
  let distance_candidate := d2 p candidate in
  let distance_nearest := if negb (point_medoid =? candidate) && negb (point_medoid =? current_cluster) then Some (d2 p point_medoid) else None in
  if point_cluster =? current_cluster then
    match distance_nearest with
    | Some dn => if Qle_bool dn distance_candidate then Some (dn - distance_current)%Q else Some (distance_candidate - distance_current)%Q
    | None => Some (distance_candidate - distance_current)%Q
    end
  else if point_cluster =? other_cluster then
    match distance_nearest with
    | Some dn => if Qltb dn distance_candidate then Some 0%Q else Some (distance_candidate - dn)%Q
    | None => None
    end
  else Some 0%Q.
(** with [point_cost], clarans.py:191-230 *)
Definition candidate_cost (st : state) (current_medoid candidate : nat) : option Q :=
  fold_left add_cost (map (point_cost st current_medoid candidate) (filter (fun p => negb (mem p (current st))) (seq 0 n))) (Some 0%Q).
(** with [point_cost], clarans.py:191-230 *)
Definition negative (c : option Q) : bool := match c with None => true | Some q => Qltb q 0 end.

(** clarans.py:173-243 __optimize_configuration *)
Fixpoint optimize (maxneighbor fuel : nat) (index_neighbor : nat) (pos : nat) (st : state) : res (nat * state) :=
  match fuel with
  | 0 => Raise OutOfFuel
  | S f =>
      if index_neighbor <? maxneighbor then
        let current_medoid := nth (rnd pos mod number_clusters) (current st) 0 in
        let current_cluster := nth current_medoid (belong st) 0 in
        do r <- draw_candidate fuel (current st) (S pos);
        if negative (candidate_cost st current_medoid (fst r)) then
          let medoids := upd (current st) current_cluster (fst r) in
          do u <- update_clusters medoids;
          optimize maxneighbor f 0 (snd r) (mkS medoids (fst u) (snd u))
        else optimize maxneighbor f (S index_neighbor) (snd r) st
      else Ok (pos, st)
  end.

(** clarans.py:269-284 __calculate_estimation: the medoid is taken by the position of the cluster *)
Definition estimation (st : state) : Q :=
  sumQ (concat (map (fun k => map (fun i => d2 i (nth k (current st) 0)) (nth k (clusters st) [])) (seq 0 (length (clusters st))))).

(** clarans.py:86-100: [left] searches to go, [done] finished *)
Fixpoint search (sample : nat -> list nat) (maxneighbor fuel left done pos : nat) (best : option (list nat * Q)) : res (option (list nat * Q)) :=
  match left with
  | 0 => Ok best
  | S left' =>
      if n <? number_clusters then Raise ValueError (* random.sample *) else
      do u <- update_clusters (sample done);
      do r <- optimize maxneighbor fuel 0 pos (mkS (sample done) (fst u) (snd u));
      let e := estimation (snd r) in
      search sample maxneighbor fuel left' (S done) (fst r)
        (match best with None => Some (current (snd r), e) | Some b => if Qltb e (snd b) then Some (current (snd r), e) else Some b end)
  end.

(** clarans.py:73-103 process on a new object after the checks of 53-70: (clusters, medoids) *)
Definition clarans_process (sample : nat -> list nat) (numlocal maxneighbor fuel : nat) : res (list (list nat) * list nat) :=
  if n =? 0 then Raise ValueError else
  if number_clusters =? 0 then Raise ValueError else
  do best <- search sample maxneighbor fuel numlocal 0 0 None;
  let medoids := match best with None => [] | Some b => fst b end in
  do u <- update_clusters medoids;
  Ok (snd u, medoids).
End Clarans.
