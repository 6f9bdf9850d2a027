(** cluster/kmeans.py and cluster/kmedians.py (python branches).
    Data and centres are lists of points; the metric is a parameter with rational values. *)
From Verif Require Import Base.

(** numpy.argmin of a list: the first index of a minimal value; for [argmin], kmeans.py:519-539 *)
Fixpoint argmin_from (best : nat) (bv : Q) (i : nat) (l : list Q) : nat :=
  match l with
  | [] => best
  | v :: t => if Qltb v bv then argmin_from i v (S i) t else argmin_from best bv (S i) t
  end.
(** for [kmeans_update_clusters], kmeans.py:519-539 *)
Definition argmin (l : list Q) : nat :=
  match l with [] => 0 | v :: t => argmin_from 0 v 1 t end.

(** for [total_wce], kmeans.py:560-571 *)
Definition sumQ (l : list Q) : Q := fold_left Qplus l 0%Q.

(** numpy.max of a non-empty list; for [kmeans_changes], kmeans.py:590-610 *)
Definition maxQ (l : list Q) : Q :=
  match l with [] => 0%Q | x :: t => fold_left (fun m v => if Qltb m v then v else m) t x end.

(** clusters[k].append(i); for [kmeans_update_clusters], kmeans.py:519-539 *)
Definition push (clusters : list (list nat)) (k i : nat) : list (list nat) :=
  upd clusters k (nth k clusters [] ++ [i]).

(** for [kmeans_update_clusters], kmeans.py:519-539 *)
Definition nonempty {A : Type} (l : list A) : bool := match l with [] => false | _ => true end.

Section Kmeans.
Variable metric : point -> point -> Q.
Variable data : list point.

(** kmeans.py:519-539 __update_clusters (with 574-587): argmin over centres of each point,
    then clusters without points are left out *)
Definition kmeans_update_clusters (centers : list point) : list (list nat) :=
  filter nonempty
    (fold_left (fun cl i => push cl (argmin (map (metric (nth i data [])) centers)) i)
       (seq 0 (length data)) (repeat [] (length centers))).

(** mean of the points of a cluster (numpy mean(axis=0)); for [kmeans_update_centers], kmeans.py:542-557 *)
Definition mean_point (dim : nat) (pts : list point) : point :=
  map (fun d => (sumQ (map (fun p => coord p d) pts) / inject_Z (Z.of_nat (length pts)))%Q) (seq 0 dim).

(** for [kmeans_update_centers], kmeans.py:542-557 *)
Definition dimension : nat := length (nth 0 data []).

(** kmeans.py:542-557 __update_centers *)
Definition kmeans_update_centers (clusters : list (list nat)) : list point :=
  map (fun cl => mean_point dimension (map (fun i => nth i data []) cl)) clusters.

(** kmeans.py:590-610 __calculate_changes; [None] is float('inf') *)
Definition kmeans_changes (centers updated : list point) : option Q :=
  if length centers =? length updated then
    Some (maxQ (map (fun cu => metric (fst cu) (snd cu)) (combine centers updated)))
  else None.

(** the test [maximum_change > tolerance]; for [kmeans_loop], kmeans.py:425-435 *)
Definition exceeds (change : option Q) (tolerance : Q) : bool :=
  match change with None => true | Some c => Qltb tolerance c end.

(** kmeans.py:425-435, the loop; [left] is itermax - iteration *)
Fixpoint kmeans_loop (tolerance : Q) (left : nat) (change : option Q)
    (clusters : list (list nat)) (centers : list point) : list (list nat) * list point :=
  match left with
  | 0 => (clusters, centers)
  | S left' =>
      if exceeds change tolerance then
        let clusters' := kmeans_update_clusters centers in
        let updated := kmeans_update_centers clusters' in
        kmeans_loop tolerance left' (kmeans_changes centers updated) clusters' updated
      else (clusters, centers)
  end.

(** kmeans.py:560-571 __calculate_total_wce *)
Definition total_wce (clusters : list (list nat)) (centers : list point) : Q :=
  sumQ (concat (map (fun k => map (fun i => metric (nth i data []) (nth k centers []))
                                  (nth k clusters [])) (seq 0 (length clusters)))).

(** kmeans.py:370-389, 412-437, 613-630 process after the constructor's checks:
    (clusters, centers, total_wce) *)
Definition kmeans_process (initial_centers : list point) (tolerance : Q) (itermax : nat)
  : res (list (list nat) * list point * Q) :=
  match data, initial_centers with
  | [], _ => Raise ValueError
  | _, [] => Raise ValueError
  | p0 :: _, c0 :: _ =>
      if Qltb tolerance 0 then Raise ValueError
      else if length p0 =? length c0 then
        let '(clusters, centers) := kmeans_loop tolerance itermax None [] initial_centers in
        Ok (clusters, centers, total_wce clusters centers)
      else Raise ValueError
  end.

(** kmeans.py:440-462 predict *)
Definition kmeans_predict (clusters : list (list nat)) (centers : list point) (points : list point) : list nat :=
  match clusters with
  | [] => []
  | _ => map (fun p => argmin (map (metric p) centers)) points
  end.

(** * k-medians *)

(** kmedians.py:246-251: index_optim after the loop over medians, [-1] is not reachable for a
    non-empty list of medians *)
Fixpoint kmedians_nearest (p : point) (medians : list point) (index : nat) (index_optim : nat) (dist_optim : Q) : nat :=
  match medians with
  | [] => index_optim
  | m :: t =>
      let dist := metric p m in
      if Qltb dist dist_optim || (index =? 0) then kmedians_nearest p t (S index) index dist
      else kmedians_nearest p t (S index) index_optim dist_optim
  end.

(** kmedians.py:232-258 __update_clusters *)
Definition kmedians_update_clusters (medians : list point) : list (list nat) :=
  filter nonempty
    (fold_left (fun cl i => push cl (kmedians_nearest (nth i data []) medians 0 0 0%Q) i)
       (seq 0 (length data)) (repeat [] (length medians))).

(** kmedians.py:306-317, the median of one coordinate of a cluster *)
Definition kmedians_coord (cluster : list nat) (d : nat) : Q :=
  let key i := coord (nth i data []) d in
  let sorted_cluster := sort_key key cluster in
  let r := (length cluster - 1) / 2 in
  let m := nth r sorted_cluster 0 in
  if length cluster mod 2 =? 0 then
    let m2 := nth (r + 1) sorted_cluster 0 in ((key m + key m2) / 2)%Q
  else key m.

(** kmedians.py:292-319 __update_medians *)
Definition kmedians_update_medians (clusters : list (list nat)) : list point :=
  map (fun cl => map (kmedians_coord cl) (seq 0 dimension)) clusters.

(** kmedians.py:122: the medians are compared by position, also when some clusters were left
    out (the shorter list decides) *)
Definition kmedians_changes (medians updated : list point) : Q :=
  maxQ (map (fun k => metric (nth k medians []) (nth k updated [])) (seq 0 (length updated))).

(** kmedians.py:118-126 *)
Fixpoint kmedians_loop (tolerance : Q) (left : nat) (change : option Q)
    (clusters : list (list nat)) (medians : list point) : list (list nat) * list point :=
  match left with
  | 0 => (clusters, medians)
  | S left' =>
      if exceeds change tolerance then
        let clusters' := kmedians_update_clusters medians in
        let updated := kmedians_update_medians clusters' in
        kmedians_loop tolerance left' (Some (kmedians_changes medians updated)) clusters' updated
      else (clusters, medians)
  end.

(** kmedians.py:93-130 process with the constructor's checks 322-345; result: (clusters,
    medians, total_wce); the error for different dimensions is a NameError (L115) *)
Definition kmedians_process (initial_medians : list point) (tolerance : Q) (itermax : nat)
  : res (list (list nat) * list point * Q) :=
  match data, initial_medians with
  | [], _ => Raise ValueError
  | _, [] => Raise ValueError
  | p0 :: _, c0 :: _ =>
      if Qltb tolerance 0 then Raise ValueError
      else if length p0 =? length c0 then
        let '(clusters, medians) := kmedians_loop tolerance itermax None [] initial_medians in
        Ok (clusters, medians, total_wce clusters medians)
      else Raise NameError
  end.

(** kmedians.py:133-175 predict *)
Definition kmedians_predict (clusters : list (list nat)) (medians : list point) (points : list point) : list nat :=
  match clusters with
  | [] => []
  | _ => map (fun p => argmin (map (metric p) medians)) points
  end.
End Kmeans.

(** utils/metric.py manhattan_distance, 376-398, over rationals (lists of equal length) *)
Fixpoint manhattan (a b : point) : Q :=
  match a, b with
  | x :: a', y :: b' => (Qabs (x - y) + manhattan a' b')%Q
  | _, _ => 0%Q
  end.
