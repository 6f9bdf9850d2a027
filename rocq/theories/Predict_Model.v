(** predict() of k-means, k-medians, k-medoids, X-means and G-means (python branches) with metric objects: what is given
    to the metric and how its answers are put into the table of differences.  The types of numbers of numpy are not
    modelled: the numbers are real. *)
From Verif Require Import Base.
From Coq Require Import Reals.
From Verif Require Import Metric_Model Nmetric_Model Kmeans_Model.
Open Scope R_scope.

(** the answer of a metric; a call that Nmetric_Model does not model is given as RuntimeError; for [kmeans_row], cluster/kmeans.py:457-460 *)
Definition answer (o : option (res value)) : res value := match o with Some r => r | None => Raise RuntimeError end.
(** a number stored in an array of floats: a complex number is refused.  (NotReal also stands for nan, which numpy would
    store: simplified.); for [fill], cluster/kmeans.py:457-460 *)
Definition cell (x : num) : res R := match x with Real r => Ok r | NotReal => Raise TypeError end.
(** [differences[index_point] = value], a row with [k] places: a number and an array with one element fill the row; for [kmeans_row], cluster/kmeans.py:457-460 *)
Definition fill (k : nat) (v : value) : res (list R) :=
  match v with
  | One x => do r <- cell x; Ok (repeat r k)
  | Many l =>
      if (length l =? k)%nat then map_res cell l
      else match l with [x] => do r <- cell x; Ok (repeat r k) | _ => Raise ValueError end
  end.
(** [differences[index_point] = [metric(p, c) for c in centers]]; an array in the place of a number is refused (numpy
    would take one with one element: simplified); for [kmeans_row], cluster/kmeans.py:457-460 *)
Definition fill_each (l : list (res value)) : res (list R) :=
  map_res (fun v => do x <- v; match x with One x => cell x | Many _ => Raise ValueError end) l.

(** numpy.argmin of a row: the first smallest element; an empty row is refused; for [argmin_row], cluster/kmeans.py:451-462 *)
Fixpoint argmin_after (best : nat) (bv : R) (i : nat) (l : list R) : nat :=
  match l with [] => best | v :: l => if Rlt_dec v bv then argmin_after i v (S i) l else argmin_after best bv (S i) l end.
(** for [predict], cluster/kmeans.py:451-462 *)
Definition argmin_row (l : list R) : res nat := match l with [] => Raise ValueError | v :: l => Ok (argmin_after 0 v 1 l) end.

(** the common frame: cluster/kmeans.py:451-462, cluster/kmedians.py:168-175, cluster/kmedoids.py:493-501,
    cluster/xmeans.py:298-311, cluster/gmeans.py:204-215; [processed]: there are clusters *)
Definition predict (processed : bool) (row : rpoint -> res (list R)) (points : list rpoint) : res (list nat) :=
  if processed then map_res (fun p => do r <- row p; argmin_row r) points else Ok [].

(** an instance of k-means prepares its copy of the metric: cluster/kmeans.py:355-361 *)
Definition kmeans_metric (m : metric) : res metric := match m_kind m with KUser => disable m | _ => enable m end.
(** cluster/kmeans.py:457-460; the centres are an array with [d] columns *)
Definition kmeans_row (big : R) (m : metric) (d : nat) (centers : list rpoint) (p : rpoint) : res (list R) :=
  match m_kind m with
  | KUser => fill_each (map (fun c => answer (call big m (Arr (V p)) (Arr (V c)))) centers)
  | _ => do v <- answer (call big m (Arr (V p)) (Arr (M d centers))); fill (length centers) v
  end.
(** cluster/kmeans.py:440-462 *)
Definition kmeans_predict_metric (big : R) (m : metric) (processed : bool) (d : nat) (centers points : list rpoint) : res (list nat) :=
  do m' <- kmeans_metric m; predict processed (kmeans_row big m' d centers) points.

(** cluster/kmedians.py:172-173, cluster/kmedoids.py:496-499: lists, one by one.  process() of k-medians leaves its metric
    in the mode of python (cluster/kmedians.py:280-288), k-medoids takes it as it is *)
Definition each_row (big : R) (m : metric) (centers : list rpoint) (p : rpoint) : res (list R) :=
  fill_each (map (fun c => answer (call big m (Lst p) (Lst c))) centers).
(** cluster/kmedians.py:133-175 *)
Definition kmedians_predict_metric (big : R) (m : metric) (processed : bool) (medians points : list rpoint) : res (list nat) :=
  do m' <- disable m; predict processed (each_row big m' medians) points.
(** cluster/kmedoids.py:458-501 *)
Definition kmedoids_predict_metric (big : R) (m : metric) (processed : bool) (data : list rpoint) (medoids : list nat) (points : list rpoint) : res (list nat) :=
  predict processed (each_row big m (map (fun i => nth i data []) medoids)) points.

(** cluster/xmeans.py:298-311: the whole table of centres is given to the metric, whatever its type *)
Definition xmeans_row (big : R) (m : metric) (d : nat) (centers : list rpoint) (p : rpoint) : res (list R) :=
  do v <- answer (call big m (Arr (V p)) (Arr (M d centers))); fill (length centers) v.
(** cluster/xmeans.py:264-311 *)
Definition xmeans_predict_metric (big : R) (m : metric) (processed : bool) (d : nat) (centers points : list rpoint) : res (list nat) :=
  if processed then do m' <- enable m; predict true (xmeans_row big m' d centers) points else Ok [].
(** cluster/gmeans.py:204-215: an own metric *)
Definition gmeans_predict (big : R) (processed : bool) (d : nat) (centers points : list rpoint) : res (list nat) :=
  do m <- create KEuclideanSquare (mkArgs None true None None None);
  predict processed (xmeans_row big m d centers) points.

(** cluster/kmedoids.py:493-501 with rational numbers, as [kmeans_predict] and [kmedians_predict]; [rows] is the data
    given to the constructor: points, or the rows of a distance matrix *)
Definition kmedoids_predict (metric : point -> point -> Q) (rows : list point) (clusters : list (list nat)) (medoids : list nat) (points : list point) : list nat :=
  match clusters with
  | [] => []
  | _ => map (fun p => argmin (map (metric p) (map (fun i => nth i rows []) medoids))) points
  end.
