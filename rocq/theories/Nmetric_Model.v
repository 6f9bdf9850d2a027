(** utils/metric.py: the numpy functions for tables of points, and the class distance_metric as an object that
    algorithms share.  The types of numbers of numpy are not modelled: the numbers are real. *)
From Verif Require Import Base.
From Coq Require Import Reals.
From Verif Require Import Metric_Model.
Open Scope R_scope.

(** an array of numpy with one axis, or with two axes, the second of length [d]; for [shapes], utils/metric.py:331 *)
Inductive arr := V (v : list R) | M (d : nat) (rows : list (list R)).
(** what is given to a metric: a list of python, or an array; for [shapes], utils/metric.py:331 *)
Inductive obj := Lst (v : list R) | Arr (a : arr).
(** what a metric returns: a number, or an array of numbers; for [numpy_call], utils/metric.py:321-334 *)
Inductive value := One (x : num) | Many (l : list num).

(** an array with one axis is broadcast as a table with one row; for [broadcast], utils/metric.py:321-334 *)
Definition as_rows (a : arr) : nat * list (list R) := match a with V v => (length v, [v]) | M d rows => (d, rows) end.
(** element-wise operations of numpy on two arrays; for [numpy_call], utils/metric.py:321-334 *)
Definition broadcast (f : R -> R -> R) (a b : arr) : res arr :=
  do d <- bdim (fst (as_rows a)) (fst (as_rows b));
  do n <- bdim (length (snd (as_rows a))) (length (snd (as_rows b)));
  let rows := map2 (fun r s => map2 f (spread d r) (spread d s)) (spread n (snd (as_rows a))) (spread n (snd (as_rows b))) in
  Ok (match a, b with V _, V _ => V (nth 0 rows []) | _, _ => M d rows end).

(** the operation on a pair of coordinates in lines 332-334, 371-373, 412-414, 455-457, 496-498, 537, 579 and 630 (the
    difference) of utils/metric.py; one broadcast stands for the chain of operations of one line *)
Definition pair_op (big : R) (t : type_metric) : R -> R -> R :=
  match t with
  | EUCLIDEAN | EUCLIDEAN_SQUARE => fun a b => (a - b) ^ 2
  | MANHATTAN | CHEBYSHEV => fun a b => Rabs (a - b)
  | MINKOWSKI degree => fun a b => (a - b) ^ degree
  | CANBERRA => fun a b => nan_divide big (Rabs (a - b)) (Rabs a + Rabs b)
  | CHI_SQUARE => fun a b => nan_divide big ((a - b) ^ 2) (Rabs a + Rabs b)
  | GOWER _ => fun a b => Rabs (a - b)
  end.
(** the reduction of a row in the same lines; [len] is the divisor of Gower distance, utils/metric.py lines 633 and 635 *)
Definition reduce (t : type_metric) (len : nat) (l : list R) : res num :=
  match t with
  | EUCLIDEAN => Ok (Real (sqrt (nsum l)))
  | EUCLIDEAN_SQUARE | MANHATTAN | CANBERRA | CHI_SQUARE => Ok (Real (nsum l))
  | CHEBYSHEV => match l with [] => Raise ValueError | x :: t => Ok (Real (fold_left Rmax t x)) end
  | MINKOWSKI degree => root degree (nsum l)
  | GOWER _ => Ok (if (len =? 0)%nat then NotReal else Real (nsum l / INR len))
  end.
(** the same along the second axis; 1 / degree is computed even without rows, utils/metric.py line 496, and result[0] is read, line 633 *)
Definition reduce_rows (t : type_metric) (d : nat) (rows : list (list R)) : res (list num) :=
  match t, rows with
  | MINKOWSKI 0, _ => Raise ZeroDivisionError
  | GOWER _, [] => Raise IndexError
  | _, _ => map_res (reduce t d) rows
  end.

(** the check of the shapes, utils/metric.py:331, 370, 411, 454, 495: a list has no shape; the second object is asked
    only if the first has one axis *)
Definition shapes (o1 o2 : obj) : res unit :=
  match o1, o2 with
  | Lst _, _ => Raise AttributeError
  | Arr (M _ _), _ => Ok tt
  | Arr (V _), Lst _ => Raise AttributeError
  | Arr (V _), Arr _ => Ok tt
  end.
(** utils/metric.py:537, 579, 630: lists cannot be subtracted, but an array and a list can *)
Definition subtractable (o1 o2 : obj) : res unit := match o1, o2 with Lst _, Lst _ => Raise TypeError | _, _ => Ok tt end.
(** with [subtractable], utils/metric.py:537 *)
Definition to_arr (o : obj) : arr := match o with Lst v => V v | Arr a => a end.
(** len of an object; for [numpy_call], utils/metric.py:321-334 *)
Definition size (o : obj) : nat := match o with Lst v | Arr (V v) => length v | Arr (M _ rows) => length rows end.
(** utils/metric.py:321-334, 360-373, 401-414, 444-457, 484-498, 526-542, 568-584, 618-635 *)
Definition numpy_call (big : R) (t : type_metric) (o1 o2 : obj) : res value :=
  do _ <- match t with CANBERRA | CHI_SQUARE | GOWER _ => subtractable o1 o2 | _ => shapes o1 o2 end;
  do r <- broadcast (pair_op big t) (to_arr o1) (to_arr o2);
  do r <- match t with GOWER range => broadcast (nan_divide big) r (V range) | _ => Ok r end;
  match r with
  | V l => do x <- reduce t (size o1) l; Ok (One x)
  | M d rows => do xs <- reduce_rows t d rows; Ok (Many xs)
  end.

(** utils/metric.py:353-357 with a table [rows] as point1 and a point [q] as point2: the rows are taken for coordinates;
    each difference of a row and a number is an array, to which 0.0 is added first *)
Fixpoint square_on_rows (acc : option (list R)) (rows : list (list R)) (q : list R) : res value :=
  match rows, q with
  | [], _ => Ok (match acc with None => One (Real 0) | Some l => Many (map Real l) end)
  | _ :: _, [] => Raise IndexError
  | r :: rows, x :: q =>
      let d := map (fun a => (a - x) ^ 2) r in
      square_on_rows (Some (match acc with None => d | Some l => map2 Rplus l d end)) rows q
  end.
(** the functions of python called with points, or with a table and a point; None: not modelled; for [call], utils/metric.py:122-132 *)
Definition basic_call (t : type_metric) (o1 o2 : obj) : option (res value) :=
  match o1, o2 with
  | (Lst p | Arr (V p)), (Lst q | Arr (V q)) => Some (do x <- distance_basic t p q; Ok (One x))
  | Arr (M d rows), (Lst q | Arr (V q)) => match t with EUCLIDEAN_SQUARE => Some (square_on_rows None rows q) | _ => None end
  | _, _ => None
  end.

(** ** the class distance_metric *)
(** utils/metric.py:17-48 *)
Inductive kind := KEuclidean | KEuclideanSquare | KManhattan | KChebyshev | KMinkowski | KCanberra | KChiSquare | KGower | KUser | KUnknown.
(** the arguments given by keyword; a function of the user is any function; for [max_range], utils/metric.py:239-255 *)
Record args := mkArgs { a_func : option (obj -> obj -> res value); a_numpy : bool; a_degree : option nat; a_range : option rpoint; a_data : option (list rpoint) }.
(** the function that calculates: of python, of numpy, of the user (None if it was not given); for [create_calculator], utils/metric.py:187-236 *)
Inductive calculator := Basic (t : type_metric) | Numpy (t : type_metric) | User (f : option (obj -> obj -> res value)).
(** for [create], utils/metric.py:95-119 *)
Record metric := mkMetric { m_kind : kind; m_args : args; m_numpy : bool; m_calc : calculator }.

(** utils/metric.py:239-255 __get_gower_max_range: the range and the arguments afterwards *)
Definition max_range (a : args) : res (rpoint * args) :=
  match a_range a with
  | Some r => Ok (r, a)
  | None =>
      match a_data a with
      | None => Raise ValueError
      | Some data => do r <- gower_range data; Ok (r, mkArgs (a_func a) (a_numpy a) (a_degree a) (Some r) (a_data a))
      end
  end.
(** utils/metric.py:187-236, 258-294 __create_distance_calculator.  The lambda of Minkowski distance reads the degree from
    the arguments at each call; nothing changes them *)
Definition create_calculator (k : kind) (a : args) (numpy : bool) : res (calculator * args) :=
  let make := fun t => if numpy then Numpy t else Basic t in
  match k with
  | KEuclidean => Ok (make EUCLIDEAN, a)
  | KEuclideanSquare => Ok (make EUCLIDEAN_SQUARE, a)
  | KManhattan => Ok (make MANHATTAN, a)
  | KChebyshev => Ok (make CHEBYSHEV, a)
  | KMinkowski => Ok (make (MINKOWSKI (match a_degree a with Some n => n | None => 2%nat end)), a)
  | KCanberra => Ok (make CANBERRA, a)
  | KChiSquare => Ok (make CHI_SQUARE, a)
  | KGower => do r <- max_range a; Ok (make (GOWER (fst r)), snd r)
  | KUser => Ok (User (a_func a), a)
  | KUnknown => Raise ValueError
  end.
(** utils/metric.py:95-119 *)
Definition create (k : kind) (a : args) : res metric :=
  do c <- create_calculator k a (a_numpy a); Ok (mkMetric k (snd c) (a_numpy a) (fst c)).
(** utils/metric.py:165-173 enable_numpy_usage *)
Definition enable (m : metric) : res metric :=
  if match m_kind m with KUser => true | _ => false end then Ok (mkMetric (m_kind m) (m_args m) true (m_calc m))
  else do c <- create_calculator (m_kind m) (m_args m) true; Ok (mkMetric (m_kind m) (snd c) true (fst c)).
(** utils/metric.py:176-184 disable_numpy_usage *)
Definition disable (m : metric) : res metric :=
  do c <- create_calculator (m_kind m) (m_args m) false; Ok (mkMetric (m_kind m) (snd c) false (fst c)).
(** utils/metric.py:122-132 __call__; None is not callable *)
Definition call (big : R) (m : metric) (o1 o2 : obj) : option (res value) :=
  match m_calc m with
  | Basic t => basic_call t o1 o2
  | Numpy t => Some (numpy_call big t o1 o2)
  | User (Some f) => Some (f o1 o2)
  | User None => Some (Raise TypeError)
  end.

(** ** metrics given to algorithms: the objects of a program, known by their position; for [prepare], cluster/kmeans.py:355-361 *)
Definition heap := list metric.
(** for [prepare], cluster/kmeans.py:355-361 *)
Definition set_mode (h : heap) (i : nat) (f : metric -> res metric) : res heap :=
  match nth_error h i with None => Raise IndexError | Some m => do m' <- f m; Ok (upd h i m') end.
(** copy.copy of an object: a new one with the same attributes; used in cluster/kmeans.py:355-361 and cluster/xmeans.py:184, 390, 425 *)
Definition copy (h : heap) (i : nat) : res (heap * nat) :=
  match nth_error h i with None => Raise IndexError | Some m => Ok (h ++ [m], length h) end.
(** utils/metric.py get_type, 135-142 *)
Definition is_user (h : heap) (i : nat) : bool := match nth_error h i with Some m => match m_kind m with KUser => true | _ => false end | None => false end.
(** cluster/kmeans.py:355-361 and cluster/silhouette.py:151-154 *)
Definition prepare (h : heap) (i : nat) : res heap := set_mode h i (if is_user h i then disable else enable).
(** what is done to the metric at position [i] by:; the files and lines stand beside the cases: utils/metric.py:165-184 is what they call *)
Inductive use :=
| UseKmeans       (* kmeans(...): cluster/kmeans.py:355-361, of a copy *)
| UseXmeans       (* xmeans(...): cluster/xmeans.py:184, 390, 425: copies, each prepared by k-means *)
| UsePredict      (* xmeans.predict: cluster/xmeans.py:302-309, of the copy of the instance *)
| UseKmedians     (* kmedians.process: cluster/kmedians.py:82, 280-288 *)
| UseSilhouette   (* silhouette(...): cluster/silhouette.py:148-154 *)
| UsePlusPlus     (* kmeans_plusplus_initializer(...): cluster/center_initializer.py:202-205 *)
| UseOther.       (* kmedoids, bsas, mbsas, ttsas: only calls; the lines of cluster/kmeans.py:355-361, cluster/xmeans.py:184 and the others given beside the cases of [use] *)
Definition used (h : heap) (i : nat) (u : use) : res heap :=
  match u with
  | UseKmeans => do c <- copy h i; prepare (fst c) (snd c)
  | UseXmeans => do c <- copy h i; do d <- copy (fst c) (snd c); prepare (fst d) (snd d)
  | UsePredict => do c <- copy h i; do h' <- set_mode (fst c) (snd c) enable; set_mode h' (snd c) disable
  | UseKmedians => do h' <- set_mode h i enable; set_mode h' i disable
  | UseSilhouette => prepare h i
  | UsePlusPlus => set_mode h i enable
  | UseOther => Ok h
  end.
(** a program that uses one metric in several algorithms, cluster/kmeans.py:355-361 and the others of [use] *)
Fixpoint used_all (h : heap) (i : nat) (l : list use) : res heap :=
  match l with [] => Ok h | u :: l => do h' <- used h i u; used_all h' i l end.
