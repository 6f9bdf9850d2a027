(** utils/metric.py with real arithmetic.  Points are lists; the numpy versions are modelled here for two
    one-dimensional arrays, and for tables of points in Nmetric_Model.v. *)
From Verif Require Import Base.
From Coq Require Import Reals.
Open Scope R_scope.

(** for [euclidean_distance_square], utils/metric.py:353-357 *)
Definition rpoint := list R.

(** the loop [for i in range(len(point1))] with the accumulator [distance]; point2[i] may fail; for [euclidean_distance_square], utils/metric.py:353-357 *)
Fixpoint loop (f : R -> R -> R -> R) (distance : R) (point1 point2 : rpoint) : res R :=
  match point1, point2 with
  | [], _ => Ok distance
  | _ :: _, [] => Raise IndexError
  | a :: p, b :: q => loop f (f distance a b) p q
  end.

(** utils/metric.py:353-357 *)
Definition euclidean_distance_square : rpoint -> rpoint -> res R := loop (fun d a b => d + (a - b) ^ 2) 0.
(** utils/metric.py:317-318; [** 0.5] of a number that is not negative *)
Definition euclidean_distance (p q : rpoint) : res R := do d <- euclidean_distance_square p q; Ok (sqrt d).
(** utils/metric.py:392-398 *)
Definition manhattan_distance : rpoint -> rpoint -> res R := loop (fun d a b => d + Rabs (a - b)) 0.
(** utils/metric.py:435-441 *)
Definition chebyshev_distance : rpoint -> rpoint -> res R := loop (fun d a b => Rmax d (Rabs (a - b))) 0.

(** the result of a power: a real number, or a complex number (python) / nan (numpy); for [root], utils/metric.py:481 *)
Inductive num := Real (r : R) | NotReal.
(** utils/metric.py:481 [distance ** (1.0 / degree)], 498 numpy.power *)
Definition root (degree : nat) (x : R) : res num :=
  if (degree =? 0)%nat then Raise ZeroDivisionError
  else if Rlt_dec x 0 then Ok (if (degree =? 1)%nat then Real x else NotReal)
  else if Req_EM_T x 0 then Ok (Real 0) else Ok (Real (Rpower x (/ INR degree))).
(** utils/metric.py:477-481; the degree is an integer *)
Definition minkowski_distance (p q : rpoint) (degree : nat) : res num :=
  do d <- loop (fun d a b => d + (a - b) ^ degree) 0 p q; root degree d.
(** utils/metric.py:515-523 *)
Definition canberra_distance : rpoint -> rpoint -> res R :=
  loop (fun d a b => let divider := Rabs a + Rabs b in if Req_EM_T divider 0 then d else d + Rabs (a - b) / divider) 0.
(** utils/metric.py:559-565 *)
Definition chi_square_distance : rpoint -> rpoint -> res R :=
  loop (fun d a b => let divider := Rabs a + Rabs b in if Req_EM_T divider 0 then d else d + (a - b) ^ 2 / divider) 0.

(** utils/metric.py:611-613 *)
Fixpoint gower_loop (distance : R) (p q range : rpoint) : res R :=
  match p with
  | [] => Ok distance
  | a :: p =>
      match range with
      | [] => Raise IndexError
      | m :: range =>
          if Req_EM_T m 0 then gower_loop distance p (tl q) range
          else match q with [] => Raise IndexError | b :: q => gower_loop (distance + Rabs (a - b) / m) p q range end
      end
  end.
(** utils/metric.py:587-615 *)
Definition gower_distance (p q max_range : rpoint) : res R :=
  do d <- gower_loop 0 p q max_range;
  if (length p =? 0)%nat then Raise ZeroDivisionError else Ok (d / INR (length p)).

(** for [gower_range], utils/metric.py:239-255 *)
Fixpoint map2 {A B C : Type} (f : A -> B -> C) (l : list A) (m : list B) : list C :=
  match l, m with a :: l, b :: m => f a b :: map2 f l m | _, _ => [] end.
(** utils/metric.py:239-255 __get_gower_max_range for [data]; numpy.max and numpy.min with axis=0 *)
Definition gower_range (data : list rpoint) : res rpoint :=
  match data with
  | [] => Raise ValueError
  | p :: t => Ok (map2 Rminus (fold_left (map2 Rmax) t p) (fold_left (map2 Rmin) t p))
  end.

(** numpy.sum of an array; for [euclidean_distance_square_numpy], utils/metric.py:373 *)
Definition nsum (l : list R) : R := fold_left Rplus l 0.
(** broadcasting of numpy along one axis: the common length, and an axis of length one stretched to it; for [elementwise], utils/metric.py:373 *)
Definition bdim (a b : nat) : res nat :=
  if (a =? b)%nat then Ok a else if (a =? 1)%nat then Ok b else if (b =? 1)%nat then Ok a else Raise ValueError.
(** for [elementwise], utils/metric.py:373 *)
Definition spread {A : Type} (n : nat) (l : list A) : list A := match l with [x] => repeat x n | _ => l end.
(** element-wise operations on one-dimensional arrays; for [euclidean_distance_square_numpy], utils/metric.py:373 *)
Definition elementwise (f : R -> R -> R) (p q : rpoint) : res (list R) :=
  do n <- bdim (length p) (length q); Ok (map2 f (spread n p) (spread n q)).
(** utils/metric.py:373 *)
Definition euclidean_distance_square_numpy (p q : rpoint) : res R := do l <- elementwise (fun a b => (a - b) ^ 2) p q; Ok (nsum l).
(** utils/metric.py:334 *)
Definition euclidean_distance_numpy (p q : rpoint) : res R := do d <- euclidean_distance_square_numpy p q; Ok (sqrt d).
(** utils/metric.py:414 *)
Definition manhattan_distance_numpy (p q : rpoint) : res R := do l <- elementwise (fun a b => Rabs (a - b)) p q; Ok (nsum l).
(** utils/metric.py:457; numpy.max of an empty array raises ValueError *)
Definition chebyshev_distance_numpy (p q : rpoint) : res R :=
  do l <- elementwise (fun a b => Rabs (a - b)) p q;
  match l with [] => Raise ValueError | x :: t => Ok (fold_left Rmax t x) end.
(** utils/metric.py:498 *)
Definition minkowski_distance_numpy (p q : rpoint) (degree : nat) : res num :=
  do l <- elementwise (fun a b => (a - b) ^ degree) p q; root degree (nsum l).
(** numpy.divide followed by numpy.nan_to_num: 0/0 becomes 0 and x/0 the largest double, which is [big]
    (the numerators here are not negative); for [canberra_distance_numpy], utils/metric.py:536-542 *)
Definition nan_divide (big x y : R) : R := if Req_EM_T y 0 then (if Req_EM_T x 0 then 0 else big) else x / y.
(** utils/metric.py:536-542 *)
Definition canberra_distance_numpy (big : R) (p q : rpoint) : res R :=
  do l <- elementwise (fun a b => nan_divide big (Rabs (a - b)) (Rabs a + Rabs b)) p q; Ok (nsum l).
(** utils/metric.py:578-584 *)
Definition chi_square_distance_numpy (big : R) (p q : rpoint) : res R :=
  do l <- elementwise (fun a b => nan_divide big ((a - b) ^ 2) (Rabs a + Rabs b)) p q; Ok (nsum l).
(** utils/metric.py:629-635; the sum is a number of numpy, which divided by zero gives nan *)
Definition gower_distance_numpy (big : R) (p q max_range : rpoint) : res num :=
  do l <- elementwise (fun a b => Rabs (a - b)) p q;
  do l <- elementwise (nan_divide big) l max_range;
  Ok (if (length p =? 0)%nat then NotReal else Real (nsum l / INR (length p))).

(** utils/metric.py:17-48 type_metric with the arguments of distance_metric; USER_DEFINED is not modelled *)
Inductive type_metric := EUCLIDEAN | EUCLIDEAN_SQUARE | MANHATTAN | CHEBYSHEV | MINKOWSKI (degree : nat) | CANBERRA | CHI_SQUARE | GOWER (max_range : rpoint).
(** with [type_metric], utils/metric.py:17-48 *)
Definition real (r : res R) : res num := do x <- r; Ok (Real x).
(** utils/metric.py:200-236 __create_distance_calculator_basic *)
Definition distance_basic (t : type_metric) (p q : rpoint) : res num :=
  match t with
  | EUCLIDEAN => real (euclidean_distance p q)
  | EUCLIDEAN_SQUARE => real (euclidean_distance_square p q)
  | MANHATTAN => real (manhattan_distance p q)
  | CHEBYSHEV => real (chebyshev_distance p q)
  | MINKOWSKI degree => minkowski_distance p q degree
  | CANBERRA => real (canberra_distance p q)
  | CHI_SQUARE => real (chi_square_distance p q)
  | GOWER range => real (gower_distance p q range)
  end.
(** utils/metric.py:258-294 __create_distance_calculator_numpy *)
Definition distance_numpy (big : R) (t : type_metric) (p q : rpoint) : res num :=
  match t with
  | EUCLIDEAN => real (euclidean_distance_numpy p q)
  | EUCLIDEAN_SQUARE => real (euclidean_distance_square_numpy p q)
  | MANHATTAN => real (manhattan_distance_numpy p q)
  | CHEBYSHEV => real (chebyshev_distance_numpy p q)
  | MINKOWSKI degree => minkowski_distance_numpy p q degree
  | CANBERRA => real (canberra_distance_numpy big p q)
  | CHI_SQUARE => real (chi_square_distance_numpy big p q)
  | GOWER range => gower_distance_numpy big p q range
  end.

(** for [calculate_distance_matrix], utils/__init__.py:84-85 *)
Fixpoint map_res {A B : Type} (f : A -> res B) (l : list A) : res (list B) :=
  match l with [] => Ok [] | x :: t => do y <- f x; do ys <- map_res f t; Ok (y :: ys) end.
(** utils/__init__.py:84-85 calculate_distance_matrix *)
Definition calculate_distance_matrix (sample : list rpoint) (metric : rpoint -> rpoint -> res num) : res (list (list num)) :=
  map_res (fun i => map_res (fun j => metric (nth i sample []) (nth j sample [])) (seq 0 (length sample))) (seq 0 (length sample)).
