(** utils/__init__.py: arithmetic of lists of numbers.  Numbers are reals. *)
From Verif Require Import Base.
From Coq Require Import Reals.
Local Open Scope R_scope.

(** utils/__init__.py:1208: [a[i] - b[i] for i in range(len(a))], the same loop for the operations of 1236, 1278 and 1306; b[i] may fail *)
Fixpoint pairwise (f : R -> R -> res R) (a b : list R) : res (list R) :=
  match a, b with
  | [], _ => Ok []
  | _ :: _, [] => Raise IndexError
  | x :: a', y :: b' => do z <- f x y; do t <- pairwise f a' b'; Ok (z :: t)
  end.
(** utils/__init__.py:1222: [a[i] - b for i in range(len(a))], the same loop for the operations of 1250, 1264 and 1292 *)
Fixpoint each (f : R -> res R) (a : list R) : res (list R) :=
  match a with [] => Ok [] | x :: a' => do z <- f x; do t <- each f a'; Ok (z :: t) end.
(** python's division, utils/__init__.py:1264 and 1278 *)
Definition divide (x y : R) : res R := if Req_EM_T y 0 then Raise ZeroDivisionError else Ok (x / y).

(** utils/__init__.py:1197-1208 *)
Definition list_math_subtraction : list R -> list R -> res (list R) := pairwise (fun x y => Ok (x - y)).
(** utils/__init__.py:1211-1222 *)
Definition list_math_substraction_number (a : list R) (b : R) : res (list R) := each (fun x => Ok (x - b)) a.
(** utils/__init__.py:1225-1236 *)
Definition list_math_addition : list R -> list R -> res (list R) := pairwise (fun x y => Ok (x + y)).
(** utils/__init__.py:1239-1250 *)
Definition list_math_addition_number (a : list R) (b : R) : res (list R) := each (fun x => Ok (x + b)) a.
(** utils/__init__.py:1253-1264 *)
Definition list_math_division_number (a : list R) (b : R) : res (list R) := each (fun x => divide x b) a.
(** utils/__init__.py:1267-1278 *)
Definition list_math_division : list R -> list R -> res (list R) := pairwise divide.
(** utils/__init__.py:1281-1292 *)
Definition list_math_multiplication_number (a : list R) (b : R) : res (list R) := each (fun x => Ok (x * b)) a.
(** utils/__init__.py:1295-1306 *)
Definition list_math_multiplication : list R -> list R -> res (list R) := pairwise (fun x y => Ok (x * y)).
(** utils/__init__.py:507-523 norm_vector; the sum of squares is not negative, so [** 0.5] is the root *)
Definition norm_vector (v : list R) : R := sqrt (fold_left (fun length component => length + component * component) v 0).
