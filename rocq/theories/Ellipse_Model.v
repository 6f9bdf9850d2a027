(** Model of /repo/pyclustering/utils/__init__.py, calculate_ellipse_description
    (L451-472), on 2x2 covariance matrices.  Reals instead of floats. *)
From Verif Require Import Base.
From Coq Require Import Reals Lra.
Open Scope R_scope.

(** A symmetric 2x2 matrix (p q; q r). the argument covariance of utils/__init__.py:451-472 *)
Record cov2 : Type := mkCov { cxx : R; cxy : R; cyy : R }.

(** What numpy.linalg.eigh returns, utils/__init__.py L463: two values and the matrix whose
    columns are the vectors, by rows. *)
Record eigh2 : Type := mkEigh { e_values : list R; e_rows : list (list R) }.

(** numpy.arctan2 (the quadrants; atan2(0, 0) = 0). for [ellipse_description], utils/__init__.py:4-472 *)
Definition arctan2 (y x : R) : R :=
  if Rlt_dec 0 x then atan (y / x)
  else if Rlt_dec x 0 then
         if Rle_dec 0 y then atan (y / x) + PI else atan (y / x) - PI
  else if Rlt_dec 0 y then PI / 2
  else if Rlt_dec y 0 then - (PI / 2)
  else 0.

(** numpy.degrees. for [ellipse_description], utils/__init__.py:4-472 *)
Definition degrees (x : R) : R := x * 180 / PI.

(** [eigh_values.argsort()] of two values. for [ellipse_description], utils/__init__.py:4-472 *)
Definition argsort2 (values : list R) : list nat :=
  if Rle_dec (nth 0 values 0) (nth 1 values 0) then [0; 1]%nat else [1; 0]%nat.

(** utils/__init__.py L464-472, after the call of eigh.  [sqrt] of a negative
    number is 0 here and a nan in numpy. *)
Definition ellipse_description (e : eigh2) (scale : R) : R * R * R :=
  let order := rev (argsort2 (e_values e)) in
  let values := map (fun i => nth i (e_values e) 0) order in
  let vectors := map (fun i => nth i (e_rows e) []) order in
  let column := rev (map (fun row => nth 0 row 0) vectors) in
  let angle := degrees (arctan2 (nth 0 column 0) (nth 1 column 0)) in
  if existsb (fun v => if Req_EM_T v 0 then true else false) values then (0, 0, 0)
  else (angle, 2 * scale * sqrt (nth 0 values 0), 2 * scale * sqrt (nth 1 values 0)).
