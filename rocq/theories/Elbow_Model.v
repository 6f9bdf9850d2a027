(** cluster/elbow.py (python branch).  The errors of k-means are exact rationals; the elbow lengths are reals. *)
From Verif Require Import Base Kmeans_Model.
From Coq Require Import Reals Qreals.
Local Open Scope nat_scope.

(** elbow.py:112-114: __wce, __elbows, __kvalue (None is -1) *)
Record elbow := mkE { wce : list Q; elbows : list R; kvalue : option nat }.
(** cluster/elbow.py:112-114 *)
Definition elbow_initial : elbow := mkE [] [] None.

(** elbow.py:157: range(kmin, kmax + 1, kstep) *)
Definition amounts (kmin kmax kstep : nat) : list nat := map (fun i => kmin + i * kstep) (seq 0 ((kmax - kmin) / kstep + 1)).

(** elbow.py:196-203: one elbow length *)
Definition elbow_length (x0 y0 x1 y1 x y : R) : R :=
  (Rabs ((y0 - y1) * x + (x1 - x0) * y + (x0 * y1 - x1 * y0)) / sqrt ((x1 - x0) ^ 2 + (y1 - y0) ^ 2))%R.
(** elbow.py:186-203 __calculate_elbows *)
Definition calculate_elbows (w : list Q) : list R :=
  let y k := Q2R (nth k w 0%Q) in
  map (fun i => elbow_length 0 (y 0) (INR (length w)) (y (length w - 1)) (INR i) (y i)) (seq 1 (length w - 2)).

(** elbow.py:211-212: index of the first largest value *)
Fixpoint index_max_from (b : nat) (bv : R) (i : nat) (l : list R) : nat :=
  match l with
  | [] => b
  | v :: t => if Rlt_dec bv v then index_max_from i v (S i) t else index_max_from b bv (S i) t
  end.
(** elbow.py:206-212 __find_optimal_kvalue; max() of nothing is an error *)
Definition find_optimal_kvalue (kmin kstep : nat) (l : list R) : res nat :=
  match l with [] => Raise ValueError | v :: t => Ok ((index_max_from 0 v 1 t + 1) * kstep + kmin) end.

Section Elbow.
Variable data : list point.
(** elbow.py:158: the centres chosen by the initializer for each amount *)
Variable initialize : nat -> list point.

(** elbow.py:157-162, with the defaults tolerance=0.001 and itermax=200 of k-means *)
Fixpoint errors (ks : list nat) (w : list Q) : res (list Q) :=
  match ks with
  | [] => Ok w
  | k :: t => do r <- kmeans_process sqdist data (initialize k) (1 # 1000) 200; errors t (w ++ [snd r])
  end.

(** elbow.py:215-240 __verify_arguments *)
Definition verify_arguments (kmin kmax kstep : nat) : bool :=
  negb (length data =? 0) && (1 <=? kmin) && (1 <=? kstep) && (3 + kmin <=? kmax + 1) && (3 <=? (kmax - kmin) / kstep + 1) && (kmax <=? length data).

(** elbow.py:152-165 __process_by_python after the checks of the constructor; [self] is the object before *)
Definition elbow_process (kmin kmax kstep : nat) (self : elbow) : res elbow :=
  if verify_arguments kmin kmax kstep then
    do w <- errors (amounts kmin kmax kstep) (wce self);
    let e := elbows self ++ calculate_elbows w in
    do k <- find_optimal_kvalue kmin kstep e;
    Ok (mkE w e (Some k))
  else Raise ValueError.
End Elbow.
