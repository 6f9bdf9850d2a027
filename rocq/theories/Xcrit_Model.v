(** xmeans.py:510-635, the splitting criteria over the real numbers; the distances are rational. *)
From Verif Require Import Base Kmeans_Model Xmeans_Model.
From Coq Require Import Reals Lra Qreals.
Local Open Scope nat_scope.

(** a score: a number or float('inf'); for [bic_score], xmeans.py:587-635 *)
Inductive score := Fin (r : R) | Inf.
(** a < b; for [split_bic], xmeans.py:480-494 *)
Definition slt (a b : score) : bool :=
  match a, b with
  | Fin x, Fin y => if Rlt_dec x y then true else false
  | Fin _, Inf => true
  | Inf, _ => false
  end.
(** for [bic], xmeans.py:480-494 *)
Definition sadd (a b : score) : score := match a, b with Fin x, Fin y => Fin (x + y) | _, _ => Inf end.

Section Criteria.
Variable metric : point -> point -> Q.
Variable data : list point.

(** the sums of distances to the centre of each cluster; for [mndl], xmeans.py:535-584 *)
Definition wsum (cluster : list nat) (center : point) : Q := sumQ (map (fun i => metric (nth i data []) center) cluster).
(** for [mndl], xmeans.py:535-584 *)
Definition wsums (clusters : list (list nat)) (centers : list point) : list Q := map (fun gc => wsum (fst gc) (snd gc)) (combine clusters centers).
(** for [mndl], xmeans.py:535-584 *)
Definition amount (clusters : list (list nat)) : nat := fold_left Nat.add (map (@length nat) clusters) 0.

(** xmeans.py:587-635 __bayesian_information_criterion; clusters are not empty (log(0) is not reached) *)
Definition bic_score (K N n dim : nat) (sigma_sqrt : R) : score :=
  let p := (INR K - 1 + INR dim * INR K + 1)%R in
  if Rle_dec sigma_sqrt 0 then Inf (* - n * (-inf) *)
  else
    let sigma_multiplier := (INR dim * (1 / 2) * ln sigma_sqrt)%R in
    let L := (INR n * ln (INR n) - INR n * ln (INR N) - INR n * (1 / 2) * ln (2 * PI) - INR n * sigma_multiplier - (INR n - INR K) * (1 / 2))%R in
    Fin (L - p * (1 / 2) * ln (INR N)).
(** with [bic_score], xmeans.py:587-635 *)
Definition bic (clusters : list (list nat)) (centers : list point) : score :=
  let K := length clusters in
  let N := amount clusters in
  if K <? N then
    let sigma_sqrt := (Q2R (sumQ (wsums clusters centers)) / INR (N - K))%R in
    fold_left sadd (map (fun g => bic_score K N (length g) (dimension data) sigma_sqrt) clusters) (Fin 0)
  else fold_left sadd (map (fun _ => Inf) clusters) (Fin 0).

(** x ** 0.5: a negative number gives a complex one, which cannot be compared; for [mndl], xmeans.py:535-584 *)
Definition half_power (x : R) : res R := if Rle_dec 0 x then Ok (sqrt x) else Raise TypeError.

(** xmeans.py:535-584 __minimum_noiseless_description_length *)
Definition mndl (alpha beta : R) (clusters : list (list nat)) (centers : list point) : res score :=
  let K := length clusters in
  if existsb (fun g => length g =? 0) clusters then Ok Inf
  else
    let N := amount clusters in
    let W := Q2R (sumQ (map (fun gc => (wsum (fst gc) (snd gc) / inject_Z (Z.of_nat (length (fst gc))))%Q) (combine clusters centers))) in
    if K <? N then
      let sigma_square := (Q2R (sumQ (wsums clusters centers)) / INR (N - K))%R in
      do sigma <- half_power sigma_square;
      let Kw := ((1 - INR K / INR N) * sigma_square)%R in
      do root <- half_power (alpha * alpha * sigma_square / INR N + W - Kw / 2)%R;
      let Ksa := (2 * alpha * sigma / sqrt (INR N) * root)%R in
      let UQa := (W - Kw + 2 * (alpha * alpha) * sigma_square / INR N + Ksa)%R in
      Ok (Fin (sigma_square * INR K / INR N + UQa + sigma_square * beta * sqrt (2 * INR K) / INR N))
    else Ok Inf.

(** xmeans.py:480-494 *)
Definition split_bic (pcl : list (list nat)) (pce : list point) (ccl : list (list nat)) (cce : list point) : bool :=
  slt (bic pcl pce) (bic ccl cce).
(** cluster/xmeans.py:480-494 *)
Definition split_mndl (alpha beta : R) (pcl : list (list nat)) (pce : list point) (ccl : list (list nat)) (cce : list point) : res bool :=
  do p <- mndl alpha beta pcl pce; do c <- mndl alpha beta ccl cce; Ok (slt c p).
End Criteria.
