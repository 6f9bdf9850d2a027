(** cluster/ema.py with real arithmetic.  The values of the densities are a parameter of the algorithm: [None] stands for
    infinity (a zero covariance, ema.py:49-52) and zero is possible (numpy.exp may underflow).  The function [gaussian]
    itself is below, up to the pseudo-inverse. *)
From Verif Require Import Base Kmeans_Model Metric_Model Fcm_Model.
From Coq Require Import Reals.
Local Open Scope R_scope.

(** for [quadratic], ema.py:58 *)
Definition matrix := list (list R).

(** numpy.linalg.norm of a matrix (Frobenius); for [gaussian], ema.py:29-61 *)
Definition norm (m : matrix) : R := sqrt (rtotal (map (fun x => x ^ 2) (concat m))).

(** the exponent of ema.py:58: delta * inverse * delta^T *)
Definition quadratic (inverse : matrix) (delta : rpoint) : R :=
  rtotal (map2 (fun row x => x * rtotal (map2 Rmult row delta)) inverse delta).
(** one value of ema.py:29-61 gaussian; [pinv] is numpy.linalg.pinv, which for one dimension is 1.0 / covariance;
    (2 pi) ** (dimension / 2) is written with Rpower *)
Definition gaussian (pinv : matrix -> matrix) (mean : rpoint) (covariance : matrix) (point : rpoint) : option R :=
  let divider := Rpower (PI * 2) (INR (length point) / 2) * sqrt (norm covariance) in
  if Req_EM_T divider 0 then None
  else Some (1 / divider * exp (- (1 / 2) * quadratic (pinv covariance) (map2 Rminus point mean))).

Section Ema.
Variable data : list rpoint.
Variable density : rpoint -> matrix -> rpoint -> option R.
Notation n := (length data).
(** with [gaussian], ema.py:29-61 *)
Definition width : nat := length (nth 0 data []).

(** for [probability], ema.py:646-654 *)
Record state := { amount : nat; means : list rpoint; variances : list matrix; pic : list R;
                  gaussians : list (list (option R)); rc : list (list R); clusters : list (list nat) }.

(** pic[i] * gaussians[i][index_point], summed: ema.py:648-649 and 637-638 *)
Definition times (p : R) (g : option R) : option R := match g with Some x => Some (p * x) | None => None end.
(** with [times], ema.py:648-649 *)
Fixpoint total (l : list (option R)) : option R :=
  match l with
  | [] => Some 0
  | Some x :: t => match total t with Some s => Some (x + s) | None => None end
  | None :: _ => None
  end.
(** with [times], ema.py:648-649 *)
Definition mixture (s : state) (i : nat) : option R :=
  total (map (fun c => times (nth c (pic s) 0) (nth i (nth c (gaussians s) []) None)) (seq 0 (amount s))).

(** ema.py:646-654 __probabilities *)
Definition probability (s : state) (c i : nat) : R :=
  match mixture s i with
  | Some d => if Req_EM_T d 0 then 1 else
      match nth i (nth c (gaussians s) []) None with Some g => nth c (pic s) 0 * g / d | None => 1 end
  | None => 1
  end.

(** ema.py:657-665 __expectation_step; a missing mean or variance is an IndexError *)
Definition expectation (s : state) : res state :=
  if (length (means s) <? amount s)%nat || (length (variances s) <? amount s)%nat || (length (pic s) <? amount s)%nat then Raise IndexError else
  let g := map (fun c => map (density (nth c (means s) []) (nth c (variances s) [])) data) (seq 0 (amount s)) in
  let s' := {| amount := amount s; means := means s; variances := variances s; pic := pic s; gaussians := g; rc := rc s; clusters := clusters s |} in
  Ok {| amount := amount s; means := means s; variances := variances s; pic := pic s; gaussians := g;
        rc := map (fun c => map (probability s' c) (seq 0 n)) (seq 0 (amount s)); clusters := clusters s |}.

(** ema.py:707-713 __update_mean *)
Definition update_mean (row : list R) (mc : R) : rpoint :=
  map (fun d => rtotal (map (fun i => nth i row 0 * nth d (nth i data []) 0) (seq 0 n)) / mc) (seq 0 width).
(** ema.py:697-704 __update_covariance *)
Definition update_covariance (mean : rpoint) (row : list R) (mc : R) : matrix :=
  map (fun a => map (fun b => rtotal (map (fun i => nth i row 0 * ((nth a (nth i data []) 0 - nth a mean 0) * (nth b (nth i data []) 0 - nth b mean 0))) (seq 0 n)) / mc)
                    (seq 0 width)) (seq 0 width).
(** ema.py:668-686 __maximization_step: clusters without any responsibility are left out, their responsibilities and
    densities are not *)
Definition possible (s : state) : list nat := filter (fun c => if Req_EM_T (rtotal (nth c (rc s) [])) 0 then false else true) (seq 0 (amount s)).
(** with [possible], ema.py:668-686 *)
Definition maximization (s : state) : state :=
  let mean c := update_mean (nth c (rc s) []) (rtotal (nth c (rc s) [])) in
  {| amount := length (possible s);
     means := map mean (possible s);
     variances := map (fun c => update_covariance (mean c) (nth c (rc s) []) (rtotal (nth c (rc s) []))) (possible s);
     pic := map (fun c => rtotal (nth c (rc s) []) / INR n) (possible s);
     gaussians := gaussians s; rc := rc s; clusters := clusters s |}.

(** ema.py:596-611 __erase_empty_clusters *)
Definition keep {A} (d : A) (idx : list nat) (l : list A) : list A := map (fun c => nth c l d) idx.
(** with [keep], ema.py:596-611 *)
Definition erase_empty (s : state) : state :=
  let idx := filter (fun c => nonempty (nth c (clusters s) [])) (seq 0 (length (clusters s))) in
  if (length idx =? length (clusters s))%nat then s
  else {| amount := length idx; means := keep [] idx (means s); variances := keep [] idx (variances s); pic := keep 0 idx (pic s);
          gaussians := keep [] idx (gaussians s); rc := keep [] idx (rc s); clusters := keep [] idx (clusters s) |}.

(** ema.py:619-629 __extract_clusters: the first largest of the candidates; max of no candidates is a ValueError *)
Definition candidates (s : state) (i : nat) : list R := map (fun c => nth i (nth c (rc s) []) 0) (seq 0 (amount s)).
(** with [candidates], ema.py:619-629 *)
Definition extract (s : state) : res state :=
  if (amount s =? 0)%nat then Raise ValueError
  else Ok (erase_empty {| amount := amount s; means := means s; variances := variances s; pic := pic s; gaussians := gaussians s; rc := rc s;
     clusters := fold_left (fun cl i => push cl (argmax (candidates s i)) i) (seq 0 n) (repeat [] (amount s)) |}).

(** ema.py:632-643 __log_likelihood; [None] is infinity *)
Definition log_term (p : option R) : option R :=
  match p with Some x => if Rlt_dec 0 x then Some (ln x) else Some 0 | None => None end.
(** with [log_term], ema.py:632-643 *)
Definition log_likelihood (s : state) : option R := total (map (fun i => log_term (mixture s i)) (seq 0 n)).
(** abs(previous - current) > tolerance; infinity - infinity is not a number; for [loop], ema.py:526-541 *)
Definition changed (tolerance : R) (previous current : option R) : bool :=
  match previous, current with
  | Some a, Some b => if Rlt_dec tolerance (Rabs (a - b)) then true else false
  | None, None => false
  | _, _ => true
  end.
(** ema.py:689-694 __get_stop_condition *)
Definition stop_condition (s : state) : bool := existsb (fun v => if Req_EM_T (norm v) 0 then true else false) (variances s).

(** the body of the loop, ema.py:531-536 *)
Definition step (s : state) : res state := do e <- expectation s; extract (maximization e).
(** ema.py:526-541 *)
Fixpoint loop (tolerance : R) (left : nat) (stop : bool) (previous current : option R) (s : state) : res state :=
  match left with
  | O => Ok s
  | S left' =>
      if stop || negb (changed tolerance previous current) then Ok s
      else do s' <- step s; loop tolerance left' (stop_condition s') current (log_likelihood s') s'
  end.

(** ema.py:716-733 __normalize_probabilities *)
Definition normalize (s : state) : state :=
  let p i := rtotal (map (fun c => nth i (nth c (rc s) []) 0) (seq 0 (length (clusters s)))) in
  let factor i := if Rlt_dec (1 / 1000000) (Rabs (p i - 1)) then (if Req_EM_T (p i) 0 then 1 else 1 / p i) else 1 in
  {| amount := amount s; means := means s; variances := variances s; pic := pic s; gaussians := gaussians s; clusters := clusters s;
     rc := map (fun c => if (c <? length (clusters s))%nat then map (fun i => nth i (nth c (rc s) []) 0 * factor i) (seq 0 n) else nth c (rc s) []) (seq 0 (length (rc s))) |}.

(** ema.py:475-515 the constructor with the checks 736-746 and given means and variances, and 518-544 process *)
Definition ema_process (amount_clusters : nat) (initial_means : list rpoint) (initial_variances : list matrix) (tolerance : R) (iterations : nat) : res state :=
  if (n =? 0)%nat then Raise ValueError else
  if (amount_clusters =? 0)%nat then Raise ValueError else
  do s <- loop tolerance iterations false (Some (-200000)) (Some (-100000))
     {| amount := amount_clusters; means := initial_means; variances := initial_variances; pic := repeat 1 amount_clusters;
        gaussians := repeat [] amount_clusters; rc := repeat (repeat 0 n) amount_clusters; clusters := [] |};
  Ok (normalize s).
End Ema.
