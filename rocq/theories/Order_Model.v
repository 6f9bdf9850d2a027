(** nnet/sync.py: order parameters of a phase vector (real arithmetic). *)
From Verif Require Import Base.
From Coq Require Import Reals.
Open Scope R_scope.

(** for [calculate_sync_order], nnet/sync.py:35-60 *)
Definition rsum (l : list R) : R := fold_left Rplus l 0.
(** for [calculate_sync_order], nnet/sync.py:35-60 *)
Definition rlen {A : Type} (l : list A) : R := INR (length l).

(** nnet/sync.py:35-60 order_estimator.calculate_sync_order; [abs(1j * x)] is [Rabs x] and
    [math.expm1 x] is [exp x - 1]; division by zero is python's ZeroDivisionError *)
Definition calculate_sync_order (phases : list R) : res R :=
  match phases with
  | [] => Raise ZeroDivisionError
  | _ =>
      let exp_amount := rsum (map (fun p => exp (Rabs p) - 1) phases) / rlen phases in
      let average_phase := exp (Rabs (rsum phases / rlen phases)) - 1 in
      if Req_EM_T (Rabs exp_amount) 0 then Raise ZeroDivisionError
      else Ok (Rabs average_phase / Rabs exp_amount)
  end.

(** nnet/sync.py:80-84: the connected ordered pairs in the order of the loops *)
Definition connected_pairs (n : nat) (conn : nat -> nat -> bool) : list (nat * nat) :=
  filter (fun ij => conn (fst ij) (snd ij)) (list_prod (seq 0 n) (seq 0 n)).

(** nnet/sync.py:63-89 order_estimator.calculate_local_sync_order; [conn] is has_connection *)
Definition calculate_local_sync_order (phases : list R) (n : nat) (conn : nat -> nat -> bool) : R :=
  let pairs := connected_pairs n conn in
  let exp_amount := rsum (map (fun ij => exp (- Rabs (nth (snd ij) phases 0 - nth (fst ij) phases 0))) pairs) in
  let num_neigh := if length pairs =? 0 then 1 else rlen pairs in
  exp_amount / num_neigh.

(** nnet/sync.py:281-314 allocate_correlation_matrix of one state *)
Definition correlation_matrix (state : list R) : list (list R) :=
  map (fun p1 => map (fun p2 => Rabs (sin (p1 - p2))) state) state.
