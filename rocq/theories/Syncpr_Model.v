(** Model of the pattern recognition network nnet/syncpr.py (python branches).  Patterns and couplings are exact rationals,
    phases are reals. *)
From Verif Require Import Base Kmeans_Model Syncnet_Model Kuramoto_Model.
From Coq Require Import Reals Qreals Lra.

(** for [train_pair], syncpr.py:283-291 *)
Definition entry (m : list (list Q)) (i j : nat) : Q := nth j (nth i m []) 0%Q.
(** for [train_pair], syncpr.py:283-291 *)
Definition set_entry (m : list (list Q)) (i j : nat) (v : Q) : list (list Q) := upd m i (upd (nth i m []) j v).

(** syncpr.py:498-511 __validate_pattern for a network of [n] oscillators *)
Definition validate_pattern (n : nat) (pattern : list Q) : res unit :=
  if negb (length pattern =? n) then Raise NameError
  else if forallb (fun f => Qeq_bool f (-1) || Qeq_bool f 1) pattern then Ok tt else Raise NameError.

(** for [train], syncpr.py:262-291 *)
Fixpoint validate_all (n : nat) (samples : list (list Q)) : res unit :=
  match samples with
  | [] => Ok tt
  | p :: t => do _ <- validate_pattern n p; validate_all n t
  end.

(** syncpr.py:234 the couplings of a new network *)
Definition new_coupling (n : nat) : list (list Q) := repeat (repeat 0%Q n) n.

(** syncpr.py:283-291, the body of the loops for [i] < [j] *)
Definition train_pair (n : nat) (samples : list (list Q)) (m : list (list Q)) (ij : nat * nat) : list (list Q) :=
  let '(i, j) := ij in
  let v := fold_left (fun acc p => (acc + nth i p 0 * nth j p 0)%Q) samples (entry m i j) in
  let m := set_entry m i j (v / inject_Z (Z.of_nat n))%Q in
  set_entry m j i (entry m i j).

(** syncpr.py:262-291 train: the couplings afterwards *)
Definition train (n : nat) (samples : list (list Q)) (coupling : list (list Q)) : res (list (list Q)) :=
  do _ <- validate_all n samples;
  Ok (fold_left (train_pair n samples) (pairs n) coupling).

Open Scope R_scope.

(** for [memory_order_value], syncpr.py:449-464 *)
Definition feature (pattern : list Q) (k : nat) : R := Q2R (nth k pattern 0%Q).

(** syncpr.py:346-350 and 420-424: the phases set for a valid pattern *)
Definition load_pattern (pattern : list Q) : list R := map (fun f => if Qltb 0 f then 0 else PI / 2) pattern.

(** syncpr.py:449-464 __calculate_memory_order; the complex sum by its real and imaginary part; [n] >= 1 *)
Definition memory_order_value (n : nat) (pattern : list Q) (phases : list R) : R :=
  let re := fold_left (fun acc k => acc + feature pattern k * cos (rnth phases k)) (seq 0 n) 0 in
  let im := fold_left (fun acc k => acc + feature pattern k * sin (rnth phases k)) (seq 0 n) 0 in
  sqrt ((re / INR n) * (re / INR n) + (im / INR n) * (im / INR n)).

(** syncpr.py:429-446 memory_order *)
Definition memory_order (n : nat) (pattern : list Q) (phases : list R) : res R :=
  do _ <- validate_pattern n pattern;
  if (n =? 0)%nat then Raise ZeroDivisionError else Ok (memory_order_value n pattern phases).

(** syncpr.py:467-495 _phase_kuramoto *)
Definition phase_kuramoto_pr (n : nat) (coupling : list (list Q)) (strength1 strength2 : R) (phases : list R) (index : nat) (teta : R) : R :=
  let others := filter (fun k => negb (k =? index)) (seq 0 n) in
  let phase := fold_left (fun acc k => acc + Q2R (entry coupling index k) * sin (rnth phases k - teta)) others 0 in
  let term := fold_left (fun acc k => acc + (strength1 * sin (2 * (rnth phases k - teta)) - strength2 * sin (3 * (rnth phases k - teta)))) others 0 in
  phase + term / INR n.

(** syncpr.py:316-392 simulate_dynamic; [next] is one call of _calculate_phases; the loop is that of sync.py *)
Definition syncpr_simulate_dynamic (n : nat) (next : list R -> res (list R)) (fuel : nat) (pattern : list Q) (collect : bool) (order step threshold : R)
    : res (list R * (list (list R) * list R)) :=
  do _ <- validate_pattern n pattern;
  if (n =? 0)%nat then Raise ZeroDivisionError
  else simulate_dynamic next (memory_order_value n pattern) fuel collect order step threshold (load_pattern pattern).

(** Lists of phases are shared between the network and the dynamics it returns.  [m_lists] are the list objects, a reference
    is a position in it; [m_phases] is self._phases. for [ref_step], sync.py:899-911 *)
Record memory := mkMemory { m_lists : list (list R); m_phases : nat }.
(** what is read from a returned dynamic, given by its references; nnet/sync.py:100-108 *)
Definition read_output (m : memory) (dynamic : list nat) : list (list R) := map (fun r => nth r (m_lists m) []) dynamic.

(** sync.py:899-911 and 949-956, one step: _calculate_phases (976-1003) returns a new list *)
Definition ref_step (next : list R -> list R) (m : memory) : memory :=
  mkMemory (m_lists m ++ [next (nth (m_phases m) (m_lists m) [])]) (length (m_lists m)).

(** for [ref_simulate_static], syncpr.py:395-426 *)
Fixpoint ref_loop (next : list R -> list R) (steps : nat) (m : memory) (dynamic : list nat) (collect : bool) : memory * list nat :=
  match steps with
  | O => (m, dynamic)
  | S k => let m := ref_step next m in ref_loop next k m (if collect then dynamic ++ [m_phases m] else dynamic) collect
  end.

(** syncpr.py:395-426 simulate_static with sync.py:928-973: the pattern is written into the list that self._phases refers to
    (also when the division by [steps] = 0 fails) *)
Definition ref_simulate_static (n : nat) (next : list R -> list R) (steps : nat) (pattern : list Q) (collect : bool) (m : memory) : res (memory * list nat) :=
  do _ <- validate_pattern n pattern;
  if (steps =? 0)%nat then Raise ZeroDivisionError else
  let m := mkMemory (upd (m_lists m) (m_phases m) (load_pattern pattern)) (m_phases m) in
  let '(m, dynamic) := ref_loop next steps m (if collect then [m_phases m] else []) collect in
  Ok (m, if collect then dynamic else dynamic ++ [m_phases m]).
