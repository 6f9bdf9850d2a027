(** Model of the simulation of sync_network with its numerical solvers: nnet/sync.py (python branches).  Phases are reals, times
    exact rationals. *)
From Verif Require Import Base Topology_Model Gcolor_Model Kuramoto_Model.
From Coq Require Import Reals Lra Qreals.
Open Scope R_scope.

Section Solver.
(** scipy.integrate.odeint for one unknown: derivative, initial value and times to the values at these times *)
Variable odeint : (R -> R -> R) -> R -> list R -> list R.
(** self._phase_kuramoto with the phases of the network *)
Variable kuramoto : list R -> nat -> R -> R.

(** sync.py:997-998 for one oscillator; [result[len(result) - 1]] of an empty result raises *)
Definition integrate_phase (fuel : nat) (phases : list R) (t step int_step : Q) (index : nat) : res R :=
  match rev (odeint (fun teta _ => kuramoto phases index teta) (rnth phases index) (map Q2R (arange (t - step) t int_step))) with
  | [] => Raise IndexError
  | p :: _ => phase_normalization fuel p
  end.

(** for [solve_phases], sync.py:976-1003 *)
Fixpoint integrate_phases (fuel : nat) (phases : list R) (t step int_step : Q) (indexes : list nat) : res (list R) :=
  match indexes with
  | [] => Ok []
  | index :: rest =>
    do p <- integrate_phase fuel phases t step int_step index;
    do ps <- integrate_phases fuel phases t step int_step rest;
    Ok (p :: ps)
  end.

(** sync.py:976-1003 _calculate_phases, all solvers *)
Definition solve_phases (fuel : nat) (solution : solver) (phases : list R) (t step int_step : Q) : res (list R) :=
  match solution with
  | FAST => calculate_phases fuel (kuramoto phases) phases (seq 0 (length phases))
  | RK4 | RKF45 => integrate_phases fuel phases t step int_step (seq 0 (length phases))
  end.

(** sync.py:959-966: the phases after every step *)
Fixpoint static_phases (fuel : nat) (solution : solver) (step int_step : Q) (times : list Q) (phases : list R) : res (list (list R)) :=
  match times with
  | [] => Ok []
  | t :: rest =>
    do next <- solve_phases fuel solution phases t step int_step;
    do others <- static_phases fuel solution step int_step rest next;
    Ok (next :: others)
  end.

(** sync.py:928-973 simulate_static: output and time of the dynamic *)
Definition simulate_phases (fuel : nat) (solution : solver) (collect : bool) (steps : nat) (time : Q) (phases : list R) : res (list (list R) * list Q) :=
  if (steps =? 0)%nat then Raise ZeroDivisionError
  else
    let step := (time / inject_Z (Z.of_nat steps))%Q in
    let int_step := (step / 10)%Q in
    let times := arange step (time + step) step in
    do outs <- static_phases fuel solution step int_step times phases;
    Ok (if collect then (phases :: outs, 0%Q :: times) else ([last outs phases], [time])).
End Solver.
