(** gcolor/sync.py: the equation of the graph colouring network.  Numbers are reals, the solver is FAST. *)
From Verif Require Import Base Topology_Model Kuramoto_Model.
From Coq Require Import Reals.
Local Open Scope R_scope.

(** gcolor/sync.py:115-136 syncgcolor._phase_kuramoto *)
Definition phase_gcolor (net : network) (positive negative reduction : R) (phases : list R) (index : nat) (teta : R) : R :=
  let phase := fold_left (fun acc k => if has_connection net index k then acc + negative * sin (rnth phases k - teta) else acc + positive * sin (rnth phases k - teta)) (seq 0 (n_osc net)) 0 in
  phase / reduction.
(** gcolor/sync.py:89-92: the divider; the number of oscillators when it is not given *)
Definition reduction_of (net : network) (reduction : option R) : R := match reduction with None => INR (n_osc net) | Some r => r end.
(** nnet/sync.py:976-1003 _calculate_phases of a network of gcolor/sync.py:70-136, solve_type.FAST *)
Definition gcolor_step (fuel : nat) (net : network) (positive negative : R) (reduction : option R) (phases : list R) : res (list R) :=
  calculate_phases fuel (phase_gcolor net positive negative (reduction_of net reduction) phases) phases (seq 0 (n_osc net)).
