(** Model of the simulation of phase oscillators: nnet/sync.py sync_network and cluster/syncnet.py (python branches, solver
    FAST).  Numbers are reals. *)
From Verif Require Import Base Topology_Model.
From Coq Require Import Reals Lra.
Open Scope R_scope.

(** [self._phases[k]] and the like; for [phase_kuramoto], sync.py:820-838 *)
Definition rnth (l : list R) (k : nat) : R := nth k l 0.

(** sync.py:820-838 sync_network._phase_kuramoto *)
Definition phase_kuramoto (net : network) (weight : R) (freq phases : list R) (index : nat) (teta : R) : R :=
  let phase := fold_left (fun acc k => if has_connection net index k then acc + sin (rnth phases k - teta) else acc) (seq 0 (n_osc net)) 0 in
  rnth freq index + phase * weight / INR (n_osc net).

(** syncnet.py:308-335 syncnet._phase_kuramoto; [conn_weight] is None without weights *)
Definition phase_kuramoto_syncnet (net : network) (weight : R) (conn_weight : option (nat -> nat -> R)) (freq phases : list R) (index : nat) (teta : R) : R :=
  let neighbors := get_neighbors net index in
  let phase := fold_left (fun acc k =>
    let w := match conn_weight with None => 1 | Some m => m index k end in acc + w * weight * sin (rnth phases k - teta)) neighbors 0 in
  let divider := match neighbors with [] => 1 | _ => INR (length neighbors) end in
  rnth freq index + phase / divider.

(** sync.py:1006-1023 _phase_normalization *)
Fixpoint phase_normalization (fuel : nat) (teta : R) : res R :=
  if Rlt_dec (2 * PI) teta then match fuel with O => Raise OutOfFuel | S f => phase_normalization f (teta - 2 * PI) end
  else if Rlt_dec teta 0 then match fuel with O => Raise OutOfFuel | S f => phase_normalization f (teta + 2 * PI) end
  else Ok teta.

(** sync.py:976-1003 _calculate_phases with solve_type.FAST; [kuramoto index teta] is self._phase_kuramoto with the phases of
    the call *)
Fixpoint calculate_phases (fuel : nat) (kuramoto : nat -> R -> R) (phases : list R) (indexes : list nat) : res (list R) :=
  match indexes with
  | [] => Ok []
  | index :: t =>
    do p <- phase_normalization fuel (rnth phases index + kuramoto index (rnth phases index));
    do ps <- calculate_phases fuel kuramoto phases t;
    Ok (p :: ps)
  end.

Section Simulation.
(** one call of _calculate_phases *)
Variable next_phases : list R -> res (list R).
(** self.sync_local_order() for the given phases *)
Variable local_order : list R -> R.

(** sync.py:899-918, the loop of simulate_dynamic; the collected phases and times are returned when [collect] *)
Fixpoint dynamic_loop (fuel : nat) (collect : bool) (order step threshold : R) (phases : list R) (current time : R)
    (dyn : list (list R) * list R) : res (list R * R * (list (list R) * list R)) :=
  if Rlt_dec current order then
    match fuel with
    | O => Raise OutOfFuel
    | S fuel =>
      do phases <- next_phases phases;
      let time := time + step in
      let dyn := if collect then (fst dyn ++ [phases], snd dyn ++ [time]) else dyn in
      let previous := current in
      let current := local_order phases in
      if Rlt_dec (Rabs (current - previous)) threshold then Ok (phases, time, dyn)
      else dynamic_loop fuel collect order step threshold phases current time dyn
    end
  else Ok (phases, time, dyn).

(** sync.py:861-925 simulate_dynamic: the final phases of the network and the returned sync_dynamic (output, time) *)
Definition simulate_dynamic (fuel : nat) (collect : bool) (order step threshold : R) (phases : list R) : res (list R * (list (list R) * list R)) :=
  let dyn := if collect then ([phases], [0]) else ([], []) in
  do r <- dynamic_loop fuel collect order step threshold phases (local_order phases) 0 dyn;
  let '(phases, time, dyn) := r in
  Ok (phases, if collect then dyn else (fst dyn ++ [phases], snd dyn ++ [time])).
End Simulation.
