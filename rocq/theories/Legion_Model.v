(** Model of nnet/legion.py (python implementation).  States are reals, parameters and times exact rationals. *)
From Verif Require Import Base Topology_Model Ensembles_Model Gcolor_Model Kuramoto_Model.
From Coq Require Import Reals Lra Qreals.
Open Scope R_scope.

(** legion.py:26-94 legion_parameters *)
Record legion_params := mkLegion {
  l_eps : Q; l_alpha : Q; l_gamma : Q; l_betta : Q; l_lamda : Q; l_teta : Q; l_teta_x : Q; l_teta_p : Q; l_teta_xz : Q; l_teta_zx : Q;
  l_T : Q; l_mu : Q; l_Wz : Q; l_Wt : Q; l_fi : Q; l_ro : Q; l_I : Q; l_potential : bool }.
(** nnet/legion.py:26-94 *)
Definition default_legion : legion_params :=
  mkLegion (2 # 100) (5 # 1000) 6 (1 # 10) (1 # 10) (9 # 10) (-3 # 2) (3 # 2) (1 # 10) (1 # 10) 2 (1 # 100) (3 # 2) 8 3 (2 # 100) (2 # 10) true.

(** what the network keeps between the steps (legion.py:252-265) *)
Record legion_state := mkLState { l_exc : list R; l_inh : list R; l_pot : list R; l_coup : list R; l_ginh : R; l_noise : list R }.

(** legion.py:252-265: excitatory values and noise are drawn *)
Definition legion_create (n : nat) (exc noise : list R) : legion_state := mkLState exc (repeat 0 n) (repeat 0 n) (repeat 0 n) 0 noise.

(** utils/__init__.py:526-539 heaviside *)
Definition heaviside (v : R) : R := if Rlt_dec 0 v then 1 else 0.

(** [result[len(result) - 1]]; for [oscillators], legion.py:417-424 *)
Definition last_of {A : Type} (l : list A) : res A := match rev l with [] => Raise IndexError | x :: _ => Ok x end.

Section Field.
Variables (p : legion_params) (net : network) (stim : list Q) (st : legion_state).

(** legion.py:449-468 _global_inhibitor_state *)
Definition global_field (z t : R) : R :=
  let sigma := if existsb (fun x => if Rlt_dec (Q2R (l_teta_zx p)) x then true else false) (l_exc st) then 1 else 0 in
  Q2R (l_fi p) * (sigma - z).

(** legion.py:471-498 _legion_state_simplify (the sum over the neighbours computed there is not used) *)
Definition simple_field (index : nat) (s : R * R) (t : R) : R * R :=
  let '(x, y) := s in
  (3 * x - x ^ 3 + 2 - y + Q2R (nth index stim 0%Q) + rnth (l_coup st) index + rnth (l_noise st) index,
   Q2R (l_eps p) * (Q2R (l_gamma p) * (1 + tanh (x / Q2R (l_betta p))) - y)).

(** legion.py:501-532 _legion_state *)
Definition full_field (index : nat) (s : R * R * R) (t : R) : R * R * R :=
  let '(x, y, q) := s in
  let influence := heaviside (q + exp (- Q2R (l_alpha p) * t) - Q2R (l_teta p)) in
  let potential := fold_left (fun acc k => acc + Q2R (l_T p) * heaviside (rnth (l_exc st) k - Q2R (l_teta_x p))) (get_neighbors net index) 0 in
  (3 * x - x ^ 3 + 2 - y + Q2R (nth index stim 0%Q) * influence + rnth (l_coup st) index + rnth (l_noise st) index,
   Q2R (l_eps p) * (Q2R (l_gamma p) * (1 + tanh (x / Q2R (l_betta p))) - y),
   Q2R (l_lamda p) * (1 - q) * heaviside (potential - Q2R (l_teta_p p)) - Q2R (l_mu p) * q).

(** legion.py:427-433: the new coupling term of one oscillator; legion_row is the row of __create_dynamic_connections *)
Definition new_coupling (index : nat) : R :=
  let neighbors := get_neighbors net index in
  let row := legion_row (l_Wt p) stim (n_osc net) neighbors index in
  fold_left (fun acc k => acc + Q2R (nth k row 0%Q) * heaviside (rnth (l_exc st) k - Q2R (l_teta_x p))) neighbors 0
  - Q2R (l_Wz p) * heaviside (l_ginh st - Q2R (l_teta_xz p)).
End Field.

Section Solvers.
(** scipy.integrate.odeint for one, two and three unknowns *)
Variable odeint1 : (R -> R -> R) -> R -> list R -> list R.
Variable odeint2 : (R * R -> R -> R * R) -> R * R -> list R -> list (R * R).
Variable odeint3 : (R * R * R -> R -> R * R * R) -> R * R * R -> list R -> list (R * R * R).

(** legion.py:417-424: the new excitatory, inhibitory and potential of the oscillators; without ENABLE_POTENTIONAL the potentials
    are not used and are kept *)
Fixpoint oscillators (p : legion_params) (net : network) (stim : list Q) (st : legion_state) (times : list R) (indexes : list nat) : res (list (R * R * R)) :=
  match indexes with
  | [] => Ok []
  | i :: rest =>
    do v <- (if l_potential p
             then last_of (odeint3 (full_field p net stim st i) (rnth (l_exc st) i, rnth (l_inh st) i, rnth (l_pot st) i) times)
             else do xy <- last_of (odeint2 (simple_field p stim st i) (rnth (l_exc st) i, rnth (l_inh st) i) times); Ok (xy, rnth (l_pot st) i));
    do vs <- oscillators p net stim st times rest;
    Ok (v :: vs)
  end.

(** legion.py:398-445 _calculate_states; [noise] are the drawn values times ro *)
Definition legion_step (p : legion_params) (net : network) (stim : list Q) (noise : list R) (t step int_step : Q) (st : legion_state) : res legion_state :=
  let times := map Q2R (arange (t - step) t int_step) in
  do vs <- oscillators p net stim st times (seq 0 (n_osc net));
  do z <- last_of (odeint1 (global_field p st) (l_ginh st) times);
  Ok (mkLState (map (fun v => fst (fst v)) vs) (map (fun v => snd (fst v)) vs) (map snd vs) (map (new_coupling p net stim st) (seq 0 (n_osc net))) z noise).

(** legion.py:381-393: the states after the steps; [noise k] is drawn in the step number [k] *)
Fixpoint legion_steps (p : legion_params) (net : network) (stim : list Q) (noise : nat -> list R) (step int_step : Q) (k : nat) (times : list Q) (st : legion_state) : res (list legion_state) :=
  match times with
  | [] => Ok []
  | t :: rest =>
    do next <- legion_step p net stim (noise k) t step int_step st;
    do others <- legion_steps p net stim noise step int_step (S k) rest next;
    Ok (next :: others)
  end.

(** legion.py:140-153: legion_dynamic keeps what simulate collected: lists, or the last values only, or None *)
Inductive legion_dynamic :=
| Collected (output : list (list R)) (inhibitor : list R) (time : list Q)
| LastOnly (output : list R) (inhibitor : R) (time : Q)
| NoValues.

(** legion.py:167-175 __len__ *)
Definition dynamic_len (d : legion_dynamic) : res nat :=
  match d with Collected _ _ time => Ok (length time) | LastOnly _ _ _ | NoValues => Raise TypeError end.
(** legion.py:128-137 time *)
Definition dynamic_time (d : legion_dynamic) : res (list nat) := do n <- dynamic_len d; Ok (seq 0 n).

(** legion.py:335-395 simulate for [time] > 0: the network afterwards and the dynamic *)
Definition legion_simulate (p : legion_params) (net : network) (noise : nat -> list R) (steps : nat) (time : Q) (stimulus : list Q) (solution : solver) (collect : bool) (st : legion_state)
    : res (legion_state * legion_dynamic) :=
  match solution with
  | FAST | RKF45 => Raise NameError
  | RK4 =>
    if negb (length stimulus =? n_osc net)%nat then Raise NameError
    else
      let stim := legion_stimulus (l_I p) stimulus in
      if (steps =? 0)%nat then Raise ZeroDivisionError
      else
        let step := (time / inject_Z (Z.of_nat steps))%Q in
        let times := arange step (time + step) step in
        do sts <- legion_steps p net stim noise step (step / 10) 0 times st;
        Ok (last sts st,
            if collect then Collected (map l_exc sts) (map l_ginh sts) times
            else match rev sts with
                 | [] => NoValues
                 | s :: _ => LastOnly (l_exc s) (l_ginh s) (last times 0%Q)
                 end)
  end.
End Solvers.
