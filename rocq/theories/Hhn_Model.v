(** Model of the oscillatory network of Hodgkin-Huxley neurons nnet/hhn.py (python implementation).  States are reals, times and
    parameters exact rationals. *)
From Verif Require Import Base Topology_Model Gcolor_Model Kuramoto_Model.
From Coq Require Import Reals Lra Qreals.
Open Scope R_scope.

(** hhn.py:25-110 hhn_parameters *)
Record hhn_params := mkHhn { gNa : Q; gK : Q; gL : Q; vNa : Q; vK : Q; vL : Q; vRest : Q; Icn1 : Q; Icn2 : Q; Vsyninh : Q; Vsynexc : Q;
  alfa_inh : Q; betta_inh : Q; alfa_exc : Q; betta_exc : Q; w1 : Q; w2 : Q; w3 : Q; deltah : Q; threshold : Q; eps : Q }.
(** the noise [nu] is drawn; nnet/hhn.py:25-110 *)
Definition default_hhn (nu : Q) : hhn_params :=
  mkHhn (120 * (1 + (2 # 100) * nu)) (36 * (1 + (2 # 100) * nu)) ((3 # 10) * (1 + (2 # 100) * nu)) 50 (-77) (-544 # 10) (-65) 5 30 (-80) 0 6 (3 # 10) 40 2 (1 # 10) 9 5 650 (-10) (16 # 100).

(** membrane potential and the conductances m, h, n; for [central], hhn.py:113-143 *)
Definition quad : Type := R * R * R * R.
(** hhn.py:113-143 central_element *)
Record central := mkCentral { c_state : quad; c_pulse : bool; c_times : list Q }.
(** hhn.py:226-238; per peripheral neuron: state, link activation time, link pulse counter, link weight, pulse times and flag *)
Record peripheral := mkPeripheral { p_state : quad; p_activation : Q; p_counter : Q; p_weight3 : Q; p_times : list Q; p_pulse : bool }.
(** with [peripheral], hhn.py:226-238 *)
Record hhn_network := mkNetwork { h_params : hhn_params; h_stimulus : list Q; h_noise : list Q; h_pn : list peripheral; h_cn1 : central; h_cn2 : central }.

(** for [hhn_create], hhn.py:193-238 *)
Definition new_peripheral : peripheral := mkPeripheral (0, 0, 0, 0) 0 0 0 [] false.
(** for [hhn_create], hhn.py:193-238 *)
Definition new_central : central := mkCentral (0, 0, 0, 0) false [].
(** hhn.py:193-238 __init__; [noise] is drawn, no stimulus means zeros *)
Definition hhn_create (n : nat) (stimulus : option (list Q)) (p : hhn_params) (noise : list Q) : hhn_network :=
  mkNetwork p (match stimulus with None => repeat 0%Q n | Some s => s end) noise (repeat new_peripheral n) new_central new_central.

(** hhn.py:539-551 __alfa_function *)
Definition alfa_function (time : R) (alfa betta : Q) : R := Q2R alfa * time * exp (- Q2R betta * time).

(** for [currents], hhn.py:473-506 *)
Definition memory_impact (t : R) (times : list Q) (alfa betta : Q) : R := fold_left (fun acc tp => acc + alfa_function (t - Q2R tp) alfa betta) times 0.

(** hhn.py:473-506: external and synaptic current *)
Definition currents (net : hhn_network) (v t : R) (index : nat) : res (R * R) :=
  let p := h_params net in
  let n := length (h_pn net) in
  if (index <? n)%nat then
    Ok (Q2R (nth index (h_stimulus net) 0%Q) * Q2R (nth index (h_noise net) 0%Q),
        Q2R (w2 p) * (v - Q2R (Vsyninh p)) * memory_impact t (c_times (h_cn1 net)) (alfa_inh p) (betta_inh p) +
        Q2R (p_weight3 (nth index (h_pn net) new_peripheral)) * (v - Q2R (Vsyninh p)) * memory_impact t (c_times (h_cn2 net)) (alfa_inh p) (betta_inh p))
  else if (index =? n)%nat then
    Ok (Q2R (Icn1 p), Q2R (w1 p) * (v - Q2R (Vsynexc p)) *
      fold_left (fun acc pn => fold_left (fun acc tp => acc + alfa_function (t - Q2R tp) (alfa_exc p) (betta_exc p)) (p_times pn) acc) (h_pn net) 0)
  else if (index =? S n)%nat then Ok (Q2R (Icn2 p), 0)
  else Raise AssertionError.

(** hhn.py:442-525 hnn_state, called with a list of python floats (inside odeint the operands are numpy scalars and the two
    divisions give nan with a warning instead of the exception) *)
Definition hnn_state (net : hhn_network) (inputs : quad) (t : R) (index : nat) : res quad :=
  let p := h_params net in
  let '(v, m, h, n) := inputs in
  let Iion := Q2R (gNa p) * m ^ 3 * h * (v - Q2R (vNa p)) + Q2R (gK p) * n ^ 4 * (v - Q2R (vK p)) + Q2R (gL p) * (v - Q2R (vL p)) in
  do c <- currents net v t index;
  let '(Iext, Isyn) := c in
  let dv := - Iion + Iext - Isyn in
  let potential := v - Q2R (vRest p) in
  if Req_EM_T (exp (5 / 2 - 1 / 10 * potential) - 1) 0 then Raise ZeroDivisionError else
  let am := (5 / 2 - 1 / 10 * potential) / (exp (5 / 2 - 1 / 10 * potential) - 1) in
  let ah := 7 / 100 * exp (- potential / 20) in
  if Req_EM_T (exp (1 - 1 / 10 * potential) - 1) 0 then Raise ZeroDivisionError else
  let an := (1 / 10 - 1 / 100 * potential) / (exp (1 - 1 / 10 * potential) - 1) in
  let bm := 4 * exp (- potential / 18) in
  let bh := 1 / (exp (3 - 1 / 10 * potential) + 1) in
  let bn := 1 / 8 * exp (- potential / 80) in
  Ok (dv, am * (1 - m) - bm * m, ah * (1 - h) - bh * h, an * (1 - n) - bn * n).

Section Simulation.
(** scipy.integrate.odeint for four unknowns; the derivative may fail (numpy's nan) *)
Variable odeint : (quad -> R -> res quad) -> quad -> list R -> list quad.

(** for [next_states], hhn.py:346-352 *)
Definition last_row (l : list quad) : res quad := match rev l with [] => Raise IndexError | x :: _ => Ok x end.

(** hhn.py:346-352 and 360-366: next states of the neurons with the given indexes *)
Fixpoint next_states (net : hhn_network) (times : list R) (l : list (nat * quad)) : res (list quad) :=
  match l with
  | [] => Ok []
  | (index, s) :: rest =>
    do v <- last_row (odeint (fun s t => hnn_state net s t index) s times);
    do vs <- next_states net times rest;
    Ok (v :: vs)
  end.

(** for [update_peripheral], hhn.py:379-415 *)
Definition membrane (s : quad) : R := let '(v, _, _, _) := s in v.

(** hhn.py:398-403 and 435-440: flag and times of the pulses *)
Definition pulse (t : Q) (v : R) (flag : bool) (times : list Q) : bool * list Q :=
  if flag then (if Rlt_dec v 0 then (false, times) else (flag, times))
  else (if Rle_dec 0 v then (true, times ++ [t]) else (flag, times)).

(** hhn.py:406-415: the connection from CN2; activation time, counter and weight *)
Definition link (p : hhn_params) (t step : Q) (v : R) (activation counter weight : Q) : Q * Q * Q :=
  if Qeq_bool weight 0 then
    if Rlt_dec (Q2R (threshold p)) v then
      let counter := (counter + step)%Q in
      if Qle_bool (1 / eps p) counter then (t, counter, w3 p) else (activation, counter, weight)
    else (activation, counter, weight)
  else if negb (Qltb activation t && Qltb t (activation + deltah p)) then (activation, 0%Q, 0%Q)
  else (activation, counter, weight).

(** hhn.py:379-415 __update_peripheral_neurons, one neuron *)
Definition update_peripheral (p : hhn_params) (t step : Q) (pn : peripheral) (s : quad) : peripheral :=
  let '(flag, times) := pulse t (membrane s) (p_pulse pn) (p_times pn) in
  let '(activation, counter, weight) := link p t step (membrane s) (p_activation pn) (p_counter pn) (p_weight3 pn) in
  mkPeripheral s activation counter weight times flag.

(** hhn.py:417-440 __update_central_neurons, one element *)
Definition update_central (t : Q) (c : central) (s : quad) : central :=
  let '(flag, times) := pulse t (membrane s) (c_pulse c) (c_times c) in mkCentral s flag times.

(** hhn.py:326-377 _calculate_states; [noise] are the drawn values *)
Definition calculate_states (noise : list Q) (t step int_step : Q) (net : hhn_network) : res hhn_network :=
  let n := length (h_pn net) in
  let times := map Q2R (arange (t - step) t int_step) in
  do ps <- next_states net times (combine (seq 0 n) (map p_state (h_pn net)));
  do cs <- next_states net times [(n, c_state (h_cn1 net)); (S n, c_state (h_cn2 net))];
  Ok (mkNetwork (h_params net) (h_stimulus net) noise
        (map (fun q => update_peripheral (h_params net) t step (fst q) (snd q)) (combine (h_pn net) ps))
        (update_central t (h_cn1 net) (nth 0 cs (0, 0, 0, 0))) (update_central t (h_cn2 net) (nth 1 cs (0, 0, 0, 0)))).

(** hhn.py:314-321: the networks after the steps *)
Fixpoint hhn_steps (noise : nat -> list Q) (step int_step : Q) (k : nat) (times : list Q) (net : hhn_network) : res (list hhn_network) :=
  match times with
  | [] => Ok []
  | t :: rest =>
    do next <- calculate_states (noise k) t step int_step net;
    do others <- hhn_steps noise step int_step (S k) rest next;
    Ok (next :: others)
  end.

(** for [hhn_simulate], hhn.py:248-324 *)
Definition potentials (net : hhn_network) : list R := map (fun pn => membrane (p_state pn)) (h_pn net).
(** for [hhn_simulate], hhn.py:248-324 *)
Definition central_potentials (net : hhn_network) : list R := [membrane (c_state (h_cn1 net)); membrane (c_state (h_cn2 net))].

(** hhn.py:248-324 simulate and simulate_static for [time] > 0: the network afterwards; times, membrane potentials of the peripheral
    and of the central neurons *)
Definition hhn_simulate (noise : nat -> list Q) (steps : nat) (time : Q) (solution : solver) (net : hhn_network) : res (hhn_network * (list Q * list (list R) * list (list R))) :=
  match solution with
  | FAST | RKF45 => Raise NameError
  | RK4 =>
    if (steps =? 0)%nat then Raise ZeroDivisionError
    else
      let step := (time / inject_Z (Z.of_nat steps))%Q in
      let times := arange step (time + step) step in
      do nets <- hhn_steps noise step (step / 10) 0 times net;
      Ok (last nets net, (0%Q :: times, potentials net :: map potentials nets, [0; 0] :: map central_potentials nets))
  end.
End Simulation.
