(** Model of the dynamics of nnet/hysteresis.py (python implementation).  States and outputs are reals, weights and times exact
    rationals. *)
From Verif Require Import Base Topology_Model Gcolor_Model Kuramoto_Model.
From Coq Require Import Reals Lra Qreals.
Open Scope R_scope.

(** nnet/hysteresis.py:224-237: connections, weights, states, outputs and the buffer of the outputs *)
Record hyst_network := mkHyst { y_net : network; y_weight : list (list Q); y_states : list R; y_outputs : list R; y_buffer : list R }.

(** nnet/hysteresis.py:210-237 __init__ *)
Definition hyst_create (net : network) (own_weight neigh_weight : Q) : hyst_network :=
  let n := n_osc net in
  mkHyst net (map (fun i => upd (repeat neigh_weight n) i own_weight) (seq 0 n)) (repeat 0 n) (repeat (-1) n) (repeat (-1) n).

(** nnet/hysteresis.py:189-207: the setters of outputs and states *)
Definition set_outputs (h : hyst_network) (values : list R) : hyst_network := mkHyst (y_net h) (y_weight h) (y_states h) values values.
(** nnet/hysteresis.py:201-207 *)
Definition set_states (h : hyst_network) (values : list R) : hyst_network := mkHyst (y_net h) (y_weight h) values (y_outputs h) (y_buffer h).

(** for [impact], nnet/hysteresis.py:255-260 *)
Definition weight (h : hyst_network) (i j : nat) : R := Q2R (nth j (nth i (y_weight h) []) 0%Q).

(** nnet/hysteresis.py:255-260: the impact on the neuron *)
Definition impact (h : hyst_network) (index : nat) : R :=
  fold_left (fun acc i => if has_connection (y_net h) i index then acc + weight h index i * rnth (y_outputs h) i else acc)
    (seq 0 (n_osc (y_net h))) (weight h index index * rnth (y_outputs h) index).

(** nnet/hysteresis.py:262: the derivative *)
Definition neuron_field (h : hyst_network) (index : nat) (x t : R) : R := - x + impact h index.

(** nnet/hysteresis.py:264-265: the buffered output after an evaluation of the derivative at the state [x] *)
Definition switch (output x : R) : R :=
  let output := if Rlt_dec 1 x then 1 else output in if Rlt_dec x (-1) then -1 else output.

Section Solver.
(** scipy.integrate.odeint for one unknown, and the states at which it evaluates the derivative meanwhile *)
Variable odeint : (R -> R -> R) -> R -> list R -> list R.
Variable evaluated : (R -> R -> R) -> R -> list R -> list R.

(** nnet/hysteresis.py:350-352: the new states *)
Fixpoint neuron_states (h : hyst_network) (times : list R) (indexes : list nat) : res (list R) :=
  match indexes with
  | [] => Ok []
  | index :: rest =>
    match rev (odeint (neuron_field h index) (rnth (y_states h) index) times) with
    | [] => Raise IndexError
    | x :: _ => do xs <- neuron_states h times rest; Ok (x :: xs)
    end
  end.

(** nnet/hysteresis.py:335-355 _calculate_states and the assignment of the states (321) *)
Definition hyst_step (t step int_step : Q) (h : hyst_network) : res hyst_network :=
  let times := map Q2R (arange (t - step) t int_step) in
  let indexes := seq 0 (n_osc (y_net h)) in
  do next <- neuron_states h times indexes;
  let buffer := map (fun i => fold_left switch (evaluated (neuron_field h i) (rnth (y_states h) i) times) (rnth (y_buffer h) i)) indexes in
  Ok (mkHyst (y_net h) (y_weight h) next buffer buffer).

(** nnet/hysteresis.py:319-326: the networks after the steps *)
Fixpoint hyst_steps (step int_step : Q) (times : list Q) (h : hyst_network) : res (list hyst_network) :=
  match times with
  | [] => Ok []
  | t :: rest =>
    do next <- hyst_step t step int_step h;
    do others <- hyst_steps step int_step rest next;
    Ok (next :: others)
  end.

(** nnet/hysteresis.py:286-332 simulate_static with the solver RK4, collecting, for [time] > 0 (the other cases are in
    Gcolor_Model.v): the network afterwards, the states and the times *)
Definition hyst_simulate (steps : nat) (time : Q) (h : hyst_network) : res (hyst_network * (list (list R) * list Q)) :=
  if (steps =? 0)%nat then Raise ZeroDivisionError
  else
    let step := (time / inject_Z (Z.of_nat steps))%Q in
    let times := arange step (time + step) step in
    do hs <- hyst_steps step (step / 10) times h;
    Ok (last hs h, (y_states h :: map y_states hs, 0%Q :: times)).
End Solver.
