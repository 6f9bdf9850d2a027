(** Model of the pulse coupled neural network nnet/pcnn.py (python implementation).  Numbers are exact rationals, outputs 0 and 1. *)
From Verif Require Import Base Topology_Model.

(** for [influence], pcnn.py:452-457 *)
Definition qn (k : nat) : Q := inject_Z (Z.of_nat k).

(** pcnn.py:29-73 pcnn_parameters *)
Record pcnn_parameters := mkParams { VF : Q; VL : Q; VT : Q; AF : Q; AL : Q; AT : Q; W : Q; M : Q; B : Q; FAST_LINKING : bool }.
(** nnet/pcnn.py:29-73 *)
Definition default_parameters (fast : bool) : pcnn_parameters := mkParams 1 1 10 (1 # 10) (1 # 10) (1 # 2) 1 1 (1 # 10) fast.

(** what the network keeps between calls: _outputs, _feeding, _linking, _threshold; for [pcnn_create], pcnn.py:376-380 *)
Record pcnn_state := mkPcnn { p_out : list nat; p_feed : list Q; p_link : list Q; p_thr : list Q }.

(** pcnn.py:376-380 (in __init__); the thresholds are the values drawn by random.random() *)
Definition pcnn_create (n : nat) (draws : list Q) : pcnn_state := mkPcnn (repeat 0 n) (repeat 0%Q n) (repeat 0%Q n) draws.

(** pcnn.py:452-457, 487-491: the sum over the neighbours with one weight (the two sums of the first loop are kept apart) *)
Definition influence (net : network) (weight : Q) (out : list nat) (index : nat) : Q :=
  fold_left (fun acc k => (acc + qn (nth k out 0%nat) * weight)%Q) (get_neighbors net index) 0%Q.

(** pcnn.py:466-472, 496-502 *)
Definition fire (p : pcnn_parameters) (feeding linking threshold : Q) : nat :=
  if Qltb threshold (feeding * (1 + B p * linking)) then 1 else 0.

(** pcnn.py:486-502, one pass of fast linking: linking and outputs of all oscillators from the previous outputs *)
Definition fast_pass (p : pcnn_parameters) (net : network) (feeding threshold : list Q) (previous : list nat) : list Q * list nat :=
  let linking := map (fun i => (influence net (W p) previous i * VL p)%Q) (seq 0 (n_osc net)) in
  (linking, map (fun i => fire p (nth i feeding 0%Q) (nth i linking 0%Q) (nth i threshold 0%Q)) (seq 0 (n_osc net))).

(** pcnn.py:483-509, the loop; the change of an output is looked for in all oscillators *)
Fixpoint fast_loop (fuel : nat) (p : pcnn_parameters) (net : network) (feeding threshold : list Q) (previous : list nat) : res (list Q * list nat) :=
  match fuel with
  | 0 => Raise OutOfFuel
  | S f =>
      let '(linking, outputs) := fast_pass p net feeding threshold previous in
      if existsb (fun i => negb (nth i outputs 0 =? nth i previous 0)) (seq 0 (n_osc net))
      then fast_loop f p net feeding threshold outputs
      else Ok (linking, outputs)
  end.

(** pcnn.py:434-520 _calculate_states; the state afterwards, its outputs are what is returned (and assigned in line 427) *)
Definition calculate_states (fuel : nat) (p : pcnn_parameters) (net : network) (stimulus : list Q) (s : pcnn_state) : res pcnn_state :=
  let all := seq 0 (n_osc net) in
  let feeding := map (fun i => (AF p * nth i (p_feed s) 0 + nth i stimulus 0 + influence net (M p) (p_out s) i * VF p)%Q) all in
  let linking := map (fun i => (AL p * nth i (p_link s) 0 + influence net (W p) (p_out s) i * VL p)%Q) all in
  let outputs := map (fun i => fire p (nth i feeding 0%Q) (nth i linking 0%Q) (nth i (p_thr s) 0%Q)) all in
  do r <- (if FAST_LINKING p then fast_loop fuel p net feeding (p_thr s) outputs else Ok (linking, outputs));
  let '(linking, outputs) := r in
  Ok (mkPcnn outputs feeding linking (map (fun i => (AT p * nth i (p_thr s) 0 + VT p * qn (nth i outputs 0%nat))%Q) all)).

(** pcnn.py:426-429 *)
Fixpoint simulate_loop (fuel : nat) (p : pcnn_parameters) (net : network) (stimulus : list Q) (steps : nat) (s : pcnn_state) : res (pcnn_state * list (list nat)) :=
  match steps with
  | 0 => Ok (s, [])
  | S k =>
      do s <- calculate_states fuel p net stimulus s;
      do r <- simulate_loop fuel p net stimulus k s;
      Ok (fst r, p_out s :: snd r)
  end.

(** pcnn.py:405-431 simulate: the state afterwards and the output dynamic; the lists of outputs are new objects that are never
    changed, so they are kept as values *)
Definition simulate (fuel : nat) (p : pcnn_parameters) (net : network) (steps : nat) (stimulus : list Q) (s : pcnn_state) : res (pcnn_state * list (list nat)) :=
  if negb (length stimulus =? n_osc net) then Raise NameError
  else do r <- simulate_loop fuel p net stimulus (steps - 1) s; Ok (fst r, p_out s :: snd r).
