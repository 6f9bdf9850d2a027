(** Model of the graph colouring networks gcolor/sync.py and gcolor/hysteresis.py and of the static simulations of
    nnet/hysteresis.py and nnet/sync.py.  Numbers are exact rationals. *)
From Verif Require Import Base Kmeans_Model Topology_Model Ensembles_Model.
From Coq Require Import Qround.

(** gcolor/sync.py:62-68 and gcolor/hysteresis.py:70-76: the colours of [n] nodes from the clusters (whose nodes are in range) *)
Definition coloring_map (n : nat) (clusters : list (list nat)) : list nat :=
  fold_left (fun m color => fold_left (fun m node => upd m node color) (nth color clusters []) m)
            (seq 0 (length clusters)) (repeat 0 n).

(** gcolor/sync.py:49-68 allocate_map_coloring, with 36-46 allocate_color_clusters; [self._dynamic[0]] of an empty dynamic
    raises IndexError *)
Definition sync_map_coloring (period : Q) (dynamic : list (list Q)) (tolerance : Q) : res (list nat) :=
  do clusters <- sync_ensembles period dynamic tolerance None None;
  match dynamic with [] => Raise IndexError | first :: _ => Ok (coloring_map (length first) clusters) end.

(** gcolor/hysteresis.py:52-76 allocate_map_coloring *)
Definition hyst_map_coloring (dynamic : list (list Q)) (tolerance : Q) (steps : nat) : res (list nat) :=
  do clusters <- hyst_ensembles dynamic tolerance steps;
  match dynamic with [] => Raise IndexError | first :: _ => Ok (coloring_map (length first) clusters) end.

(** gcolor/sync.py:101-112: the pairs for which set_connection is called *)
Definition graph_pairs (graph : list (list Q)) : list (nat * nat) :=
  filter (fun rc => Qltb 0 (nth (snd rc) (nth (fst rc) graph []) 0%Q))
    (flat_map (fun r => map (fun c => (r, c)) (seq 0 (length (nth r graph [])))) (seq 0 (length graph))).

(** gcolor/sync.py:77-98 syncgcolor.__init__, its network; sync_network asks for at least one oscillator only through the
    structure of the network *)
Definition syncgcolor (graph : list (list Q)) : res network :=
  do net <- network_init (length graph) CDynamic RMatrix None;
  set_connections net (graph_pairs graph).

(** gcolor/hysteresis.py:137-143: one row of the weights; sum(graph_matrix[row]) is evaluated for every other column *)
Definition hyst_row (graph : list (list Q)) (alpha eps : Q) (row : nat) : res (list Q) :=
  let n := length graph in
  let total := sumQ (nth row graph []) in
  if (1 <? n) && Qeq_bool total 0 then Raise ZeroDivisionError
  else Ok (map (fun col => if row =? col then (- alpha - eps)%Q else (- alpha * nth col (nth row graph []) 0 / total)%Q) (seq 0 n)).

(** for [hysteresisgcolor], gcolor/hysteresis.py:114-143 *)
Fixpoint collect_rows (f : nat -> res (list Q)) (rows : list nat) : res (list (list Q)) :=
  match rows with
  | [] => Ok []
  | r :: t => do w <- f r; do rest <- collect_rows f t; Ok (w :: rest)
  end.

(** gcolor/hysteresis.py:127-129: the initial states *)
Definition hyst_states (n : nat) : list Q := map (fun i => (1 - 2 / inject_Z (Z.of_nat n) * inject_Z (Z.of_nat i))%Q) (seq 0 n).

(** gcolor/hysteresis.py:114-143 __init__: the states and the weights; the graph matrix is square *)
Definition hysteresisgcolor (graph : list (list Q)) (alpha eps : Q) : res (list Q * list (list Q)) :=
  do w <- collect_rows (hyst_row graph alpha eps) (seq 0 (length graph));
  Ok (hyst_states (length graph), w).

Section Static.
(** the state of the simulated network and one call of _calculate_states / _calculate_phases *)
Context {state : Type}.
Variable next : Q -> state -> state.
(** what is recorded of a state *)
Variable output : state -> list Q.

(** the values of [numpy.arange(step, time + step, step)] in exact arithmetic: ceil((stop - start) / step) of them, for
    [step] > 0; for [sync_simulate_static], nnet/sync.py:928-973 *)
Definition arange (start stop step : Q) : list Q :=
  map (fun k => (start + inject_Z (Z.of_nat k) * step)%Q) (seq 0 (Z.to_nat (Qceiling ((stop - start) / step)))).

(** the loop of simulate_static; [dyn] = None is python's None on which append is an AttributeError; for [sync_simulate_static], nnet/sync.py:928-973 *)
Fixpoint static_loop (collect : bool) (times : list Q) (s : state) (dyn : option (list (list Q) * list Q))
    : res (state * option (list (list Q) * list Q)) :=
  match times with
  | [] => Ok (s, dyn)
  | t :: rest =>
    let s := next t s in
    if collect then
      match dyn with
      | None => Raise AttributeError
      | Some d => static_loop collect rest s (Some (fst d ++ [output s], snd d ++ [t]))
      end
    else static_loop collect rest s dyn
  end.

(** for [sync_simulate_static], nnet/sync.py:928-973 *)
Definition append_last (time : Q) (r : state * option (list (list Q) * list Q)) : res (state * (list (list Q) * list Q)) :=
  match snd r with
  | None => Raise AttributeError
  | Some d => Ok (fst r, (fst d ++ [output (fst r)], snd d ++ [time]))
  end.

(** nnet/sync.py:928-973 simulate_static: the network afterwards and the dynamic (output, time); [steps] = 0 divides by zero *)
Definition sync_simulate_static (steps : nat) (time : Q) (collect : bool) (s : state) : res (state * (list (list Q) * list Q)) :=
  if steps =? 0 then Raise ZeroDivisionError
  else
    let step := (time / inject_Z (Z.of_nat steps))%Q in
    do r <- static_loop collect (arange step (time + step) step) s (if collect then Some ([output s], [0%Q]) else Some ([], []));
    if collect then match snd r with Some d => Ok (fst r, d) | None => Raise AttributeError end
    else append_last time r.

(** nnet/__init__.py solve_type, 28-41 *)
Inductive solver := FAST | RK4 | RKF45.

(** nnet/hysteresis.py:286-332 simulate_static; also simulate (270-283) and gcolor/hysteresis.py:146-159 process *)
Definition hyst_simulate_static (steps : nat) (time : Q) (solution : solver) (collect : bool) (s : state) : res (state * (list (list Q) * list Q)) :=
  match solution with
  | FAST | RKF45 => Raise NameError
  | RK4 =>
    if steps =? 0 then Raise ZeroDivisionError
    else
      let step := (time / inject_Z (Z.of_nat steps))%Q in
      do r <- static_loop collect (arange step (time + step) step) s (if collect then Some ([output s], [0%Q]) else None);
      if collect then match snd r with Some d => Ok (fst r, d) | None => Raise AttributeError end
      else append_last time r
  end.
End Static.
