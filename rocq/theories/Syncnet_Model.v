(** Model of the oscillatory networks built on data: cluster/syncnet.py and cluster/hsyncnet.py (python branches).  Numbers
    are exact rationals. *)
From Coq Require Import Qround.
From Verif Require Import Base Kmeans_Model Topology_Model Ensembles_Model Cldist_Model.

Section Syncnet.
(** euclidean_distance as computed in floats *)
Variable distance : point -> point -> Q.
(** [self._osc_loc] *)
Variable locs : list point.

(** the pairs visited by [for i in range(0, n) : for j in range(i + 1, n)], in this order; for [create_connections], syncnet.py:243-285 *)
Definition pairs (n : nat) : list (nat * nat) := flat_map (fun i => map (fun j => (i, j)) (seq (S i) (n - S i))) (seq 0 n).

(** [m[i][j]]; for [weight_step], syncnet.py:280-285 *)
Definition get2 (m : list (list Q)) (i j : nat) : Q := nth j (nth i m []) 0%Q.

(** state of the first loop of _create_connections; [c_min] = None stands for float('inf'); for [conn_step], syncnet.py:260-270 *)
Record cstate := mkC { c_weight : list (list Q); c_max : Q; c_min : option Q; c_net : network }.

(** syncnet.py:260-270, the body of the first loop *)
Definition conn_step (enable : bool) (radius : Q) (s : cstate) (i j : nat) : res cstate :=
  let dist := distance (nth i locs []) (nth j locs []) in
  let s := if enable then
             mkC (set2 (set2 (c_weight s) i j dist) j i dist)
                 (if Qltb (c_max s) dist then dist else c_max s)
                 (match c_min s with None => Some dist | Some m => Some (if Qltb dist m then dist else m) end)
                 (c_net s)
           else s in
  if Qle_bool dist radius then
    do net <- set_connection (c_net s) i j; Ok (mkC (c_weight s) (c_max s) (c_min s) net)
  else Ok s.

(** for [create_connections], syncnet.py:243-285 *)
Fixpoint conn_loop (enable : bool) (radius : Q) (l : list (nat * nat)) (s : cstate) : res cstate :=
  match l with
  | [] => Ok s
  | (i, j) :: t => do s <- conn_step enable radius s i j; conn_loop enable radius t s
  end.

(** syncnet.py:280-285: the second loop *)
Definition weight_step (subtractor multiplier : Q) (m : list (list Q)) (ij : nat * nat) : list (list Q) :=
  let '(i, j) := ij in
  let v := ((get2 m i j - subtractor) / multiplier)%Q in
  set2 (set2 m i j v) j i v.

(** syncnet.py:243-285 syncnet._create_connections; gives the network and [self._conn_weight] (None if not enabled).
    Without a pair of oscillators the values of line 276-278 are not used. *)
Definition create_connections (enable : bool) (net : network) (radius : Q) : res (network * option (list (list Q))) :=
  let n := length locs in
  do s <- conn_loop enable radius (pairs n) (mkC (repeat (repeat 0%Q n) n) 0 None net);
  if enable then
    let '(multiplier, subtractor) :=
      match c_min s with
      | Some lo => if negb (Qeq_bool (c_max s) lo) then ((c_max s - lo)%Q, lo) else (1%Q, 0%Q)
      | None => (1%Q, 0%Q)
      end in
    Ok (c_net s, Some (fold_left (weight_step subtractor multiplier) (pairs n) (c_weight s)))
  else Ok (c_net s, None).

(** syncnet.py:185-220 syncnet.__init__ and 234-240 _verify_arguments; [radius] = None leaves the network without connections *)
Definition syncnet (radius : option Q) (r : conn_represent) (enable : bool) : res (network * option (list (list Q))) :=
  match locs with
  | [] => Raise ValueError
  | _ => do net <- network_init (length locs) CDynamic r None;
         match radius with
         | None => Ok (net, None)
         | Some rad => create_connections enable net rad
         end
  end.

(** * cluster/hsyncnet.py *)
(** [simulate_dynamic(order, solution, collect_dynamic).output] for a network and its phases; the phases of the network
    are the last state afterwards.  Any function here: see Kuramoto_Model.v for the simulation itself. *)
Variable simulate : network -> list Q -> list (list Q).
(** 2 * pi *)
Variable period : Q.

(** what one iteration of the loop of process() worked with; for [hloop], hsyncnet.py:125-144 *)
Record hiter := mkIter { it_radius : Q; it_net : network; it_clusters : list (list nat) }.

(** [h_trace] only records; the other fields are the results of process(); for [hloop], hsyncnet.py:125-144 *)
Record hresult := mkRes { dyn_phase : list (list Q); dyn_time : list nat; h_trace : list hiter }.

(** hsyncnet.py:151-165 __calculate_radius *)
Definition calculate_radius (increase_persent : Q) (neighbors : nat) (radius : Q) : res Q :=
  if length locs <=? neighbors then Ok (radius * increase_persent + radius)%Q
  else average_neighbor_distance distance locs neighbors.

(** hsyncnet.py:120-122 *)
Definition increase_step (increase_persent : Q) : nat :=
  let s := Qfloor (countq (length locs) * increase_persent) in if (s <? 1)%Z then 1 else Z.to_nat s.

(** for [store_dynamic], hsyncnet.py:167-184 *)
Definition last_state (out : list (list Q)) : list Q := nth (length out - 1) out [].

(** hsyncnet.py:167-184 __store_dynamic *)
Definition store_dynamic (d : list (list Q) * list nat) (out : list (list Q)) (begin_state : bool) : list (list Q) * list nat :=
  if begin_state then (fst d ++ [nth 0 out []], snd d ++ [0])
  else (fst d ++ [last_state out], snd d ++ [length (snd d)]).

(** hsyncnet.py:125-144, the loop; an iteration is entered with [current_number_clusters > number_clusters].
    The accumulated ghost trace is in reverse order. *)
Fixpoint hloop (fuel : nat) (collect : bool) (increase_persent : Q) (number_clusters step : nat)
    (net : network) (phases : list Q) (neighbors : nat) (radius : Q) (dyn : list (list Q) * list nat) (trace : list hiter) : res hresult :=
  match fuel with
  | 0 => Raise OutOfFuel
  | S fuel =>
    do nw <- create_connections false net radius;
    let net := fst nw in
    let out := simulate net phases in
    let dyn := if collect then
                 store_dynamic (match fst dyn with [] => store_dynamic dyn out true | _ => dyn end) out false
               else dyn in
    do clusters <- sync_ensembles period out (1 # 20) None None;
    let trace := mkIter radius net clusters :: trace in
    let neighbors := neighbors + step in
    do radius <- calculate_radius increase_persent neighbors radius;
    if number_clusters <? length clusters then
      hloop fuel collect increase_persent number_clusters step net (last_state out) neighbors radius dyn trace
    else
      let dyn := if collect then dyn else store_dynamic dyn out false in
      Ok (mkRes (fst dyn) (snd dyn) (rev trace))
  end.

(** hsyncnet.py:54-82 __init__ and 94-149 process *)
Definition hsyncnet (fuel : nat) (collect : bool) (number_clusters initial_neighbors : nat) (increase_persent : Q) (phases : list Q) : res hresult :=
  let n := length locs in
  let initial_neighbors := if n <=? initial_neighbors then n - 1 else initial_neighbors in
  do nw <- syncnet (Some 0%Q) RMatrix false;
  do radius <- average_neighbor_distance distance locs initial_neighbors;
  hloop fuel collect increase_persent number_clusters (increase_step increase_persent) (fst nw) phases initial_neighbors radius ([], []) [].
End Syncnet.
