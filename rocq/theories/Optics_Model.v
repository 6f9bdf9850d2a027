(** Model of cluster/optics.py (python path). *)
From Verif Require Import Base Kd_Model Dbscan_Model.

(** optics.py:226-260 [optics_descriptor]; the index is the position in [__optics_objects] *)
Record obj := mkObj { o_core : option Q; o_reach : option Q; o_processed : bool }.
(** with [obj], optics.py:226-260 *)
Definition obj0 : obj := mkObj None None false.
(** with [obj], optics.py:226-260 *)
Definition set_core (o : obj) c := mkObj c (o_reach o) (o_processed o).
(** with [obj], optics.py:226-260 *)
Definition set_reach (o : obj) r := mkObj (o_core o) r (o_processed o).
(** with [obj], optics.py:226-260 *)
Definition set_processed (o : obj) := mkObj (o_core o) (o_reach o) true.

(** python's [max(a, b)]: the first one unless the second is greater; for [update_order_seed], optics.py:697-728 *)
Definition py_max (a b : Q) : Q := if Qltb a b then b else a.

Section Generic.
(** [__neighbor_searcher]: pairs (index, distance), own index excluded *)
Variable search : nat -> list (nat * Q).
Variable minpts : nat.
(** [__eps], in the unit in which [search] reports distances *)
Variable eps : Q.

(** for [update_order_seed], optics.py:697-728 *)
Definition get (os : list obj) (i : nat) : obj := nth i os obj0.

(** [order_seed[k].reachability_distance]; queued objects always have one, the default is never used
    (invariant [inv_seeds] of Optics_Proofs.v); for [insert_seed], optics.py:717-723 *)
Definition reach_of (os : list obj) (i : nat) : Q := match o_reach (get os i) with Some r => r | None => 0%Q end.

(** optics.py:717-723: insertion before the first seed with a greater reachability *)
Fixpoint insert_seed (os : list obj) (r : Q) (i : nat) (seeds : list nat) : list nat :=
  match seeds with
  | [] => [i]
  | s :: t => if Qltb r (reach_of os s) then i :: s :: t else s :: insert_seed os r i t
  end.

(** optics.py:697-728 [__update_order_seed]; [core] is the core distance of the expanded object *)
Fixpoint update_order_seed (core : Q) (neighbors : list (nat * Q)) (os : list obj) (seeds : list nat)
  : res (list obj * list nat) :=
  match neighbors with
  | [] => Ok (os, seeds)
  | (i, d) :: t =>
    if length os <=? i then Raise IndexError else
    if o_processed (get os i) then update_order_seed core t os seeds
    else
      let r := py_max d core in
      match o_reach (get os i) with
      | None =>
        let os' := upd os i (set_reach (get os i) (Some r)) in
        update_order_seed core t os' (insert_seed os' r i seeds)
      | Some r0 =>
        if Qltb r r0 then
          let os' := upd os i (set_reach (get os i) (Some r)) in
          update_order_seed core t os' (sort_key (reach_of os') seeds)
        else update_order_seed core t os seeds
      end
  end.

(** optics.py:648-649, 665-666: [neighbors_descriptor[self.__minpts - 1][1]] of the sorted list;
    with [minpts = 0] the index is -1, the last element *)
Definition core_distance (sorted : list (nat * Q)) : res Q :=
  match minpts with
  | 0 => match rev sorted with [] => Raise IndexError | x :: _ => Ok (snd x) end
  | S k => match nth_error sorted k with None => Raise IndexError | Some x => Ok (snd x) end
  end.

(** optics.py:655-670, the loop over [order_seed]; [db] is [__ordered_database] (indices) *)
Fixpoint seed_loop (fuel : nat) (os : list obj) (db seeds : list nat) : res (list obj * list nat) :=
  match seeds with
  | [] => Ok (os, db)
  | i :: seeds =>
    match fuel with
    | 0 => Raise OutOfFuel
    | S fuel' =>
      let neighbors := search i in
      let os := upd os i (set_processed (get os i)) in
      let db := db ++ [i] in
      if minpts <=? length neighbors then
        let neighbors := sort_key snd neighbors in
        do c <- core_distance neighbors;
        let os := upd os i (set_core (get os i) (Some c)) in
        do r <- update_order_seed c neighbors os seeds;
        seed_loop fuel' (fst r) db (snd r)
      else seed_loop fuel' (upd os i (set_core (get os i) None)) db seeds
    end
  end.

(** optics.py:629-673 [__expand_cluster_order] *)
Definition expand_cluster_order (i : nat) (os : list obj) (db : list nat) : res (list obj * list nat) :=
  let os := upd os i (set_processed (get os i)) in
  let neighbors := search i in
  let os := upd os i (set_reach (get os i) None) in
  let db := db ++ [i] in
  if minpts <=? length neighbors then
    let neighbors := sort_key snd neighbors in
    do c <- core_distance neighbors;
    let os := upd os i (set_core (get os i) (Some c)) in
    do r <- update_order_seed c neighbors os [];
    seed_loop (length os) (fst r) db (snd r)
  else Ok (upd os i (set_core (get os i) None), db).

(** optics.py:501-503 *)
Fixpoint traverse (idx : list nat) (os : list obj) (db : list nat) : res (list obj * list nat) :=
  match idx with
  | [] => Ok (os, db)
  | i :: t =>
    if o_processed (get os i) then traverse t os db
    else do r <- expand_cluster_order i os db; traverse t (fst r) (snd r)
  end.

(** optics.py:676-694 [__extract_clusters]; [current_cluster] is the noise list until the first cluster
    exists, afterwards the last cluster *)
Definition above (x : option Q) : bool := match x with None => true | Some r => Qltb eps r end.
(** with [above], optics.py:676-694 *)
Definition core_within (x : option Q) : bool := match x with None => false | Some c => Qle_bool c eps end.
(** with [above], optics.py:676-694 *)
Definition append_last (cl : list (list nat)) (i : nat) : list (list nat) :=
  removelast cl ++ [last cl [] ++ [i]].
(** with [above], optics.py:676-694 *)
Definition extract_step (os : list obj) (s : list (list nat) * list nat) (i : nat) : list (list nat) * list nat :=
  let '(clusters, noise) := s in
  if above (o_reach (get os i)) then
    if core_within (o_core (get os i)) then (clusters ++ [[i]], noise) else (clusters, noise ++ [i])
  else match clusters with
       | [] => (clusters, noise ++ [i])
       | _ => (append_last clusters i, noise)
       end.
(** with [above], optics.py:676-694 *)
Definition extract_clusters (os : list obj) (db : list nat) : list (list nat) * list nat :=
  fold_left (extract_step os) db ([], []).

(** the attributes __clusters, __noise, __optics_objects, __ordered_database after optics.py:493-505 *)
Record outcome := mkOutcome {
  r_clusters : list (list nat); r_noise : list nat; r_objects : list obj; r_order : list nat }.

(** optics.py:479-505 [__initialize], [__allocate_clusters] *)
Definition allocate_clusters (n : nat) : res outcome :=
  do r <- traverse (seq 0 n) (repeat obj0 n) [];
  let '(cl, no) := extract_clusters (fst r) (snd r) in
  Ok (mkOutcome cl no (fst r) (snd r)).
End Generic.

(** optics.py:540-564 [get_ordering] (the first call; later calls return the cached list) *)
Definition get_ordering (o : outcome) : list Q :=
  flat_map (fun i => match o_reach (get (r_objects o) i) with Some r => [r] | None => [] end)
           (concat (r_clusters o)).

(** optics.py:164-223 [extract_cluster_amount]; the state of the loop *)
Record scan_st := mkScan {
  s_amount : Z; s_start : bool; s_pick : bool; s_similar : bool;
  s_prev_cluster : option Q; s_prev : option Q; s_borders : list nat }.

(** optics.py:188-221, the body of the loop of extract_cluster_amount *)
Definition amount_step (radius : Q) (s : scan_st) (k : nat) (distance : Q) : scan_st :=
  let s1 :=
    if Qle_bool radius distance then
      let border := if k =? 0 then s_borders s else s_borders s ++ [k] in
      let s' :=
        if negb (s_start s) then
          mkScan (s_amount s + 1) true (s_pick s) (s_similar s) (s_prev_cluster s) (s_prev s) border
        else
          match s_prev_cluster s with
          | None => s  (* comparison with None: not reachable, [s_start] is set together with it *)
          | Some pc =>
            if Qltb distance pc && negb (s_pick s) then
              mkScan (s_amount s) (s_start s) true (s_similar s) (s_prev_cluster s) (s_prev s) (s_borders s)
            else if Qltb pc distance && s_pick s then
              mkScan (s_amount s + 1) (s_start s) false (s_similar s) (s_prev_cluster s) (s_prev s) border
            else s
          end in
      mkScan (s_amount s') (s_start s') (s_pick s') (s_similar s') (Some distance) (s_prev s') (s_borders s')
    else mkScan (s_amount s) false false (s_similar s) (s_prev_cluster s) (s_prev s) (s_borders s) in
  let similar := match s_prev s1 with
                 | None => s_similar s1
                 | Some p => if Qeq_bool distance p then s_similar s1 else false end in
  mkScan (s_amount s1) (s_start s1) (s_pick s1) similar (s_prev_cluster s1) (Some distance) (s_borders s1).

(** optics.py:188-221, the loop *)
Fixpoint amount_loop (radius : Q) (k : nat) (l : list Q) (s : scan_st) : scan_st :=
  match l with [] => s | d :: t => amount_loop radius (S k) t (amount_step radius s k d) end.

(** optics.py:164-223 extract_cluster_amount *)
Definition extract_cluster_amount (ordering : list Q) (radius : Q) : res (Z * list nat) :=
  let s := amount_loop radius 0 ordering (mkScan 1 false false true None None []) in
  if s_similar s then
    match s_prev s with
    | None => Raise TypeError           (* [None > radius] *)
    | Some p => Ok (if Qltb radius p then 0%Z else s_amount s, s_borders s)
    end
  else Ok (s_amount s, s_borders s).

(** optics.py:122-161 [calculate_connvectivity_radius]: the bisection, at most [k] rounds *)
Fixpoint bisect (ordering : list Q) (wanted : Z) (k : nat) (lower upper : Q) : res (option Q) :=
  match k with
  | 0 => Ok None
  | S k' =>
    let radius := ((lower + upper) / 2)%Q in
    do r <- extract_cluster_amount ordering radius;
    let amount := fst r in
    if (amount =? wanted)%Z then Ok (Some radius)
    else if (amount =? 0)%Z then Ok None
    else if (wanted <? amount)%Z then bisect ordering wanted k' radius upper
    else bisect ordering wanted k' lower radius
  end.

(** optics.py:135 *)
Definition list_max (l : list Q) : res Q :=   (* python's [max(l)] *)
  match l with [] => Raise ValueError | x :: t => Ok (fold_left py_max t x) end.

(** optics.py:122-161 calculate_connvectivity_radius *)
Definition connectivity_radius (ordering : list Q) (wanted : Z) (iterations : nat) : res (option Q) :=
  do m <- list_max ordering;
  do r <- extract_cluster_amount ordering m;
  if (fst r <=? wanted)%Z then bisect ordering wanted iterations 0 m else Ok None.

(** optics.py:745-756 [__neighbor_indexes_distance_matrix] *)
Definition neighbors_matrix (m : list (list Q)) (eps : Q) (i : nat) : list (nat * Q) :=
  map (fun j => (j, nth j (nth i m []) 0%Q))
      (filter (fun j => Qle_bool (nth j (nth i m []) 0%Q) eps && negb (j =? i)) (seq 0 (length (nth i m [])))).

(** optics.py:731-742 [__neighbor_indexes_points].  Simplification: the python code reports
    [math.sqrt] of the squared distance; distances are only compared with each other and with
    [eps], and sqrt is strictly increasing, so the model keeps the squares (and compares with
    [eps * eps]).  The [core]/[reach] values of the model are the squares of those of the code. *)
Definition neighbors_points (k : kdt nat) (data : list point) (eps : Q) (i : nat) : list (nat * Q) :=
  map (fun dn => (pl (snd dn), fst dn))
      (filter (fun dn => negb (pl (snd dn) =? i)) (find_nearest_dist_nodes k (nth i data []) eps)).

(** optics.py:759-776, 460-476: a fresh object without [amount_clusters] *)
Definition optics_points (data : list point) (eps : Q) (minpts : nat) : res outcome :=
  if length data =? 0 then Raise ValueError
  else if Qltb eps 0 then Raise ValueError
  else do k <- build (indexed data);
       allocate_clusters (neighbors_points k data eps) minpts (eps * eps) (length data).

(** optics.py:759-776, 460-476: distance matrix, with or without [amount_clusters]; results: the final
    state, the final radius ([get_radius]) and what [get_ordering] returns afterwards: the list cached
    by the call at line 472 (never reset) if there was one. *)
Definition optics_matrix (m : list (list Q)) (eps : Q) (minpts : nat) (amount : option Z) : res (outcome * Q * list Q) :=
  if length m =? 0 then Raise ValueError
  else if Qltb eps 0 then Raise ValueError
  else if match amount with Some a => (a <=? 0)%Z | None => false end then Raise ValueError
  else
    do o <- allocate_clusters (neighbors_matrix m eps) minpts eps (length m);
    match amount with
    | None => Ok (o, eps, get_ordering o)
    | Some a =>
      if (a =? Z.of_nat (length (r_clusters o)))%Z then Ok (o, eps, get_ordering o)
      else
        let cached := get_ordering o in
        do radius <- connectivity_radius cached a 100;
        match radius with
        | None => Ok (o, eps, cached)
        | Some r => do o' <- allocate_clusters (neighbors_matrix m r) minpts r (length m); Ok (o', r, cached)
        end
    end.
