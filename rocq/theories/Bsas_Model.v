(** cluster/bsas.py, cluster/mbsas.py, cluster/ttsas.py (python branches).
    Points are mutable python lists; [heap] holds their contents and the data set given by the
    caller is a list [data] of references into it.  A representative is a reference too: the code
    stores the caller's list itself (bsas.py:165, 172; ttsas.py:148).  The metric has rational
    values (for the default Euclidean metric read: squares, with squared thresholds). *)
From Verif Require Import Base Kmeans_Model.

Section Sequential.
Variable metric : point -> point -> Q.
Variable data : list nat.

(** attributes _clusters, _representatives and the memory; for [find_nearest_cluster], bsas.py:214-232 *)
Record sst := mkS { heap : list point; clusters : list (list nat); reps : list nat }.

(** for [find_nearest_cluster], bsas.py:214-232 *)
Definition deref (h : list point) (r : nat) : point := nth r h [].
(** for [bsas_step], bsas.py:167-176 *)
Definition ref (i : nat) : nat := nth i data 0.

(** bsas.py:214-232 _find_nearest_cluster: first representative at the least distance.  For an
    empty list of representatives python returns (-1, inf); the callers never have one, the model
    returns (0, 0) *)
Definition find_nearest_cluster (s : sst) (p : point) : nat * Q :=
  match min_by (fun k => metric p (deref (heap s) (nth k (reps s) 0))) (seq 0 (length (reps s))) with
  | Some k => (k, metric p (deref (heap s) (nth k (reps s) 0)))
  | None => (0, 0%Q)
  end.

(** bsas.py:235-247 _update_representative, in place: the new content of [rep] *)
Definition updated_representative (rep p : point) (length_ : nat) : point :=
  map (fun d => ((inject_Z (Z.of_nat length_ - 1) * coord rep d + coord p d) / inject_Z (Z.of_nat length_))%Q)
      (seq 0 (length rep)).

(** a new cluster with the object [i]; for [bsas_step], bsas.py:167-176 *)
Definition open_cluster (s : sst) (i : nat) : sst :=
  mkS (heap s) (clusters s ++ [[i]]) (reps s ++ [ref i]).

(** the object [i] joins cluster [k]; [p] is read before the representative is changed, and if
    both are the same list the result is the same; for [bsas_step], bsas.py:167-176 *)
Definition join_cluster (s : sst) (k i : nat) : sst :=
  let p := deref (heap s) (ref i) in
  let cl := push (clusters s) k i in
  let r := nth k (reps s) 0 in
  mkS (upd (heap s) r (updated_representative (deref (heap s) r) p (length (nth k cl [])))) cl (reps s).

(** bsas.py:250-264 _verify_arguments *)
Definition verify_arguments (amount : nat) (threshold : Q) : option exn :=
  match data with
  | [] => Some ValueError
  | _ => if amount =? 0 then Some ValueError else if Qltb threshold 0 then Some ValueError else None
  end.

Section Bsas.
Variable amount : nat.
Variable threshold : Q.

(** bsas.py:167-176, one object *)
Definition bsas_step (s : sst) (i : nat) : sst :=
  let '(k, distance) := find_nearest_cluster s (deref (heap s) (ref i)) in
  if Qltb threshold distance && (length (clusters s) <? amount) then open_cluster s i
  else join_cluster s k i.

(** bsas.py:163-176 __prcess_by_python, from the present attributes *)
Definition bsas_process (s : sst) : sst :=
  fold_left bsas_step (seq 1 (length data - 1)) (open_cluster s 0).

(** mbsas.py:103-111, first phase: state and skipped objects *)
Definition mbsas_step (ss : sst * list nat) (i : nat) : sst * list nat :=
  let '(s, skipped) := ss in
  let '(_, distance) := find_nearest_cluster s (deref (heap s) (ref i)) in
  if Qltb threshold distance && (length (clusters s) <? amount) then (open_cluster s i, skipped)
  else (s, skipped ++ [i]).

(** mbsas.py:113-118, second phase *)
Definition mbsas_join (s : sst) (i : nat) : sst :=
  let '(k, _) := find_nearest_cluster s (deref (heap s) (ref i)) in join_cluster s k i.

(** mbsas.py:97-118 *)
Definition mbsas_process (s : sst) : sst :=
  let '(s', skipped) := fold_left mbsas_step (seq 1 (length data - 1)) (open_cluster s 0, []) in
  fold_left mbsas_join skipped s'.

(** construction and process() of a new object; cluster/bsas.py:107-155 *)
Definition bsas (h : list point) : res sst :=
  match verify_arguments amount threshold with Some e => Raise e | None => Ok (bsas_process (mkS h [] [])) end.
(** cluster/mbsas.py:73-89 *)
Definition mbsas (h : list point) : res sst :=
  match verify_arguments amount threshold with Some e => Raise e | None => Ok (mbsas_process (mkS h [] [])) end.
End Bsas.

Section Ttsas.
Variables threshold threshold2 : Q.

(** attributes of ttsas: the state and _skipped_objects; _amount_skipped_objects is the number
    of [true] entries (both are changed together, cluster/ttsas.py L142-143 and L150-151) *)
Record tst := mkT { base : sst; skipped : list bool }.
(** with [tst], cluster/ttsas.py:142-143 *)
Definition amount_skipped (t : tst) : nat := length (filter (fun b => b) (skipped t)).

(** ttsas.py:146-151 __allocate_cluster *)
Definition ttsas_allocate (t : tst) (i : nat) : tst := mkT (open_cluster (base t) i) (upd (skipped t) i false).
(** ttsas.py:138-143 __append_to_cluster *)
Definition ttsas_append (t : tst) (k i : nat) : tst := mkT (join_cluster (base t) k i) (upd (skipped t) i false).

(** ttsas.py:122-124 with 127-135 __process_skipped_object *)
Definition ttsas_step (t : tst) (i : nat) : tst :=
  if nth i (skipped t) false then
    let '(k, distance) := find_nearest_cluster (base t) (deref (heap (base t)) (ref i)) in
    if Qle_bool distance threshold then ttsas_append t k i
    else if Qltb threshold2 distance then ttsas_allocate t i
    else t
  else t.

(** list.index(True); the length if there is none (python: ValueError, not reachable); for [ttsas_pass], ttsas.py:115-124 *)
Fixpoint index_true (l : list bool) : nat :=
  match l with [] => 0 | true :: _ => 0 | false :: t => S (index_true t) end.

(** ttsas.py:115-124 __process_objects *)
Definition ttsas_pass (changes : nat) (t : tst) : tst :=
  let first := index_true (skipped t) in
  let n := length data in
  if changes =? 0 then
    fold_left ttsas_step (seq (S first) (n - S first)) (ttsas_allocate t first)
  else fold_left ttsas_step (seq first (n - first)) t.

(** ttsas.py:106-112; [None] is out of fuel *)
Fixpoint ttsas_loop (fuel : nat) (changes : nat) (t : tst) : option tst :=
  if amount_skipped t =? 0 then Some t else
  match fuel with
  | 0 => None
  | S f => let t' := ttsas_pass changes t in ttsas_loop f (amount_skipped t - amount_skipped t') t'
  end.

(** cluster/ttsas.py:82-98 *)
Definition ttsas_process (fuel : nat) (t : tst) : option tst := ttsas_loop fuel 0 t.

(** construction: ttsas.py:75-79 *)
Definition ttsas_new (h : list point) : res tst :=
  match verify_arguments (length data) threshold with
  | Some e => Raise e
  | None => Ok (mkT (mkS h [] []) (repeat true (length data)))
  end.
End Ttsas.
End Sequential.
