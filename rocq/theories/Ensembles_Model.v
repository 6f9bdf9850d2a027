(** Extraction of synchronous ensembles from the recorded output of oscillatory networks. *)
From Verif Require Import Base.

(** One pass of the common "append to a group or open a new one" step. for [sync_step], nnet/sync.py:212-233 *)
Fixpoint append_at (clusters : list (list nat)) (k v : nat) : list (list nat) :=
  match clusters, k with
  | [], _ => []
  | c :: t, 0 => (c ++ [v]) :: t
  | c :: t, S k' => c :: append_at t k' v
  end.

(** * nnet/sync.py *)
Section SyncDynamic.
(** [2 * pi], kept as a parameter (python's [pi] is the rational 3.14159265359 of utils/__init__.py:26) *)
Variable period : Q.

(** nnet/sync.py:216-219, the condition under which oscillator [i] joins the group of
    [neuron_index]; phases of one state *)
Definition sync_close (state : list Q) (tolerance : Q) (i neuron_index : nat) : bool :=
  let x := nth i state 0%Q in
  let y := nth neuron_index state 0%Q in
  let shifted := Qabs (x - period)%Q in
  (Qltb x (y + tolerance)%Q && Qltb (y - tolerance)%Q x)
  || (Qltb shifted (y + tolerance)%Q && Qltb (y - tolerance)%Q shifted).

(** nnet/sync.py:214-230: index of the first group with a close member.  Reading
    [last_state[neuron_index]] outside the state is python's IndexError. *)
Fixpoint sync_member (state : list Q) (tolerance : Q) (i : nat) (cluster : list nat) : res bool :=
  match cluster with
  | [] => Ok false
  | x :: t => if x <? length state then
                if sync_close state tolerance i x then Ok true
                else sync_member state tolerance i t
              else Raise IndexError
  end.

(** for [sync_step], nnet/sync.py:212-233 *)
Fixpoint sync_group (state : list Q) (tolerance : Q) (i : nat) (clusters : list (list nat)) : res (option nat) :=
  match clusters with
  | [] => Ok None
  | c :: t =>
      do b <- sync_member state tolerance i c;
      if b then Ok (Some 0)
      else do r <- sync_group state tolerance i t;
           Ok (match r with Some k => Some (S k) | None => None end)
  end.

(** nnet/sync.py:212-233, the body of the loop over oscillators.  [indexes] is the optional
    list of real indexes: it is applied to joining oscillators only. *)
Definition sync_step (state : list Q) (tolerance : Q) (indexes : option (list nat))
    (clusters : list (list nat)) (i : nat) : res (list (list nat)) :=
  do g <- sync_group state tolerance i clusters;
  match g with
  | Some k =>
      match indexes with
      | None => Ok (append_at clusters k i)
      | Some idx => if i <? length idx then Ok (append_at clusters k (nth i idx 0)) else Raise IndexError
      end
  | None => Ok (clusters ++ [[i]])
  end.

(** for [sync_ensembles], nnet/sync.py:174-235 *)
Fixpoint sync_loop (state : list Q) (tolerance : Q) (indexes : option (list nat))
    (clusters : list (list nat)) (is_ : list nat) : res (list (list nat)) :=
  match is_ with
  | [] => Ok clusters
  | i :: t => do c <- sync_step state tolerance indexes clusters i; sync_loop state tolerance indexes c t
  end.

(** nnet/sync.py:174-235 sync_dynamic.allocate_sync_ensembles (python branch); [iteration]
    non-negative; the states of one dynamic have equal length (each is the state of the same network) *)
Definition sync_ensembles (dynamic : list (list Q)) (tolerance : Q) (indexes : option (list nat))
    (iteration : option nat) : res (list (list nat)) :=
  match dynamic with
  | [] => Ok []
  | first :: _ =>
      let n := length first in
      let it := match iteration with None => length dynamic - 1 | Some k => k end in
      if it <? length dynamic then
        let state := nth it dynamic [] in
        match n with
        | 0 => Ok []
        | S _ => sync_loop state tolerance indexes [[0]] (seq 1 (n - 1))
        end
      else Raise IndexError
  end.
End SyncDynamic.

(** nnet/sync.py:238-278 sync_dynamic.allocate_phase_matrix with explicit sizes; python
    [None] sizes (integer square root) are not modelled *)
Definition phase_matrix (dynamic : list (list Q)) (width height : nat) (iteration : option nat)
  : res (list (list Q)) :=
  match dynamic with
  | [] => Ok []
  | _ =>
      let it := match iteration with None => length dynamic - 1 | Some k => k end in
      if it <? length dynamic then
        let state := nth it dynamic [] in
        if length state =? width * height then
          Ok (map (fun i => map (fun j => nth (j + i * width) state 0%Q) (seq 0 width)) (seq 0 height))
        else Raise NameError
      else Raise IndexError
  end.

(** * nnet/hysteresis.py *)

(** nnet/hysteresis.py:107 (negated): the candidate follows the neuron at one step *)
Definition hyst_close (state : list Q) (tolerance : Q) (neuron i : nat) : bool :=
  let x := nth i state 0%Q in
  let y := nth neuron state 0%Q in
  Qltb x (y + tolerance)%Q && Qltb (y - tolerance)%Q x.

(** nnet/hysteresis.py:97-109: all analysed steps (the last [steps] states) *)
Definition hyst_follow (dynamic : list (list Q)) (tolerance : Q) (steps neuron i : nat) : bool :=
  forallb (fun st => hyst_close st tolerance neuron i)
          (skipn (length dynamic - Nat.min steps (length dynamic)) dynamic).

(** nnet/hysteresis.py:94-113, loop over the groups; the flag [captured] is carried from one
    group to the next one, as in the code (it is set to True only before the loop, L93).
    The order in which the steps are inspected does not matter for the flag. *)
Fixpoint hyst_capture (dynamic : list (list Q)) (tolerance : Q) (steps i : nat)
    (clusters : list (list nat)) (captured : bool) : list (list nat) * bool :=
  match clusters with
  | [] => ([], captured)
  | c :: t =>
      let captured' := if hyst_follow dynamic tolerance steps (hd 0 c) i then captured else false in
      if captured' then ((c ++ [i]) :: t, true)
      else let '(t', f) := hyst_capture dynamic tolerance steps i t captured' in (c :: t', f)
  end.

(** nnet/hysteresis.py:92-116 *)
Definition hyst_step (dynamic : list (list Q)) (tolerance : Q) (steps : nat)
    (clusters : list (list nat)) (i : nat) : list (list nat) :=
  let '(c, captured) := hyst_capture dynamic tolerance steps i clusters true in
  if captured then c else c ++ [[i]].

(** nnet/hysteresis.py:74-118 hysteresis_dynamic.allocate_sync_ensembles *)
Definition hyst_ensembles (dynamic : list (list Q)) (tolerance : Q) (steps : nat) : res (list (list nat)) :=
  match dynamic with
  | [] => Raise IndexError
  | first :: _ => Ok (fold_left (hyst_step dynamic tolerance steps) (seq 1 (length first - 1)) [[0]])
  end.

(** * nnet/pcnn.py: output values are 0 / 1 *)

(** nnet/pcnn.py:161-165: the oscillators that fire at one step and are not traversed yet *)
Definition pcnn_new (state : list nat) (n : nat) (traversed : list nat) : list nat :=
  filter (fun i => (nth i state 0 =? 1) && negb (existsb (Nat.eqb i) traversed)) (seq 0 n).

(** nnet/pcnn.py:159-168 over the states from the last one down to index 1 *)
Fixpoint pcnn_sync_loop (states : list (list nat)) (n : nat) (traversed : list nat)
    (ensembles : list (list nat)) : list (list nat) :=
  match states with
  | [] => ensembles
  | st :: t =>
      let e := pcnn_new st n traversed in
      pcnn_sync_loop t n (traversed ++ e) (match e with [] => ensembles | _ => ensembles ++ [e] end)
  end.

(** nnet/pcnn.py:141-170 pcnn_dynamic.allocate_sync_ensembles; [range(len-1, 0, -1)] leaves
    out step 0 *)
Definition pcnn_sync_ensembles (dynamic : list (list nat)) : res (list (list nat)) :=
  match dynamic with
  | [] => Raise IndexError
  | first :: t => Ok (pcnn_sync_loop (rev t) (length first) [] [])
  end.

(** nnet/pcnn.py:173-198 pcnn_dynamic.allocate_spike_ensembles *)
Definition pcnn_spike_ensembles (dynamic : list (list nat)) : res (list (list nat)) :=
  match dynamic with
  | [] => Raise IndexError
  | first :: _ =>
      Ok (filter (fun e => match e with [] => false | _ => true end)
            (map (fun st => filter (fun i => nth i st 0 =? 1) (seq 0 (length first))) dynamic))
  end.

(** nnet/pcnn.py:201-216 pcnn_dynamic.allocate_time_signal *)
Definition pcnn_time_signal (dynamic : list (list nat)) : list nat :=
  map (fun st => fold_left Nat.add st 0) dynamic.

(** * utils/__init__.py *)

(** utils/__init__.py:579-595, the state of the counting loop: number_oscillations,
    waiting_differential, high_level_trigger *)
Definition osc_step (threshold : Q) (s : nat * bool * bool) (v : Q) : nat * bool * bool :=
  let '(number, waiting, high) := s in
  let up := Qle_bool threshold v && negb high in
  let down := Qltb v threshold && high in
  let high' := if up then true else if down then false else high in
  if up || down then
    if waiting && negb high' then (S number, false, high') else (number, true, high')
  else (number, waiting, high').

(** utils/__init__.py:561-597 extract_number_oscillations, on the column [index] of the dynamic *)
Definition extract_number_oscillations (osc_dyn : list (list Q)) (index : nat) (threshold : Q) : res nat :=
  match osc_dyn with
  | [] => Raise IndexError
  | first :: _ =>
      if forallb (fun st => index <? length st) osc_dyn then
        Ok (fst (fst (fold_left (osc_step threshold) (map (fun st => nth index st 0%Q) osc_dyn)
                  (0, false, Qltb threshold (nth index first 0%Q)))))
      else Raise IndexError
  end.

(** utils/__init__.py:622-638: the last step at which the oscillator is not active, 0 if none;
    [col] is the recorded column of one oscillator *)
Fixpoint osc_stop (threshold : Q) (col : list Q) (t : nat) : nat :=
  match t with
  | 0 => 0
  | S t' => if Qltb threshold (nth t col 0%Q) then osc_stop threshold col t' else t
  end.

(** utils/__init__.py:640-649: scan from [t] down to 1 for the last pulse (end, start) *)
Fixpoint osc_scan (threshold : Q) (col : list Q) (active : bool) (d0 : nat) (t : nat) : nat * nat :=
  match t with
  | 0 => (d0, 0)
  | S t' =>
      let v := nth t col 0%Q in
      if Qltb threshold v && negb active then osc_scan threshold col true t t'
      else if Qltb v threshold && active then (d0, t)
      else osc_scan threshold col active d0 t'
  end.

(** utils/__init__.py:618-655: the descriptor (end, start) of the last whole pulse of one
    oscillator, [None] where python leaves the empty descriptor *)
Definition osc_descriptor (threshold : Q) (col : list Q) : option (nat * nat) :=
  let last := length col - 1 in
  let active := Qltb threshold (nth last col 0%Q) in
  let stop := if active then osc_stop threshold col last else last in
  if active && (stop =? 0) then None
  else match osc_scan threshold col false 0 stop with
       | (0, 0) => None
       | d => Some d
       end.

(** utils/__init__.py:654: desc[2], the middle of the pulse *)
Definition osc_middle (d : nat * nat) : Q :=
  (inject_Z (Z.of_nat (snd d)) + (inject_Z (Z.of_nat (fst d)) - inject_Z (Z.of_nat (snd d))) / 2)%Q.
(** utils/__init__.py:668 *)
Definition osc_reducer (tolerance : Q) (d : nat * nat) : Q :=
  ((inject_Z (Z.of_nat (fst d)) - inject_Z (Z.of_nat (snd d))) * tolerance)%Q.

(** utils/__init__.py:677-681: the first ensemble whose window (of its founder) contains the
    middle of the pulse; an ensemble is (founder descriptor, members) *)
Fixpoint osc_place (tolerance : Q) (d : nat * nat) (i : nat)
    (ensembles : list ((nat * nat) * list nat)) : option (list ((nat * nat) * list nat)) :=
  match ensembles with
  | [] => None
  | (f, m) :: t =>
      if Qltb (osc_middle d) (osc_middle f + osc_reducer tolerance f)%Q
         && Qltb (osc_middle f - osc_reducer tolerance f)%Q (osc_middle d)
      then Some ((f, m ++ [i]) :: t)
      else match osc_place tolerance d i t with Some t' => Some ((f, m) :: t') | None => None end
  end.

(** utils/__init__.py:662-691 *)
Definition osc_allocate (tolerance : Q) (ensembles : list ((nat * nat) * list nat))
    (x : nat * option (nat * nat)) : list ((nat * nat) * list nat) :=
  match snd x with
  | None => ensembles
  | Some d => match osc_place tolerance d (fst x) ensembles with
              | Some e => e
              | None => ensembles ++ [(d, [fst x])]
              end
  end.

(** utils/__init__.py:600-693 allocate_sync_ensembles; [ignore] as a list of indexes *)
Definition utils_sync_ensembles (dynamic : list (list Q)) (tolerance threshold : Q) (ignore : list nat)
  : res (list (list nat)) :=
  match dynamic with
  | [] => Raise IndexError
  | first :: _ =>
      let descr := map (fun i => if existsb (Nat.eqb i) ignore then None
                                 else osc_descriptor threshold (map (fun st => nth i st 0%Q) dynamic))
                       (seq 0 (length first)) in
      Ok (map snd (fold_left (osc_allocate tolerance) (combine (seq 0 (length first)) descr) []))
  end.

(** * nnet/legion.py: weights of the dynamic connections *)

(** nnet/legion.py:303-305 *)
Definition legion_stimulus (I : Q) (stimulus : list Q) : list Q :=
  map (fun v => if Qltb 0 v then I else 0%Q) stimulus.

(** nnet/legion.py:319-332, one row of the coupling matrix; [neighbors] as returned by
    get_neighbors *)
Definition legion_row (Wt : Q) (stim : list Q) (n : nat) (neighbors : list nat) (i : nat) : list Q :=
  let zero := repeat 0%Q n in
  if negb (length neighbors =? 0) && Qltb 0 (nth i stim 0%Q) then
    let k := length (filter (fun j => Qltb 0 (nth j stim 0%Q)) neighbors) in
    if 0 <? k then fold_left (fun row j => upd row j (Wt / inject_Z (Z.of_nat k))%Q) neighbors zero
    else zero
  else zero.
