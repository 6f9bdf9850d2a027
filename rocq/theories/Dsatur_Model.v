(** Model of gcolor/dsatur.py. *)
From Verif Require Import Base.

Section Dsatur.
(** Iteration order of the python set [uncolored_vertices] (dsatur.py:70, 75); any permutation. *)
Variable iter : list nat -> list nat.

(** for [neighbors], dsatur.py:142-152 *)
Definition matrix := list (list Z).

(** for [neighbors], dsatur.py:142-152 *)
Definition entry (M : matrix) (i j : nat) : Z := nth j (nth i M []) 0%Z.

(** dsatur.py:142-152 [__get_neighbors] *)
Definition neighbors (M : matrix) (i : nat) : list nat :=
  filter (fun j => negb (Z.eqb (entry M i j) 0)) (seq 0 (length (nth i M []))).

(** dsatur.py:123-139 [__get_amount_color] *)
Definition amount_color (coloring : list nat) (idx : list nat) (c : nat) : nat :=
  length (filter (fun i => nth i coloring 0 =? c) idx).

(** dsatur.py:51 [sum(row)] *)
Definition degree_sum (M : matrix) (i : nat) : Z := fold_left Z.add (nth i M []) 0%Z.

(** dsatur.py:47-56: index of the vertex with the largest row sum, first one wins, 0 if no sum is positive *)
Definition max_degree_vertex (M : matrix) : nat :=
  fst (fold_left (fun acc i => if (snd acc <? degree_sum M i)%Z then (i, degree_sum M i) else acc)
                 (seq 0 (length M)) (0, 0%Z)).

(** dsatur.py:39-65 and the loop state *)
Record st := mkSt {
  coloring : list nat;       (* self.__coloring, 0 = not coloured *)
  counter : nat;             (* color_counter *)
  uncolored : list nat;      (* uncolored_vertices (duplicate free) *)
  satur : list nat           (* saturation_degrees *)
}.

(** for [step], dsatur.py:67-108 *)
Definition incr (l : list nat) (i : nat) : list nat := upd l i (S (nth i l 0)).

(** for [dsatur], dsatur.py:18-30 *)
Definition init_state (M : matrix) : st :=
  let n := length M in
  let v := max_degree_vertex M in
  mkSt (upd (repeat 0 n) v 1) 1 (remove Nat.eq_dec v (seq 0 n))
       (fold_left incr (neighbors M v) (repeat 0 n)).

(** dsatur.py:69-72 *)
Definition max_satur (s : st) : Z :=
  fold_left (fun acc i => if (acc <? Z.of_nat (nth i (satur s) O))%Z then Z.of_nat (nth i (satur s) O) else acc)
            (iter (uncolored s)) (-1)%Z.

(** dsatur.py:75 *)
Definition max_satur_list (s : st) : list nat :=
  filter (fun i => (Z.of_nat (nth i (satur s) O) =? max_satur s)%Z) (iter (uncolored s)).

(** dsatur.py:77-85 *)
Definition choose (M : matrix) (s : st) : res nat :=
  match max_satur_list s with
  | [] => Raise IndexError
  | v0 :: t =>
    if 1 <? length (v0 :: t) then
      Ok (fst (fold_left (fun acc i => if (snd acc <? degree_sum M i)%Z then (i, degree_sum M i) else acc)
                     (v0 :: t) (v0, (-1)%Z)))
    else Ok v0
  end.

(** dsatur.py:89-97: first free colour of [1..counter], else a new one; returns (colour, counter) *)
Definition pick_color (coloring nb : list nat) (counter : nat) : nat * nat :=
  match find (fun c => amount_color coloring nb c =? 0) (seq 1 counter) with
  | Some c => (c, counter)
  | None => (S counter, S counter)
  end.

(** dsatur.py:67-108, one iteration of the loop *)
Definition step (M : matrix) (s : st) : res st :=
  do v <- choose M s;
  let nb := neighbors M v in
  let '(c, k) := pick_color (coloring s) nb (counter s) in
  let col := upd (coloring s) v c in
  let sat := fold_left (fun sat u => if amount_color col (neighbors M u) (nth v col 0) =? 1
                                     then incr sat u else sat) nb (satur s) in
  Ok (mkSt col k (remove Nat.eq_dec v (uncolored s)) sat).

(** for [dsatur], dsatur.py:18-30 *)
Fixpoint loop (fuel : nat) (M : matrix) (s : st) : res st :=
  match uncolored s with
  | [] => Ok s
  | _ => match fuel with
         | 0 => Raise OutOfFuel
         | S f => do s' <- step M s; loop f M s'
         end
  end.

(** dsatur.py:18-30 constructor, 32-108 process, 110-121 get_colors *)
Definition dsatur (M : matrix) : res (list nat) :=
  match M with
  | [] => Raise IndexError                                       (* data[0] *)
  | row :: _ =>
    if negb (length row =? length M) then Raise NameError
    else do s <- loop (length M) M (init_state M); Ok (coloring s)
  end.
End Dsatur.
