(** syncpr_visualizer of nnet/syncpr.py: the pictures of pattern recognition.
    Only what is drawn and where; titles and windows are left out, phases are
    real numbers and the step between pictures is exact. *)
From Verif Require Import Base.
From Coq Require Import Reals.
Open Scope nat_scope.

(** syncpr.py:172: [math.floor(phase * (255 / (2 * math.pi)))] *)
Definition pixel_color (phase : R) : Z := Int_part (phase * (255 / (2 * PI))).

(** syncpr.py:175: conversion to numpy.uint8 (one of three equal channels); numbers
    outside 0 ... 255 wrap around, as in numpy before 1.24 *)
Definition uint8 (v : Z) : Z := (v mod 256)%Z.

(** syncpr.py:168-173: the oscillators from number [index] on; IndexError when there are more than pixels *)
Fixpoint paint (stage : list Z) (index : nat) (phases : list R) : res (list Z) :=
  match phases with
  | [] => Ok stage
  | p :: t => if index <? length stage then paint (upd stage index (pixel_color p)) (S index) t else Raise IndexError
  end.

(** syncpr.py:152-188 __show_pattern: the grey picture, row by row *)
Definition show_stage (height width : nat) (phases : list R) : res (list (list Z)) :=
  do stage <- paint (repeat 255%Z (height * width)) 0 phases;
  Ok (map (fun r => map uint8 (firstn width (skipn (r * width) stage))) (seq 0 height)).

(** syncpr.py:63-67: number of pictures and step between them *)
Definition pictures_of (n : nat) : nat := if 50 <? n then 50 else n.
(** syncpr.py:63-66: the step between two pictures (a float in the code, exact here) *)
Definition step_of (n : nat) : Q := if 50 <? n then (inject_Z (Z.of_nat n) / 50)%Q else 1%Q.

(** syncpr.py:69-70: columns and rows of the figure; [None] for the division by zero columns *)
Definition grid_of (pictures : nat) : option (nat * nat) :=
  let cols := Nat.sqrt_up pictures in
  if cols =? 0 then None else Some ((pictures + cols - 1) / cols, cols).

(** syncpr.py:72-76, 94-99: the next place of the figure *)
Definition next_cell (double : bool) (cols : nat) (cell : nat * nat) : nat * nat :=
  if double then (if cols <=? snd cell + 1 then (fst cell + 1, 0) else (fst cell, snd cell + 1))
  else (fst cell, snd cell + 1).

(** syncpr.py:83-99: the rest of the iterations; a picture is its place, its iteration and its pixels *)
Fixpoint show_loop (height width rows cols : nat) (double : bool) (step : Q) (states : list (list R)) (iteration : nat)
    (display : Q) (cell : nat * nat) : res (list (nat * nat * nat * list (list Z))) :=
  match states with
  | [] => Ok []
  | s :: t =>
    if Qle_bool display (inject_Z (Z.of_nat iteration)) then
      (* [axarr[real_index]]; a figure with one row or one column is indexed by one number *)
      if (if double then (fst cell <? rows) && (snd cell <? cols) else snd cell <? rows * cols) then
        do picture <- show_stage height width s;
        do rest <- show_loop height width rows cols double step t (S iteration) (display + step)%Q (next_cell double cols cell);
        Ok ((cell, iteration, picture) :: rest)
      else Raise IndexError
    else show_loop height width rows cols double step t (S iteration) display cell
  end.

(** syncpr.py:53-102 show_pattern *)
Definition show_pattern (dynamic : list (list R)) (height width : nat) : res (list (nat * nat * nat * list (list Z))) :=
  let pictures := pictures_of (length dynamic) in
  match grid_of pictures with
  | None => Raise ZeroDivisionError
  | Some (rows, cols) =>
    let double := negb ((cols =? 1) || (rows =? 1)) in
    show_loop height width rows cols double (step_of (length dynamic)) dynamic 0 0%Q (0, 0)
  end.

(** syncpr.py:123-137 frame_generation: the phases on the circle and the picture *)
Definition pattern_frame (dynamic : list (list R)) (height width index : nat) : res (list (R * R) * list (list Z)) :=
  match nth_error dynamic index with
  | None => Raise IndexError
  | Some s => do picture <- show_stage height width s; Ok (map (fun p => (p, 1%R)) s, picture)
  end.

(** syncpr.py:105-149 animate_pattern_recognition: the frames 0, 1, ... of the animation (init_func draws frame 0) *)
Fixpoint pattern_frames (dynamic : list (list R)) (height width : nat) (indexes : list nat) : res (list (list (R * R) * list (list Z))) :=
  match indexes with
  | [] => Ok []
  | i :: t => do f <- pattern_frame dynamic height width i; do rest <- pattern_frames dynamic height width t; Ok (f :: rest)
  end.
(** syncpr.py:139: all frames *)
Definition animate_pattern_recognition (dynamic : list (list R)) (height width : nat) :=
  pattern_frames dynamic height width (seq 0 (length dynamic)).
