(** Pictures of blocks: clique_visualizer (pyclustering/cluster/clique.py
    L28-147), bang_visualizer and bang_animator (pyclustering/cluster/bang.py
    L28-401).  What matplotlib gets is modelled by lists of rectangles, marks
    and bars; labels, grids and windows are left out.  Numbers are exact. *)
From Coq Require Import String.
From Verif Require Import Base Canvas_Model Multivis_Model.
From Verif Require Clique_Model Bang_Model.
Open Scope nat_scope.

(** A rectangle: lower left corner, width and height, whether it is filled, the
    alpha of the blue it is filled with. for [draw_canvases], clique.py:61-64 *)
Record patch : Type := mkPatch { p_corner : Q * Q; p_sides : Q * Q; p_filled : bool; p_alpha : Q }.

(** clique.py:138-147, 128 and bang.py:185-203, 176 (__get_rectangle_description):
    lower left corner and sides, from the corners of a block. *)
Definition rectangle (mx mn : nat -> Q) (pr : nat * nat) : (Q * Q) * (Q * Q) :=
  let '(i, j) := pr in
  if (i =? 0) && (j =? 0) then ((mn 0%nat, -(1))%Q, (mx 0%nat - mn 0%nat, 1 - -(1))%Q)
  else ((mn i, mn j), (mx i - mn i, mx j - mn j)%Q).

(** clique.py:122-125, bang.py:170-173: 0.6 of the relative density. *)
Definition shade (density scale : Q) : Q := if Qeq_bool scale 0 then scale else ((6 # 10) * density / scale)%Q.

(** clique.py:51-59, bang.py:50-58: the amount of canvases, the pairs of
    coordinates. *)
Definition amount_canvases (dimension : nat) : nat := if 1 <? dimension then dimension * (dimension - 1) / 2 else 1.
(** with [amount_canvases], clique.py:51-59 *)
Definition canvas_pairs (dimension : nat) : list (nat * nat) :=
  match combinations2 dimension with [] => [(0, 0)] | l => l end.

(** clique.py:99-103, bang.py:130-134: the points, [wide]: len(data[0]) > 1. *)
Fixpoint draw_points (wide : bool) (pr : nat * nat) (data : list point) : res (list (Q * Q)) :=
  match data with
  | [] => Ok []
  | p :: rest =>
      do x <- fetch p (fst pr);
      do y <- (if wide then fetch p (snd pr) else Ok 0%Q);
      do more <- draw_points wide pr rest;
      Ok ((x, y) :: more)
  end.

(** A canvas: the pair of coordinates, the rectangles, the points. for [draw_canvases], clique.py:61-64 *)
Definition canvas : Type := ((nat * nat) * list patch * list (Q * Q))%type.

(** clique.py:61-64, bang.py:60-63: the loop over the canvases; [patches] draws
    the rectangles of a pair. *)
Fixpoint draw_canvases (patches : nat * nat -> list patch) (pairs : list (nat * nat)) (data : list point) (ks : list nat)
  : res (list canvas) :=
  match ks with
  | [] => Ok []
  | k :: rest =>
      match nth_error pairs k with
      | None => Raise IndexError
      | Some pr =>
          do ms <- draw_points (1 <? length (nth 0 data [])) pr data;
          do more <- draw_canvases patches pairs data rest;
          Ok ((pr, patches pr, ms) :: more)
      end
  end.

(** clique.py:108-133 (__draw_cells, __draw_cell): a cell is its location and
    the indexes of its points. *)
Definition cell_patches (data : list point) (intervals : nat) (cells : list (list nat * list nat)) (pr : nat * nat) : list patch :=
  let scale := inject_Z (Z.of_nat (list_max (map (fun c => length (snd c)) cells))) in
  map (fun c =>
         let '(corner, sides) :=
           rectangle (Clique_Model.cell_max data intervals (fst c)) (Clique_Model.cell_min data intervals (fst c)) pr in
         mkPatch corner sides (0 <? length (snd c)) (shade (inject_Z (Z.of_nat (length (snd c)))) scale)) cells.

(** clique.py:39-67 (show_grid). *)
Definition show_grid (data : list point) (intervals : nat) (cells : list (list nat * list nat)) : res (list canvas) :=
  match cells with
  | [] => Raise IndexError
  | c :: _ =>
      let dimension := length (fst c) in
      draw_canvases (cell_patches data intervals cells) (canvas_pairs dimension) data (seq 0 (amount_canvases dimension))
  end.

(** clique.py:552-561 (get_cells) after process(): locations with the points
    captured. *)
Definition grid_cells (data : list point) (intervals : nat) : list (list nat * list nat) :=
  combine (Clique_Model.cells data intervals) (Clique_Model.cell_points data intervals).

(** bang.py:139-181 (__draw_blocks, __draw_block): the leafs with their
    clusters. *)
Definition block_patches (data : list point) (leafs : list (Bang_Model.block * option nat)) (pr : nat * nat) : list patch :=
  let scale := Bang_Model.density data (fst (last leafs (Bang_Model.b0, None))) in
  map (fun l =>
         let b := fst l in
         let '(corner, sides) := rectangle (coord (Bang_Model.bmax b)) (coord (Bang_Model.bmin b)) pr in
         mkPatch corner sides (match snd l with Some _ => true | None => false end)
           (shade (Bang_Model.density data b) scale)) leafs.

(** bang.py:39-66 (show_blocks). *)
Definition show_blocks (data : list point) (leafs : list (Bang_Model.block * option nat)) : res (list canvas) :=
  match data with
  | [] => Raise IndexError
  | p :: _ =>
      match leafs with
      | [] => Raise IndexError
      | _ =>
          let dimension := length p in
          draw_canvases (block_patches data leafs) (canvas_pairs dimension) data (seq 0 (amount_canvases dimension))
      end
  end.

(** A bar: the position of its centre, its height and its colour; the width is 1. for [draw_bars], bang.py:82-89 *)
Definition bar : Type := (nat * Q * string)%type.

(** bang.py:82-89: the clusters from number k, the densities of their blocks. *)
Fixpoint draw_bars (k position : nat) (dendrogram : list (list Q)) : list bar * nat :=
  match dendrogram with
  | [] => ([], position)
  | densities :: rest =>
      let more := draw_bars (S k) (position + length densities) rest in
      (combine (combine (seq position (length densities)) densities) (repeat (get_color k) (length densities)) ++ fst more,
       snd more)
  end.

(** bang.py:70-97 (show_dendrogram): the bars and the borders of the x axis. *)
Definition show_dendrogram (dendrogram : list (list Q)) : list bar * (Q * Q) :=
  let r := draw_bars 0 0 dendrogram in (fst r, (-(1 # 2), inject_Z (Z.of_nat (snd r)) - (1 # 2))%Q).

(** * bang_animator *)

(** bang.py:245-253: the fields that change. *)
Record animator : Type := mkAnim { an_block : nat; an_level : nat; an_blocks : list Bang_Model.block; an_special : nat }.

(** What a frame draws. for [frame], bang.py:367-387 *)
Inductive picture : Type := DrawBlock (b : Bang_Model.block) | DrawDensity | DrawClusters | ClearAndDrawClusters | DrawNothing.

(** bang.py:235-255 (__init__) and 266-272, for the data and the blocks of the
    levels. *)
Definition animator_init (data : list point) (levels : list (list Bang_Model.block)) : res animator :=
  match levels with
  | [] => Raise IndexError
  | l :: _ => if length (nth 0 data []) =? 2 then Ok (mkAnim 0 0 l 0) else Raise ValueError
  end.

(** bang.py:275-286 (__increment_block). *)
Definition increment_block (levels : list (list Bang_Model.block)) (a : animator) : animator :=
  if length (an_blocks a) <=? S (an_block a) then
    mkAnim 0 (S (an_level a)) (if S (an_level a) <? length levels then nth (S (an_level a)) levels [] else an_blocks a) (an_special a)
  else mkAnim (S (an_block a)) (an_level a) (an_blocks a) (an_special a).

(** bang.py:367-387 (frame_generation). *)
Definition frame (levels : list (list Bang_Model.block)) (a : animator) : res (animator * picture) :=
  if an_level a <? length levels then
    match nth_error (an_blocks a) (an_block a) with
    | None => Raise IndexError
    | Some b => Ok (increment_block levels a, DrawBlock b)
    end
  else
    Ok (mkAnim (an_block a) (an_level a) (an_blocks a) (S (an_special a)),
        match an_special a with 0 => DrawDensity | 15 => DrawClusters | 30 => ClearAndDrawClusters | _ => DrawNothing end).

(** The pictures of n calls in turn. for [animate], bang.py:347-396 *)
Fixpoint frames (levels : list (list Bang_Model.block)) (n : nat) (a : animator) : res (list picture) :=
  match n with
  | 0 => Ok []
  | S n' => do r <- frame levels a; do more <- frames levels n' (fst r); Ok (snd r :: more)
  end.

(** bang.py:347-396 (animate): matplotlib calls init_frame once, which makes a
    frame (L364), and then frame_generation [iterations] times (L391). *)
Definition animate (data : list point) (d : Bang_Model.directory) : res (list picture) :=
  do a <- animator_init data (Bang_Model.level_blocks d);
  frames (Bang_Model.level_blocks d) (1 + (Bang_Model.size d + 60)) a.
