(** Pictures of segments and of dynamics: pyclustering/utils/__init__.py,
    draw_dynamics, draw_dynamics_set, draw_image_color_segments,
    draw_image_mask_segments (L798-1108), and
    pyclustering/nnet/dynamic_visualizer.py.  Modelled is what matplotlib is
    told to draw and where; titles, labels and windows are left out.  Numbers
    are exact rationals; indexes are not negative. *)
From Verif Require Import Base.

(** for [AVAILABLE], utils/__init__.py:998-1004 *)
Definition rgb : Type := (nat * nat * nat)%type.
(** for [color_segments], utils/__init__.py:979-1029 *)
Definition white : rgb := (255, 255, 255).
(** for [mask], utils/__init__.py:1081-1083 *)
Definition black : rgb := (0, 0, 0).

(** utils/__init__.py:998-1004. *)
Definition AVAILABLE : list rgb :=
  [(0, 162, 232); (34, 177, 76); (237, 28, 36); (255, 242, 0); (0, 0, 0); (237, 28, 36); (255, 174, 201); (127, 127, 127);
   (185, 122, 87); (200, 191, 231); (136, 0, 21); (255, 127, 39); (63, 72, 204); (195, 195, 195); (255, 201, 14);
   (239, 228, 176); (181, 230, 29); (153, 217, 234); (112, 146, 180)].

(** utils/__init__.py:1009-1010: one segment. *)
Fixpoint paint (picture : list rgb) (color : res rgb) (pixels : list nat) : res (list rgb) :=
  match pixels with
  | [] => Ok picture
  | i :: rest =>
      do c <- color;
      if i <? length picture then paint (upd picture i c) color rest else Raise IndexError
  end.

(** utils/__init__.py:1008-1010: the segments from number k. *)
Fixpoint paint_segments (picture : list rgb) (k : nat) (clusters : list (list nat)) : res (list rgb) :=
  match clusters with
  | [] => Ok picture
  | c :: rest =>
      do p <- paint picture (match nth_error AVAILABLE k with Some x => Ok x | None => Raise IndexError end) c;
      paint_segments p (S k) rest
  end.

(** utils/__init__.py:1012-1014 and 1085-1088: reshaped to rows of [width]. *)
Fixpoint reshape (width height : nat) (picture : list rgb) : list (list rgb) :=
  match height with
  | O => []
  | S h => firstn width picture :: reshape width h (skipn width picture)
  end.

(** utils/__init__.py:979-1029 (draw_image_color_segments): the second picture. *)
Definition color_segments (width height : nat) (clusters : list (list nat)) : res (list (list rgb)) :=
  do p <- paint_segments (repeat white (width * height)) 0 clusters;
  Ok (reshape width height p).

(** utils/__init__.py:952-953, 1054-1055: the shape of the grid; ceil of the
    square root is exact here (floats in the code). *)
Definition grid_cols (n : nat) : nat := Nat.sqrt_up n.
(** with [grid_cols], utils/__init__.py:952-953 *)
Definition grid_rows (n : nat) : nat := (n + (grid_cols n - 1)) / grid_cols n.

(** An element of the array of axes: by row and column, or by number if the
    grid has one row or column. for [next_cell], utils/__init__.py:968-973 *)
Inductive cell : Type := Cell (row col : nat) | Place (i : nat).

(** utils/__init__.py:968-973, 1100-1105: the next cell. *)
Definition next_cell (cols : nat) (c : cell) : cell :=
  match c with
  | Cell r k => if cols <=? S k then Cell (S r) 0 else Cell r (S k)
  | Place i => Place (S i)
  end.

(** utils/__init__.py:955-959, 1057-1061. *)
Definition first_cell (n : nat) : cell :=
  if (grid_cols n =? 1) || (grid_rows n =? 1) then Place 0 else Cell 0 0.

(** The element of the array exists (else IndexError). for [draw_masks], utils/__init__.py:1080-1105 *)
Definition cell_exists (n : nat) (c : cell) : bool :=
  match c with
  | Cell r k => (r <? grid_rows n) && (k <? grid_cols n)
  | Place i => i <? grid_rows n * grid_cols n
  end.

(** utils/__init__.py:1081-1083: the mask of a segment. *)
Definition mask (width height : nat) (cluster : list nat) : res (list rgb) :=
  paint (repeat white (width * height)) (Ok black) cluster.

(** utils/__init__.py:1080-1105: the loop over the segments. *)
Fixpoint draw_masks (n width height : nat) (c : cell) (clusters : list (list nat)) : res (list (cell * list (list rgb))) :=
  match clusters with
  | [] => Ok []
  | x :: rest =>
      do p <- mask width height x;
      if cell_exists n c then
        do more <- draw_masks n width height (next_cell (grid_cols n) c) rest;
        Ok ((c, reshape width height p) :: more)
      else Raise IndexError
  end.

(** utils/__init__.py:1032-1108 (draw_image_mask_segments): the cell of the
    source image and the masks with their cells; None: nothing to draw.  At
    L1075-1078 the second cell is (0, 1) or 1. *)
Definition mask_segments (width height : nat) (clusters : list (list nat)) : res (option (cell * list (cell * list (list rgb)))) :=
  match clusters with
  | [] => Ok None
  | _ =>
      let n := S (length clusters) in
      if cell_exists n (first_cell n) then
        let second := match first_cell n with Cell _ _ => Cell 0 1 | Place i => Place (S i) end in
        do l <- draw_masks n width height second clusters;
        Ok (Some (first_cell n, l))
      else Raise IndexError
  end.

(** * Dynamics *)

(** One dynamic, or rows of the values of several at the same time. for [number_lines], utils/__init__.py:825-835 *)
Inductive dynamics : Type := Single (ys : list Q) | Several (rows : list (list Q)).

(** The argument [separate]. for [draw_columns], utils/__init__.py:846-871 *)
Inductive separation : Type := Together | Apart | Groups (gs : list (list nat)).

(** Where a curve goes: the axis itself or an element of the array of axes. for [draw_columns], utils/__init__.py:846-871 *)
Inductive place : Type := Whole | At (i : nat).

(** A curve: place, times, values. for [draw_columns], utils/__init__.py:846-871 *)
Definition curve : Type := (place * list Q * list Q)%type.

(** utils/__init__.py:847, dynamic_visualizer.py:277: [item[index] for item in dyn]. *)
Fixpoint column (rows : list (list Q)) (index : nat) : res (list Q) :=
  match rows with
  | [] => Ok []
  | r :: rest =>
      match nth_error r index with
      | None => Raise IndexError
      | Some y => do ys <- column rest index; Ok (y :: ys)
      end
  end.

(** axis.plot(t, y): matplotlib refuses lists of different lengths. for [draw_columns], utils/__init__.py:846-871 *)
Definition plot (p : place) (t ys : list Q) : res (list curve) :=
  if length t =? length ys then Ok [(p, t, ys)] else Raise ValueError.

(** utils/__init__.py:857-860: the first group with the dynamic. *)
Fixpoint find_group (gs : list (list nat)) (k index : nat) : option nat :=
  match gs with
  | [] => None
  | g :: rest => if existsb (Nat.eqb index) g then Some k else find_group rest (S k) index
  end.

(** utils/__init__.py:846-871: the loop over the dynamics. *)
Fixpoint draw_columns (lines : nat) (s : separation) (t : list Q) (rows : list (list Q)) (indexes : list nat) : res (list curve) :=
  match indexes with
  | [] => Ok []
  | i :: rest =>
      do ys <- column rows i;
      do c <- (if 1 <? lines then
                 match s with
                 | Groups gs => match find_group gs 0 i with Some g => plot (At g) t ys | None => Ok [] end
                 | _ => plot (At i) t ys
                 end
               else plot Whole t ys);
      do more <- draw_columns lines s t rows rest;
      Ok (c ++ more)
  end.

(** utils/__init__.py:825-835: number_lines (dyn is not empty). *)
Definition number_lines (d : dynamics) (s : separation) : nat :=
  match s with
  | Apart => match d with Several (r :: _) => length r | _ => 1 end
  | Groups gs => length gs
  | Together => 1
  end.

(** utils/__init__.py:798-879 (draw_dynamics) without an axis: the number of
    axes and the curves in the order of drawing.  No lines are refused by
    matplotlib (ValueError); several axes have no method plot (AttributeError). *)
Definition draw_dynamics (t : list Q) (d : dynamics) (s : separation) : res (nat * list curve) :=
  match d with
  | Single [] | Several [] => Raise IndexError
  | _ =>
      let lines := number_lines d s in
      if lines =? 0 then Raise ValueError
      else
        match d with
        | Several rows =>
            do l <- draw_columns lines s t rows (seq 0 (length (nth 0 rows []))); Ok (lines, l)
        | Single ys => if 1 <? lines then Raise AttributeError else do l <- plot Whole t ys; Ok (lines, l)
        end
  end.

(** utils/__init__.py:819-823: the borders of the x axis. *)
Definition stage_xlim (x_lim : option (Q * Q)) (t : list Q) : option (Q * Q) :=
  match x_lim with
  | Some l => Some l
  | None => match t with [] => None | _ => Some (0%Q, last t 0%Q) end
  end.

(** utils/__init__.py:965 with an axis and separate False: the curves on it. *)
Definition draw_on (t : list Q) (d : dynamics) : res (list curve) :=
  match d with
  | Single [] | Several [] => Raise IndexError
  | Several rows => draw_columns 1 Together t rows (seq 0 (length (nth 0 rows [])))
  | Single ys => plot Whole t ys
  end.

(** utils/__init__.py:964-973: the loop over the sets of dynamics. *)
Fixpoint draw_sets (n : nat) (c : cell) (ds : list (list Q * dynamics)) : res (list (cell * list curve)) :=
  match ds with
  | [] => Ok []
  | (t, d) :: rest =>
      if cell_exists n c then
        do l <- draw_on t d;
        do more <- draw_sets n (next_cell (grid_cols n) c) rest;
        Ok ((c, l) :: more)
      else Raise IndexError
  end.

(** utils/__init__.py:932-976 (draw_dynamics_set); a single one is drawn as
    draw_dynamics does. *)
Definition draw_dynamics_set (ds : list (list Q * dynamics)) : res (list (cell * list curve)) :=
  match ds with
  | [] => Raise ZeroDivisionError
  | [(t, d)] => do r <- draw_dynamics t d Together; Ok [(Place 0, snd r)]
  | _ => draw_sets (length ds) (first_cell (length ds)) ds
  end.

(** * dynamic_visualizer *)

(** dynamic_visualizer.py:64-93 (dynamic_descr), the colour as a number. *)
Record descr : Type := mkDescr { d_canvas : nat; d_time : list Q; d_dynamics : dynamics; d_separate : list nat; d_color : nat }.

(** dynamic_visualizer.py:169-171: the number of canvases, the x borders of
    each (the other settings of a canvas are left out), the dynamics. *)
Record dynvis : Type := mkDynvis { dv_size : nat; dv_xlim : list (option (Q * Q)); dv_storage : list descr }.

(** dynamic_visualizer.py:152-171 (__init__). *)
Definition dynvis_init (canvases : nat) (x_lim : option (Q * Q)) : dynvis := mkDynvis canvases (repeat x_lim canvases) [].

(** dynamic_visualizer.py:123-124: one group. *)
Fixpoint assign (separate : list nat) (k : nat) (group : list nat) : res (list nat) :=
  match group with
  | [] => Ok separate
  | i :: rest => if i <? length separate then assign (upd separate i k) k rest else Raise IndexError
  end.

(** dynamic_visualizer.py:121-124: the groups from number k. *)
Fixpoint assign_all (separate : list nat) (k : nat) (gs : list (list nat)) : res (list nat) :=
  match gs with
  | [] => Ok separate
  | g :: rest => do s <- assign separate k g; assign_all s (S k) rest
  end.

(** dynamic_visualizer.py:108-141 (__get_canonical_separate). *)
Definition canonical_separate (canvas : nat) (d : dynamics) (s : separation) : res (list nat) :=
  match d with
  | Single [] | Several [] => Raise IndexError
  | Single _ => match s with Groups _ => Raise TypeError | _ => Ok [canvas] end
  | Several (r :: _) =>
      match s with
      | Groups gs => assign_all (repeat 0 (length r)) 0 gs
      | Together => Ok (repeat canvas (length r))
      | Apart => Ok (seq canvas (length r))
      end
  end.

(** dynamic_visualizer.py:308: the comparison of lists [a, b] < [0, last]. *)
Definition limits_below (l m : Q * Q) : bool :=
  if Qeq_bool (fst l) (fst m) then Qltb (snd l) (snd m) else Qltb (fst l) (fst m).

(** dynamic_visualizer.py:301-309 (__update_canvas_xlim). *)
Fixpoint update_xlim (xlim : list (option (Q * Q))) (t : list Q) (separate : list nat) : list (option (Q * Q)) * res unit :=
  match separate with
  | [] => (xlim, Ok tt)
  | k :: rest =>
      match t with
      | [] => (xlim, Raise IndexError)
      | _ =>
          let new := (0%Q, last t 0%Q) in
          match nth_error xlim k with
          | None => (xlim, Raise IndexError)
          | Some old =>
              if match old with None => true | Some l => limits_below l new end
              then update_xlim (upd xlim k (Some new)) t rest
              else update_xlim xlim t rest
          end
      end
  end.

(** dynamic_visualizer.py:192-224 (append_dynamic is append_dynamics with
    separate False), with the state it leaves behind. *)
Definition append_dynamics (v : dynvis) (t : list Q) (d : dynamics) (canvas : nat) (s : separation) (color : nat)
  : dynvis * res unit :=
  match canonical_separate canvas d s with
  | Raise e => (v, Raise e)
  | Ok sep =>
      let (xlim, r) := update_xlim (dv_xlim v) t sep in
      (mkDynvis (dv_size v) xlim (dv_storage v ++ [mkDescr canvas t d sep color]), r)
  end.

(** The axes show draws on: those the user gives, or new ones. for [show_dynamics], dynamic_visualizer.py:238-263 *)
Inductive owner : Type := Given | Fresh.

(** The only colour and style of the curves, 'b-' (utils/__init__.py L282, L287). *)
Inductive style : Type := Blue.

(** dynamic_visualizer.py:312-321 (__get_axis): the format of the message at
    L314 fails with TypeError. *)
Definition get_axis (v : dynvis) (index : nat) : res place :=
  if length (dv_xlim v) <=? index then Raise TypeError
  else Ok (if 1 <? dv_size v then At index else Whole).

(** dynamic_visualizer.py:274-282: several dynamics. *)
Fixpoint display_columns (v : dynvis) (t : list Q) (rows : list (list Q)) (sep : list nat) (indexes : list nat)
  : res (list (curve * style)) :=
  match indexes with
  | [] => Ok []
  | i :: rest =>
      do ys <- column rows i;
      match nth_error sep i with
      | None => Raise IndexError
      | Some k =>
          do p <- get_axis v k;
          do c <- plot p t ys;
          do more <- display_columns v t rows sep rest;
          Ok (map (fun x => (x, Blue)) c ++ more)
      end
  end.

(** dynamic_visualizer.py:266-287 (__display_dynamic). *)
Definition display (v : dynvis) (d : descr) : res (list (curve * style)) :=
  match d_dynamics d with
  | Single [] | Several [] => Raise IndexError
  | Several rows => display_columns v (d_time d) rows (d_separate d) (seq 0 (length (nth 0 rows [])))
  | Single ys => do p <- get_axis v (d_canvas d); do c <- plot p (d_time d) ys; Ok (map (fun x => (x, Blue)) c)
  end.

(** dynamic_visualizer.py:257-258. *)
Fixpoint display_all (v : dynvis) (ds : list descr) : res (list (curve * style)) :=
  match ds with
  | [] => Ok []
  | d :: rest => do c <- display v d; do more <- display_all v rest; Ok (c ++ more)
  end.

(** dynamic_visualizer.py:238-263 (show), [given]: an axis is given.  The test
    at L252 is inverted: a given axis is replaced by new ones, and without one
    the formatting of the first canvas works on None (L294-295). *)
Definition show_dynamics (v : dynvis) (given : bool) : res (owner * list (option (Q * Q)) * list (curve * style)) :=
  if given then
    if dv_size v =? 0 then Raise ValueError
    else do l <- display_all v (dv_storage v); Ok (Fresh, dv_xlim v, l)
  else
    match dv_size v with
    | O => do l <- display_all v (dv_storage v); Ok (Given, dv_xlim v, l)
    | S O => Raise AttributeError
    | _ => Raise TypeError
    end.
