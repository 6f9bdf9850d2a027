(** Small utilities: phase normalisation, bounding boxes, recognition of graph representation. *)
From Verif Require Import Base.

(** nnet/sync.py:1006-1023 sync_network._phase_normalization; [period] stands for 2.0 * pi;
    the while loop runs on fuel *)
Fixpoint phase_normalization (period : Q) (fuel : nat) (teta : Q) : res Q :=
  if Qltb period teta || Qltb teta 0 then
    match fuel with
    | 0 => Raise OutOfFuel
    | S f => phase_normalization period f
               (if Qltb period teta then (teta - period)%Q else (teta + period)%Q)
    end
  else Ok teta.

(** * Bounding boxes *)

(** utils/__init__.py:498-502, one coordinate of [data_corners] *)
Definition corner_coord (d : nat) (p : point) (mm : Q * Q) : Q * Q :=
  let '(mn, mx) := mm in
  let v := coord p d in
  let mx' := if Qltb mx v then v else mx in
  let mn' := if Qltb v mn then v else mn in
  (mn', mx').

(** utils/__init__.py:497-502, all coordinates in turn (they do not influence each other) *)
Definition corner_point (dims : nat) (corners : point * point) (p : point) : point * point :=
  let r := map (fun d => corner_coord d p (coord (fst corners) d, coord (snd corners) d)) (seq 0 dims) in
  (map fst r, map snd r).

(** utils/__init__.py:475-504 data_corners; [data_filter] as an optional list of indexes.
    Python raises IndexError for an empty data set, an empty filter or an index outside the data. *)
Definition data_corners (data : list point) (data_filter : option (list nat)) : res (point * point) :=
  match data with
  | [] => Raise IndexError
  | p0 :: _ =>
      let bypass := match data_filter with None => seq 0 (length data) | Some f => f end in
      match bypass with
      | [] => Raise IndexError
      | b0 :: _ =>
          if forallb (fun i => i <? length data) bypass then
            let first := nth b0 data [] in
            Ok (fold_left (corner_point (length p0)) (map (fun i => nth i data []) bypass) (first, first))
          else Raise IndexError
      end
  end.

(** utils/dimension.py:75-78, one coordinate; [elif] for the minimum *)
Definition dimension_coord (d : nat) (p : point) (mm : Q * Q) : Q * Q :=
  let '(mn, mx) := mm in
  let v := coord p d in
  if Qltb mx v then (mn, v) else if Qltb v mn then (v, mx) else (mn, mx).

(** for [dimension_minmax], utils/dimension.py:69-78 *)
Definition dimension_point (dims : nat) (corners : point * point) (p : point) : point * point :=
  let r := map (fun d => dimension_coord d p (coord (fst corners) d, coord (snd corners) d)) (seq 0 dims) in
  (map fst r, map snd r).

(** utils/dimension.py:69-78 dimension_info.__calculate_maxmin_dimension_coordinate *)
Definition dimension_minmax (data : list point) : res (point * point) :=
  match data with
  | [] => Raise IndexError
  | p0 :: _ => Ok (fold_left (dimension_point (length p0)) data (p0, p0))
  end.

(** utils/dimension.py:81-84 / 51-55 *)
Definition dimension_width (data : list point) : res point :=
  do mm <- dimension_minmax data;
  Ok (map (fun d => (coord (snd mm) d - coord (fst mm) d)%Q) (seq 0 (length (hd [] data)))).

(** utils/dimension.py:87-90 / 58-62 *)
Definition dimension_center (data : list point) : res point :=
  do mm <- dimension_minmax data;
  Ok (map (fun d => ((coord (snd mm) d + coord (fst mm) d) / 2)%Q) (seq 0 (length (hd [] data)))).

(** * Graph representation; for [graph_scan], utils/graph.py:64-71 *)
Inductive graph_descr := GRAPH_MATRIX_DESCR | GRAPH_VECTOR_DESCR.

(** utils/graph.py:64-71, loop over rows ([break] on a row of another length) *)
Fixpoint graph_scan (size : nat) (rows : list (list Z)) (ty : graph_descr) : graph_descr :=
  match rows with
  | [] => ty
  | row :: t =>
      if negb (length row =? size) then GRAPH_VECTOR_DESCR
      else graph_scan size t
             (fold_left (fun ty e => if negb (Z.eqb e 0) || negb (Z.eqb e 1) then GRAPH_VECTOR_DESCR else ty) row ty)
  end.

(** utils/graph.py:46-71 graph.__init__ without an explicit type *)
Definition graph_type (data : list (list Z)) : graph_descr :=
  graph_scan (length data) data GRAPH_MATRIX_DESCR.
