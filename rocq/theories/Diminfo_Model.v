(** utils/dimension.py: dimension_info as an object that stores its answers.  The data are held by reference, so the
    owner may change them between the calls.  A call that raises leaves what was stored before the exception.
    Coordinates are exact rationals; the check for None (L19-20) is left out. *)
From Verif Require Import Base.

(** dimension.py:18-28 *)
Record info := { i_data : list point; i_dims : option nat; i_max : option point; i_min : option point;
                 i_width : option point; i_center : option point }.
(** dimension.py:18-28 *)
Definition new_info (data : list point) : info := {| i_data := data; i_dims := None; i_max := None; i_min := None; i_width := None; i_center := None |}.

(** assignment to __dimensions, dimension.py:66 *)
Definition set_dims (s : info) (n : nat) : info := {| i_data := i_data s; i_dims := Some n; i_max := i_max s; i_min := i_min s; i_width := i_width s; i_center := i_center s |}.
(** assignments to __maximum_dimension and __minimum_dimension, dimension.py:70-71, 76, 78 *)
Definition set_corners (s : info) (mx mn : point) : info := {| i_data := i_data s; i_dims := i_dims s; i_max := Some mx; i_min := Some mn; i_width := i_width s; i_center := i_center s |}.
(** assignments to __width_dimension, dimension.py:82, 84 *)
Definition set_width (s : info) (w : point) : info := {| i_data := i_data s; i_dims := i_dims s; i_max := i_max s; i_min := i_min s; i_width := Some w; i_center := i_center s |}.
(** assignments to __center_dimension, dimension.py:88, 90 *)
Definition set_center (s : info) (c : point) : info := {| i_data := i_data s; i_dims := i_dims s; i_max := i_max s; i_min := i_min s; i_width := i_width s; i_center := Some c |}.
(** the owner of the list changes it; nothing in dimension.py notices (L22) *)
Definition set_data (s : info) (d : list point) : info := {| i_data := d; i_dims := i_dims s; i_max := i_max s; i_min := i_min s; i_width := i_width s; i_center := i_center s |}.

(** dimension.py:30-34, 65-66 *)
Definition get_dimensions (s : info) : info * res nat :=
  match i_dims s with
  | Some n => (s, Ok n)
  | None => match i_data s with [] => (s, Raise IndexError) | p :: _ => (set_dims s (length p), Ok (length p)) end
  end.

(** dimension.py:70, the same as L71 *)
Definition first_coords (data : list point) (n : nat) : res point :=
  if n =? 0 then Ok [] else
  match data with [] => Raise IndexError | p :: _ => if n <=? length p then Ok (firstn n p) else Raise IndexError end.

(** dimension.py:74-78, the coordinates [ds] of one point; the corners so far and the exception *)
Fixpoint row_scan (p : point) (ds : list nat) (mx mn : point) : point * point * option exn :=
  match ds with
  | [] => (mx, mn, None)
  | d :: t =>
      match nth_error p d with
      | None => (mx, mn, Some IndexError)
      | Some x =>
          if Qltb (coord mx d) x then row_scan p t (upd mx d x) mn
          else if Qltb x (coord mn d) then row_scan p t mx (upd mn d x)
          else row_scan p t mx mn
      end
  end.
(** dimension.py:73-78 *)
Fixpoint rows_scan (rows : list point) (n : nat) (mx mn : point) : point * point * option exn :=
  match rows with
  | [] => (mx, mn, None)
  | p :: t => match row_scan p (seq 0 n) mx mn with
              | (mx', mn', None) => rows_scan t n mx' mn'
              | r => r
              end
  end.
(** dimension.py:69-78 *)
Definition calculate_maxmin (s : info) : info * res unit :=
  match get_dimensions s with
  | (s1, Raise e) => (s1, Raise e)
  | (s1, Ok n) =>
      match first_coords (i_data s1) n with
      | Raise e => (s1, Raise e)
      | Ok f => let '(mx, mn, e) := rows_scan (i_data s1) n f f in
                (set_corners s1 mx mn, match e with None => Ok tt | Some e => Raise e end)
      end
  end.
(** dimension.py:37-41 *)
Definition get_maximum (s : info) : info * res point :=
  match i_max s with
  | Some m => (s, Ok m)
  | None => match calculate_maxmin s with
            | (s1, Raise e) => (s1, Raise e)
            | (s1, Ok _) => (s1, match i_max s1 with Some m => Ok m | None => Raise TypeError end)
            end
  end.
(** dimension.py:44-48 *)
Definition get_minimum (s : info) : info * res point :=
  match i_min s with
  | Some m => (s, Ok m)
  | None => match calculate_maxmin s with
            | (s1, Raise e) => (s1, Raise e)
            | (s1, Ok _) => (s1, match i_min s1 with Some m => Ok m | None => Raise TypeError end)
            end
  end.

(** the loops of dimension.py:83-84 and 89-90: [put] stores the list, [f] is the expression; the corners have as many
    coordinates as __dimensions, so their indices are valid *)
Fixpoint fill (put : info -> point -> info) (f : Q -> Q -> Q) (ds : list nat) (l : point) (s : info) : info * res unit :=
  match ds with
  | [] => (s, Ok tt)
  | d :: t =>
      match get_maximum s with
      | (s1, Raise e) => (s1, Raise e)
      | (s1, Ok mx) =>
          match get_minimum s1 with
          | (s2, Raise e) => (s2, Raise e)
          | (s2, Ok mn) => let l' := upd l d (f (coord mx d) (coord mn d)) in fill put f t l' (put s2 l')
          end
      end
  end.
(** dimension.py:81-84 and 87-90 *)
Definition calculate (put : info -> point -> info) (f : Q -> Q -> Q) (s : info) : info * res unit :=
  match get_dimensions s with
  | (s1, Raise e) => (s1, Raise e)
  | (s1, Ok n) => let l := repeat 0%Q n in fill put f (seq 0 n) l (put s1 l)
  end.
(** dimension.py:84 *)
Definition width_of (a b : Q) : Q := (a - b)%Q.
(** dimension.py:90 *)
Definition center_of (a b : Q) : Q := ((a + b) / 2)%Q.
(** dimension.py:51-55 *)
Definition get_width (s : info) : info * res point :=
  match i_width s with
  | Some w => (s, Ok w)
  | None => match calculate set_width width_of s with
            | (s1, Raise e) => (s1, Raise e)
            | (s1, Ok _) => (s1, match i_width s1 with Some m => Ok m | None => Raise TypeError end)
            end
  end.
(** dimension.py:58-62 *)
Definition get_center (s : info) : info * res point :=
  match i_center s with
  | Some w => (s, Ok w)
  | None => match calculate set_center center_of s with
            | (s1, Raise e) => (s1, Raise e)
            | (s1, Ok _) => (s1, match i_center s1 with Some m => Ok m | None => Raise TypeError end)
            end
  end.

(** the methods of dimension.py:30-62 and a change of the data by their owner *)
Inductive call := Dimensions | Maximum | Minimum | Width | Center | Change (d : list point).
(** values returned by dimension.py:34, 41, 48, 55, 62 *)
Inductive answer := Number (n : nat) | Coordinates (p : point) | Nothing.
(** dimension.py:34 as an answer *)
Definition number (r : info * res nat) : info * res answer := (fst r, do n <- snd r; Ok (Number n)).
(** dimension.py:41, 48, 55, 62 as answers *)
Definition coordinates (r : info * res point) : info * res answer := (fst r, do p <- snd r; Ok (Coordinates p)).
(** one call, dimension.py:30-62 *)
Definition step (s : info) (c : call) : info * res answer :=
  match c with
  | Dimensions => number (get_dimensions s)
  | Maximum => coordinates (get_maximum s)
  | Minimum => coordinates (get_minimum s)
  | Width => coordinates (get_width s)
  | Center => coordinates (get_center s)
  | Change d => (set_data s d, Ok Nothing)
  end.
(** the answers to a sequence of calls, dimension.py:30-62; exceptions are caught by the caller *)
Fixpoint answers (s : info) (cs : list call) : list (res answer) :=
  match cs with [] => [] | c :: t => let r := step s c in snd r :: answers (fst r) t end.
