(** The history of expectation-maximization and its pictures.
    pyclustering/cluster/ema.py: ema_observer (L216-316), the notifications of
    process (L518-544, L614-616) and ema_visualizer (L320-434).  Means and
    covariances are real numbers, the points of a picture exact rationals. *)
From Coq Require Import String.
From Verif Require Import Base Canvas_Model Kmeans_Model Metric_Model Fcm_Model Ema_Model Ellipse_Model.
From Coq Require Import Reals.
Open Scope nat_scope.

(** ema.py:254-261: the three lists of the observer. *)
Record em_observer : Type := mkEm
  { em_means : list (list rpoint); em_covariances : list (list matrix); em_clusters : list (list (list nat)) }.

(** ema.py:254-261 (__init__). *)
Definition em_new : em_observer := mkEm [] [] [].

(** ema.py:264-277 (__len__ and get_iterations). *)
Definition em_len (o : em_observer) : nat := length (em_means o).

(** ema.py:304-316 (notify).  The lists that are stored are replaced, not
    changed, by the next iteration, so they keep their contents. *)
Definition em_notify (o : em_observer) (s : state) : em_observer :=
  mkEm (em_means o ++ [means s]) (em_covariances o ++ [variances s]) (em_clusters o ++ [clusters s]).

Section Observed.
Variable data : list rpoint.
Variable density : rpoint -> matrix -> rpoint -> option R.

(** ema.py:526-541: the loop with an observer. *)
Fixpoint em_loop (tolerance : R) (left : nat) (stop : bool) (previous current : option R) (o : em_observer) (s : state)
  : em_observer * res state :=
  match left with
  | O => (o, Ok s)
  | S left' =>
      if stop || negb (changed tolerance previous current) then (o, Ok s)
      else match step data density s with
           | Raise e => (o, Raise e)
           | Ok s' => em_loop tolerance left' (stop_condition s') current (log_likelihood data s') (em_notify o s') s'
           end
  end.

(** ema.py:475-544: the constructor with given means and variances, and
    process with an observer. *)
Definition em_process (o : em_observer) (amount_clusters : nat) (initial_means : list rpoint) (initial_variances : list matrix)
    (tolerance : R) (iterations : nat) : em_observer * res state :=
  if length data =? 0 then (o, Raise ValueError) else
  if amount_clusters =? 0 then (o, Raise ValueError) else
  match em_loop tolerance iterations false (Some (-200000)%R) (Some (-100000)%R) o
     {| amount := amount_clusters; means := initial_means; variances := initial_variances; pic := repeat 1%R amount_clusters;
        gaussians := repeat [] amount_clusters; rc := repeat (repeat 0%R (length data)) amount_clusters; clusters := [] |} with
  | (o', Raise e) => (o', Raise e)
  | (o', Ok s) => (o', Ok (normalize data s))
  end.
End Observed.

(** What ax.plot and ax.add_patch get at ema.py:432-434: a cross and a filled
    ellipse around it, both in the same colour (markersize 6, alpha 0.2).
    matplotlib turns the ellipse by [angle] degrees against the clock, the
    width is the length of the axis in that direction. *)
Inductive patch : Type := Patch (x y width height angle : R) (color : string).

(** ema.py:429-434 (__draw_ellipse). *)
Definition draw_ellipse (x y angle width height : R) (color : string) : list patch :=
  if Rlt_dec 0 width then if Rlt_dec 0 height then [Patch x y width height (- angle) color] else [] else [].

Section Pictures.
(** numpy.linalg.eigh. *)
Variable eigh : matrix -> eigh2.

(** ema.py:418-426 (__draw_ellipses): the loop from [index] on, [left] clusters
    are to be drawn; means[index][0] and [1] of a mean that is too short are
    IndexErrors. *)
Fixpoint draw_ellipses (v : visualizer) (index left : nat) (covariances : list matrix) (ms : list rpoint) : res (list patch) :=
  match left with
  | 0 => Ok []
  | S left' =>
      match nth_error covariances index with
      | None => Raise IndexError
      | Some c =>
          let '(angle, width, height) := ellipse_description (eigh c) 2 in
          do color <- get_cluster_color v index 0;
          match nth_error ms index with
          | Some (x :: y :: _) =>
              do more <- draw_ellipses v (S index) left' covariances ms;
              Ok (draw_ellipse x y angle width height color ++ more)
          | _ => Raise IndexError
          end
      end
  end.

(** ema.py:328-361 (show_clusters): the axes with the points, and the
    ellipses.  An empty picture has no axis 0 (L420). *)
Definition em_show (cls : list (list nat)) (sample : list point) (covariances : list matrix) (ms : list rpoint)
  : res (list axes * list patch) :=
  match append_clusters (vis_init 1 1 None) (map (fun c => Indexes c sample) cls) 0 "." None with
  | (_, Raise e) => Raise e
  | (v, Ok _) =>
      do picture <- show v 0;
      match sample with
      | [] => Raise IndexError
      | p0 :: _ =>
          if length p0 =? 2 then
            match snd picture with
            | [] => Raise IndexError
            | _ => do es <- draw_ellipses v 0 (length cls) covariances ms; Ok (snd picture, es)
            end
          else Ok (snd picture, [])
      end
  end.

(** ema.py:393-405 (frame_generation). *)
Definition em_frame (sample : list point) (o : em_observer) (iteration : nat) : res (list axes * list patch) :=
  match nth_error (em_clusters o) iteration, nth_error (em_covariances o) iteration, nth_error (em_means o) iteration with
  | Some cls, Some cs, Some ms => em_show cls sample cs ms
  | _, _, _ => Raise IndexError
  end.
End Pictures.
