(** The history of k-means and its pictures.  pyclustering/cluster/kmeans.py:
    kmeans_observer (L29-108), the notifications of process (L412-437) and
    kmeans_visualizer (L112-262).  The python branch; coordinates are exact
    rationals. *)
From Coq Require Import String.
From Verif Require Import Base Kmeans_Model Canvas_Model.
Open Scope nat_scope.

(** kmeans.py:37-44: the two lists of the observer (__initial_centers is never
    used). *)
Record observer : Type := mkObs { ob_clusters : list (list (list nat)); ob_centers : list (list point) }.

(** kmeans.py:37-44 (__init__). *)
Definition ob_new : observer := mkObs [] [].

(** kmeans.py:47-52 (__len__). *)
Definition ob_len (o : observer) : nat := length (ob_clusters o).

(** kmeans.py:55-64 (notify). *)
Definition notify (o : observer) (clusters : list (list nat)) (centers : list point) : observer :=
  mkObs (ob_clusters o ++ [clusters]) (ob_centers o ++ [centers]).

(** kmeans.py:77-86 (get_centers); negative iterations are not modelled. *)
Definition ob_get_centers (o : observer) (iteration : nat) : res (list point) :=
  match nth_error (ob_centers o) iteration with Some c => Ok c | None => Raise IndexError end.

(** kmeans.py:99-108 (get_clusters); negative iterations are not modelled. *)
Definition ob_get_clusters (o : observer) (iteration : nat) : res (list (list nat)) :=
  match nth_error (ob_clusters o) iteration with Some c => Ok c | None => Raise IndexError end.

Section Observed.
Variable metric : point -> point -> Q.
Variable data : list point.

(** kmeans.py:425-435: the loop with an observer; [left] is itermax -
    iteration. *)
Fixpoint observed_loop (tolerance : Q) (left : nat) (change : option Q) (o : observer)
    (clusters : list (list nat)) (centers : list point) : observer * (list (list nat) * list point) :=
  match left with
  | 0 => (o, (clusters, centers))
  | S left' =>
      if exceeds change tolerance then
        let clusters' := kmeans_update_clusters metric data centers in
        let updated := kmeans_update_centers data clusters' in
        observed_loop tolerance left' (kmeans_changes metric centers updated) (notify o clusters' updated) clusters' updated
      else (o, (clusters, centers))
  end.

(** kmeans.py:370-389, 412-437, 613-630: process with an observer, after the
    checks of the constructor; the observer may have been used before. *)
Definition observed_process (o : observer) (initial_centers : list point) (tolerance : Q) (itermax : nat)
  : observer * res (list (list nat) * list point * Q) :=
  match data, initial_centers with
  | [], _ => (o, Raise ValueError)
  | _, [] => (o, Raise ValueError)
  | p0 :: _, c0 :: _ =>
      if Qltb tolerance 0 then (o, Raise ValueError)
      else if length p0 =? length c0 then
        let o1 := notify o (kmeans_update_clusters metric data initial_centers) initial_centers in
        let '(o2, (clusters, centers)) := observed_loop tolerance itermax None o1 [] initial_centers in
        (o2, Ok (clusters, centers, total_wce metric data clusters centers))
      else (o, Raise ValueError)
  end.
End Observed.

(** What ax.plot and ax.scatter get at kmeans.py:204-208: a star with its
    transparency and its size. *)
Inductive star : Type := Star (at_ : list Q) (color : string) (alpha : Q) (size : nat).

(** What ax.plot gets at kmeans.py:192-196: a line between two points. *)
Inductive ray : Type := Ray (from to : list Q) (color : string).

(** kmeans.py:199-208 (__draw_center); centers of other dimensions are not
    drawn. *)
Definition draw_center (center : point) (color : string) (alpha : Q) : list star :=
  match center with
  | [x] => [Star [x; 0%Q] color alpha 15]
  | [x; y] => [Star [x; y] color alpha 15]
  | [x; y; z] => [Star [x; y; z] color alpha 70]
  | _ => []
  end.

(** kmeans.py:211-220 (__draw_centers), the loop from [index] on. *)
Fixpoint draw_centers (v : visualizer) (index : nat) (centers : list point) (initial : option (list point)) : res (list star) :=
  match centers with
  | [] => Ok []
  | center :: rest =>
      do color <- get_cluster_color v index 0;
      do first <- match initial with
                  | None => Ok []
                  | Some l => match nth_error l index with
                              | None => Raise IndexError
                              | Some c => Ok (draw_center c color (2 # 5))
                              end
                  end;
      do more <- draw_centers v (S index) rest initial;
      Ok (draw_center center color 1 ++ first ++ more)
  end.

(** kmeans.py:190-196: one ray. *)
Definition draw_ray (dimension : nat) (color : string) (point center : point) : res (list ray) :=
  match dimension with
  | 1 => do x <- fetch point 0; do a <- fetch center 0; Ok [Ray [x; 0%Q] [a; 0%Q] color]
  | 2 => do x <- fetch point 0; do a <- fetch center 0; do y <- fetch point 1; do b <- fetch center 1;
         Ok [Ray [x; y] [a; b] color]
  | 3 => do x <- fetch point 0; do a <- fetch center 0; do y <- fetch point 1; do b <- fetch center 1;
         do z <- fetch point 2; do c <- fetch center 2; Ok [Ray [x; y; z] [a; b; c] color]
  | _ => Ok []
  end.

(** kmeans.py:185-196 (__draw_cluster_rays): the dimension is that of the first
    point of the sample. *)
Fixpoint draw_cluster_rays (dimension : nat) (color : string) (sample : list point) (cluster : list nat) (center : point)
  : res (list ray) :=
  match cluster with
  | [] => Ok []
  | i :: rest =>
      match nth_error sample i with
      | None => Raise IndexError
      | Some p =>
          do one <- draw_ray dimension color p center;
          do more <- draw_cluster_rays dimension color sample rest center;
          Ok (one ++ more)
      end
  end.

(** kmeans.py:176-182 (__draw_rays), the loop from [index] on. *)
Fixpoint draw_rays (v : visualizer) (index : nat) (sample : list point) (clusters : list (list nat)) (centers : list point)
  : res (list ray) :=
  match clusters with
  | [] => Ok []
  | cluster :: rest =>
      do color <- get_cluster_color v index 0;
      match nth_error centers index with
      | None => Raise IndexError
      | Some center =>
          match sample with
          | [] => Raise IndexError
          | p0 :: _ =>
              do one <- draw_cluster_rays (length p0) color sample cluster center;
              do more <- draw_rays v (S index) sample rest centers;
              Ok (one ++ more)
          end
      end
  end.

(** kmeans.py:123-162 (show_clusters) on a figure without axes: the axes made
    by the visualizer, and the stars and the rays put on axis number
    [offset]. *)
Definition show_clusters (sample : list point) (clusters : list (list nat)) (centers : list point)
    (initial : option (list point)) (offset : nat) : res (list axes * (list star * list ray)) :=
  match append_clusters (vis_init 1 1 None) (map (fun c => Indexes c sample) clusters) 0 "." None with
  | (_, Raise e) => Raise e
  | (v, Ok _) =>
      do picture <- show v 0;
      match nth_error (snd picture) offset with
      | None => Raise IndexError
      | Some _ =>
          do stars <- draw_centers v 0 centers initial;
          do rays <- draw_rays v 0 sample clusters centers;
          Ok (snd picture, (stars, rays))
      end
  end.

(** kmeans.py:240-251 (frame_generation): the picture of one iteration. *)
Definition frame (data : list point) (o : observer) (iteration : nat) : res (list axes * (list star * list ray)) :=
  do clusters <- ob_get_clusters o iteration;
  do centers <- ob_get_centers o iteration;
  show_clusters data clusters centers None 0.

(** kmeans.py:223-262 (animate_cluster_allocation): frame 0 for the start and
    the frames of all iterations; stops at the first exception. *)
Fixpoint frames (data : list point) (o : observer) (ks : list nat) : res (list (list axes * (list star * list ray))) :=
  match ks with
  | [] => Ok []
  | k :: rest => do p <- frame data o k; do more <- frames data o rest; Ok (p :: more)
  end.
(** cluster/kmeans.py:224-262 *)
Definition animate (data : list point) (o : observer) : res (list (list axes * (list star * list ray))) :=
  frames data o (0 :: seq 0 (ob_len o)).
