(** pcnn_visualizer of nnet/pcnn.py: the time signal and the animation of spikes.
    Only what is drawn; labels, the grid and the window are left out.  A pixel is
    [true] when it is black (0, 0, 0) and [false] when it is white (255, 255, 255). *)
From Verif Require Import Base Ensembles_Model.
Open Scope nat_scope.

(** pcnn.py:225-238 show_time_signal: the points of the line *)
Definition show_time_signal (dynamic : list (list nat)) : list (nat * nat) :=
  let signal := pcnn_time_signal dynamic in combine (seq 0 (length signal)) signal.

(** pcnn.py:278-279: the pixels of an ensemble become black *)
Fixpoint blacken (picture : list bool) (pixels : list nat) : res (list bool) :=
  match pixels with
  | [] => Ok picture
  | i :: t => if i <? length picture then blacken (upd picture i true) t else Raise IndexError
  end.

(** pcnn.py:284: [numpy.reshape(stage, (height, width, 3))] of height * width pixels *)
Definition reshape (height width : nat) (picture : list bool) : list (list bool) :=
  map (fun r => firstn width (skipn (r * width) picture)) (seq 0 height).

(** pcnn.py:274-287: the frames for the rest of the time signal, the next ensemble is number [index] *)
Fixpoint frames (height width : nat) (signal : list nat) (ensembles : list (list nat)) (index : nat) : res (list (list (list bool))) :=
  match signal with
  | [] => Ok []
  | s :: t =>
    let blank := repeat false (height * width) in
    do painted <- (if 0 <? s then
                     match nth_error ensembles index with
                     | None => Raise IndexError
                     | Some e => do p <- blacken blank e; Ok (p, index + 1)
                     end
                   else Ok (blank, index));
    do rest <- frames height width t ensembles (snd painted);
    Ok (reshape height width (fst painted) :: rest)
  end.

(** pcnn.py:258-292 animate_spike_ensembles: the frames of the animation *)
Definition animate_spike_ensembles (dynamic : list (list nat)) (height width : nat) : res (list (list (list bool))) :=
  let signal := pcnn_time_signal dynamic in
  do ensembles <- pcnn_spike_ensembles dynamic;
  frames height width signal ensembles 0.
