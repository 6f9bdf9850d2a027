(** Model of /repo/pyclustering/nnet/fsync.py, fsync_network: oscillators with
    amplitude and phase (Landau-Stuart), L193-341.  Complex numbers are pairs
    of reals (complex128 in the code), times exact rationals. *)
From Verif Require Import Base Topology_Model Gcolor_Model Legion_Model.
From Coq Require Import Reals Lra Qreals.
Open Scope R_scope.

(** for [fsync], nnet/fsync.py:208-216 *)
Definition cplx : Type := (R * R)%type.
(** for [synchronization], nnet/fsync.py:304-324 *)
Definition cadd (a b : cplx) : cplx := (fst a + fst b, snd a + snd b).
(** for [landau_stuart], nnet/fsync.py:290-301 *)
Definition csub (a b : cplx) : cplx := (fst a - fst b, snd a - snd b).
(** for [landau_stuart], nnet/fsync.py:290-301 *)
Definition cmul (a b : cplx) : cplx := (fst a * fst b - snd a * snd b, fst a * snd b + snd a * fst b).
(** for [fsync_create], nnet/fsync.py:193-216 *)
Definition creal (x : R) : cplx := (x, 0).
(** [numpy.absolute(z) ** 2]; the square of the root of the sum of squares. for [landau_stuart], nnet/fsync.py:290-301 *)
Definition cabs2 (a : cplx) : R := (sqrt (fst a * fst a + snd a * snd a)) ^ 2.

(** A factor is one number for all oscillators or a list, nnet/fsync.py L210-211. *)
Inductive factor : Type := Single (x : R) | Each (l : list R).
(** with [factor], nnet/fsync.py:210-211 *)
Definition factors (n : nat) (f : factor) : list R :=
  match f with Single x => repeat (1 * x) n | Each l => l end.

(** The attributes, nnet/fsync.py L208-216.  [f_raw]: the amplitudes are still the python
    floats drawn by the constructor (their imaginary parts are 0); after a
    simulation they are complex arrays. *)
Record fsync : Type := mkFsync
  { f_net : network;
    f_properties : list cplx;
    f_coupling : R;
    f_amplitude : list cplx;
    f_raw : bool }.

(** for [landau_stuart], nnet/fsync.py:290-301 *)
Definition cnth (l : list cplx) (k : nat) : cplx := nth k l (0, 0).

(** fsync_network.__init__, nnet/fsync.py L193-216, with __oscillator_property, L277-287;
    [draw] are the random amplitudes.  A list of factors that is too short is an
    IndexError in L213. *)
Definition fsync_create (n : nat) (frequency radius : factor) (coupling : R) (t : conn_type) (r : conn_represent)
    (draw : list R) : res fsync :=
  do net <- network_init n t r None;
  let fs := factors n frequency in
  let rs := factors n radius in
  if ((length fs <? n) || (length rs <? n))%nat then Raise IndexError
  else Ok (mkFsync net (map (fun i => (nth i rs 0 ^ 2, nth i fs 0)) (seq 0 n)) (1 * coupling)
             (map creal draw) true).

(** __landau_stuart, nnet/fsync.py L290-301. *)
Definition landau_stuart (s : fsync) (z : cplx) (index : nat) : cplx :=
  cmul (csub (cnth (f_properties s) index) (creal (cabs2 z))) z.

(** __synchronization_mechanism, nnet/fsync.py L304-324. *)
Definition synchronization (s : fsync) (z : cplx) (index : nat) : cplx :=
  let n := n_osc (f_net s) in
  let influence :=
    fold_left (fun acc k => if has_connection (f_net s) index k
                            then cadd acc (csub (cnth (f_amplitude s) k) z) else acc)
      (seq 0 n) (0, 0) in
  (fst influence * f_coupling s / INR n, snd influence * f_coupling s / INR n).

(** __calculate_amplitude, nnet/fsync.py L327-341. *)
Definition amplitude_field (s : fsync) (index : nat) (z : cplx) (t : R) : cplx :=
  cadd (landau_stuart s z index) (synchronization s z index).

Section Solver.
(** scipy.integrate.odeint for one complex unknown. *)
Variable odeint : (cplx -> R -> cplx) -> cplx -> list R -> list cplx.

(** The body of the loop of __calculate, nnet/fsync.py L269-272. *)
Fixpoint calculate_each (s : fsync) (t step int_step : Q) (is : list nat) : res (list cplx) :=
  match is with
  | [] => Ok []
  | index :: rest =>
      do z <- last_of (odeint (amplitude_field s index) (cnth (f_amplitude s) index)
                         (map Q2R (arange (t - step)%Q t int_step)));
      do zs <- calculate_each s t step int_step rest;
      Ok (z :: zs)
  end.

(** __calculate, nnet/fsync.py L255-274. *)
Definition calculate (s : fsync) (t step int_step : Q) : res (list cplx) :=
  calculate_each s t step int_step (seq 0 (n_osc (f_net s))).

(** for [fsync_steps], nnet/fsync.py:240-245 *)
Definition with_amplitude (s : fsync) (zs : list cplx) : fsync :=
  mkFsync (f_net s) (f_properties s) (f_coupling s) zs false.

(** The loop of simulate, nnet/fsync.py L240-245: the networks after every step. *)
Fixpoint fsync_steps (step int_step : Q) (times : list Q) (s : fsync) : res (list fsync) :=
  match times with
  | [] => Ok []
  | t :: rest =>
      do zs <- calculate s t step int_step;
      do others <- fsync_steps step int_step rest (with_amplitude s zs);
      Ok (with_amplitude s zs :: others)
  end.

(** A row of the recorded dynamic: real numbers, or the complex amplitudes
    themselves. for [first_row], nnet/fsync.py:235 *)
Inductive frow : Type := Reals (l : list R) | Complexes (l : list cplx).

(** nnet/fsync.py L235: the first row is the list of the amplitudes as it is. *)
Definition first_row (s : fsync) : frow :=
  if f_raw s then Reals (map fst (f_amplitude s)) else Complexes (f_amplitude s).
(** nnet/fsync.py L244, L248. *)
Definition real_row (s : fsync) : frow := Reals (map fst (f_amplitude s)).

(** simulate, nnet/fsync.py L219-252; [time] is positive; the network afterwards, the rows
    and the times. *)
Definition fsync_simulate (steps : nat) (time : Q) (collect : bool) (s : fsync)
  : res (fsync * (list frow * list Q)) :=
  if (steps =? 0)%nat then Raise ZeroDivisionError
  else
    let step := (time / inject_Z (Z.of_nat steps))%Q in
    let times := arange step (time + step)%Q step in
    do ss <- fsync_steps step (step / 10)%Q times s;
    Ok (last ss s,
        if collect then (first_row s :: map real_row ss, 0%Q :: times)
        else ([real_row (last ss s)], [time])).
End Solver.
