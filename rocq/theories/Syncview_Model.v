(** Model of what is computed from and drawn for a recorded dynamic of a network of phase
    oscillators, nnet/sync.py sync_dynamic and sync_visualizer, and of the state in which
    such a network is created, sync_network.__init__ (python branches).  Numbers are reals;
    indexes of iterations are integers, a negative one counts from the end of a list. *)
From Verif Require Import Base Order_Model.
From Coq Require Import ZArith Reals.
Open Scope nat_scope.

(** [l[i]] of python; for [calculate_order_parameter], nnet/sync.py:317-357 *)
Definition py_get {A : Type} (l : list A) (i : Z) : res A :=
  let k := if (i <? 0)%Z then (i + Z.of_nat (length l))%Z else i in
  if (k <? 0)%Z then Raise IndexError
  else match nth_error l (Z.to_nat k) with Some x => Ok x | None => Raise IndexError end.

(** [range(a, b)] of python; for [calculate_order_parameter], nnet/sync.py:317-357 *)
Definition py_range (a b : Z) : list Z := map (fun k => (a + Z.of_nat k)%Z) (seq 0 (Z.to_nat (b - a))).

(** a bound of a slice: counted from the end when negative, cut to the length; for [py_slice], nnet/sync.py:490-509 *)
Definition slice_bound (n i : Z) : nat :=
  Z.to_nat (if (i <? 0)%Z then Z.max 0 (i + n) else Z.min i n).

(** [l[a:b]] of python; for [show_order_parameter], nnet/sync.py:490-509 *)
Definition py_slice {A : Type} (l : list A) (a b : Z) : list A :=
  let n := Z.of_nat (length l) in
  firstn (slice_bound n b - slice_bound n a) (skipn (slice_bound n a) l).

(** a loop which appends one result per element; for [calculate_order_parameter], nnet/sync.py:317-357 *)
Fixpoint collect {A B : Type} (f : A -> res B) (l : list A) : res (list B) :=
  match l with
  | [] => Ok []
  | x :: t => do y <- f x; do ys <- collect f t; Ok (y :: ys)
  end.

(** nnet/sync.py:122-134 sync_dynamic.__init__ without a ccore pointer, L99-119: output and time *)
Record dynamic := mkDyn { output : list (list R); time : list R }.

(** nnet/sync.py:146-155 __len__ *)
Definition dyn_len (d : dynamic) : Z := Z.of_nat (length (output d)).

(** nnet/sync.py:392-408 sync_dynamic.__get_start_stop_iterations *)
Definition calc_iterations (d : dynamic) (start stop : option Z) : Z * Z :=
  let s := match start with None => (dyn_len d - 1)%Z | Some s => s end in
  (s, match stop with None => (s + 1)%Z | Some e => e end).

(** nnet/sync.py:317-357 calculate_order_parameter *)
Definition calculate_order_parameter (d : dynamic) (start stop : option Z) : res (list R) :=
  let '(s, e) := calc_iterations d start stop in
  collect (fun i => do st <- py_get (output d) i; calculate_sync_order st) (py_range s e).

(** nnet/sync.py:360-389 calculate_local_order_parameter; the network is given by its size
    and has_connection; it is the simulated one, so that every state has a phase for each of
    its oscillators *)
Definition calculate_local_order_parameter (d : dynamic) (n : nat) (conn : nat -> nat -> bool) (start stop : option Z)
    : res (list R) :=
  let '(s, e) := calc_iterations d start stop in
  collect (fun i => do st <- py_get (output d) i; Ok (calculate_local_sync_order st n conn)) (py_range s e).

(** nnet/sync.py:645-663 sync_visualizer.__get_start_stop_iterations *)
Definition show_iterations (d : dynamic) (start stop : option Z) : Z * Z :=
  (match start with None => 0%Z | Some s => s end, match stop with None => dyn_len d | Some e => e end).

(** axis.plot(x, y): matplotlib refuses lists of different lengths; the points of the line; for [show_order_parameter], nnet/sync.py:490-509 *)
Definition plot_line (xs ys : list R) : res (list (R * R)) :=
  if length xs =? length ys then Ok (combine xs ys) else Raise ValueError.

(** nnet/sync.py:490-509 show_order_parameter: the points of the drawn line *)
Definition show_order_parameter (d : dynamic) (start stop : option Z) : res (list (R * R)) :=
  let '(s, e) := show_iterations d start stop in
  do ys <- calculate_order_parameter d (Some s) (Some e);
  plot_line (py_slice (time d) s e) ys.

(** nnet/sync.py:512-531 show_local_order_parameter: the points of the drawn line *)
Definition show_local_order_parameter (d : dynamic) (n : nat) (conn : nat -> nat -> bool) (start stop : option Z)
    : res (list (R * R)) :=
  let '(s, e) := show_iterations d start stop in
  do ys <- calculate_local_order_parameter d n conn (Some s) (Some e);
  plot_line (py_slice (time d) s e) ys.

(** nnet/sync.py:259-261, 299-302: the state at an iteration, the last one by default *)
Definition state_at (d : dynamic) (iteration : option Z) : res (list R) :=
  py_get (output d) (match iteration with None => (dyn_len d - 1)%Z | Some k => k end).

(** nnet/sync.py:238-278 allocate_phase_matrix with optional sizes; math.ceil(math.sqrt(n)) is
    taken as the exact rounded up root *)
Definition allocate_phase_matrix (d : dynamic) (grid_width grid_height : option nat) (iteration : option Z)
    : res (list (list R)) :=
  match output d with
  | [] => Ok []
  | _ =>
      do st <- state_at d iteration;
      let n := length st in
      let '(w, h) := match grid_width, grid_height with
                     | Some w, Some h => (w, h)
                     | _, _ => (Nat.sqrt_up n, Nat.sqrt_up n)
                     end in
      if n =? w * h then
        Ok (map (fun i => map (fun j => nth (j + i * w) st 0%R) (seq 0 w)) (seq 0 h))
      else Raise NameError
  end.

(** nnet/sync.py:281-314 allocate_correlation_matrix: the number of oscillators is that of the
    first state *)
Definition allocate_correlation_matrix (d : dynamic) (iteration : option Z) : res (list (list R)) :=
  match output d with
  | [] => Ok []
  | first :: _ =>
      do st <- state_at d iteration;
      let n := length first in
      if (n <=? length st) then
        Ok (map (fun i => map (fun j => Rabs (sin (nth i st 0 - nth j st 0)))%R (seq 0 n)) (seq 0 n))
      else Raise IndexError
  end.

(** nnet/sync.py:569-602 animate_correlation_matrix: the images of the frames
    0 .. len(sync_output_dynamic) - 1 of FuncAnimation; L583 draws frame 0 first *)
Definition animate_correlation_matrix (d : dynamic) : res (list (list (list R))) :=
  do _ <- allocate_correlation_matrix d (Some 0%Z);
  collect (fun k => allocate_correlation_matrix d (Some k)) (py_range 0 (dyn_len d)).

(** nnet/sync.py:605-642 animate_phase_matrix: the images of the frames *)
Definition animate_phase_matrix (d : dynamic) (grid_width grid_height : option nat) : res (list (list (list R))) :=
  do _ <- allocate_phase_matrix d grid_width grid_height (Some 0%Z);
  collect (fun k => allocate_phase_matrix d grid_width grid_height (Some k)) (py_range 0 (dyn_len d)).

(** nnet/sync.py:534-566 animate_output_dynamic: the points (phase, radius) of the frames *)
Definition animate_output_dynamic (d : dynamic) : res (list (list (R * R))) :=
  do _ <- py_get (output d) 0;
  collect (fun k => do st <- py_get (output d) k; Ok (map (fun p => (p, 1%R)) st)) (py_range 0 (dyn_len d)).

(** nnet/sync.py:666-709 animate: points and image of the frames *)
Definition animate (d : dynamic) : res (list (list (R * R) * list (list R))) :=
  do _ <- py_get (output d) 0;
  do _ <- allocate_correlation_matrix d (Some 0%Z);
  collect (fun k => do st <- py_get (output d) k;
                    do m <- allocate_correlation_matrix d (Some k);
                    Ok (map (fun p => (p, 1%R)) st, m)) (py_range 0 (dyn_len d)).

(** nnet/__init__.py:15-25 initial_type; any other value is [OtherInitial] *)
Inductive initial_type := RandomGaussian | Equipartition | OtherInitial.

(** nnet/sync.py:746-757, the loop of sync_network.__init__: phases and frequencies of the
    oscillators; [draw k] is the k-th value of random.random(), [k] counts the draws made *)
Fixpoint init_loop (num_osc : nat) (frequency : R) (initial : initial_type) (draw : nat -> R) (k : nat) (indexes : list nat)
    : list R * list R :=
  match indexes with
  | [] => ([], [])
  | index :: t =>
      let '(phase, k) := match initial with
                         | RandomGaussian => ([draw k * 2 * PI]%R, S k)
                         | Equipartition => ([PI / INR num_osc * INR index]%R, k)
                         | OtherInitial => ([], k)
                         end in
      let freq := (draw k * frequency)%R in
      let '(ps, fs) := init_loop num_osc frequency initial draw (S k) t in
      (phase ++ ps, freq :: fs)
  end.

(** nnet/sync.py:741-757 sync_network.__init__ (python branch), phases and frequencies *)
Definition sync_init (num_osc : nat) (frequency : R) (initial : initial_type) (draw : nat -> R) : list R * list R :=
  init_loop num_osc frequency initial draw 0 (seq 0 num_osc).
