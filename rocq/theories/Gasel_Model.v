(** Selection of the genetic algorithm, cluster/ga.py:505-530 and cluster/ga_maths.py:84-165, with real numbers. *)
From Verif Require Import Base.
From Coq Require Import Reals.
Local Open Scope R_scope.

(** ga.py:518 numpy.exp(1.0 + fitness * select_coeff); it is never infinite with real numbers, so the check of
    ga_maths.py:98 is not modelled *)
Definition scaled (select_coeff f : R) : R := exp (1 + f * select_coeff).
(** ga_maths.py:95-104 *)
Definition inv_fitness (f : R) : R := if Req_EM_T f 0 then 0 else 1 / f.
(** ga_maths.py:110-114: running sums *)
Fixpoint running (acc : R) (l : list R) : list R :=
  match l with [] => [] | x :: t => (acc + x) :: running (acc + x) t end.
(** ga_maths.py:84-121 calc_probability_vector; the loop of set_last_value_to_one (ga_maths.py:138) runs over
    range(-1, -len - 1), which is empty, so that function changes nothing *)
Definition calc_probability_vector (fitness : list R) : res (list R) :=
  match fitness with
  | [] => Raise AttributeError
  | _ => let p := running 0 (map inv_fitness fitness) in Ok (map (fun x => x / last p 0) p)
  end.
(** ga_maths.py:144-165 get_uniform with the random number as an argument *)
Fixpoint get_uniform (random : R) (i : nat) (l : list R) : option nat :=
  match l with [] => None | p :: t => if Rlt_dec random p then Some i else get_uniform random (S i) t end.
(** index of the chromosome copied at ga.py:528 *)
Definition selected (select_coeff : R) (fitness : list R) (random : R) : res (option nat) :=
  do p <- calc_probability_vector (map (scaled select_coeff) fitness); Ok (get_uniform random 0 p).
