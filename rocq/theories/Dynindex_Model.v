(** nnet/sync.py, nnet/fsync.py: indexing of output dynamics, and python's protocol for objects that are indexed but have no iterator. *)
From Coq Require Import String.
From Verif Require Import Base.

(** what is given between the brackets: integers and strings; nnet/sync.py:159-171 *)
Inductive index := IInt (z : Z) | IStr (s : string).
(** nnet/sync.py:171, nnet/fsync.py:83: the message adds the index to strings, which only a string allows *)
Definition message (i : index) : res string := match i with IStr s => Ok ("Out of range " ++ s ++ ": only indexes 0 and 1 are supported.")%string | IInt _ => Raise TypeError end.
(** nnet/sync.py:159-171, nnet/fsync.py:72-83 __getitem__; [time] and [output] are the attributes *)
Definition getitem {T : Type} (time output : T) (i : index) : res T :=
  match i with
  | IInt 0 => Ok time
  | IInt 1 => Ok output
  | _ => do _ <- message i; Raise NameError
  end.
(** python's iteration over an object with __getitem__ (nnet/sync.py:159) and no __iter__: indexes 0, 1, … until IndexError; here the first [n] values, [None] for the end *)
Definition next_value {T : Type} (get : index -> res T) (k : nat) : res (option T) :=
  match get (IInt (Z.of_nat k)) with Ok v => Ok (Some v) | Raise IndexError => Ok None | Raise e => Raise e end.
(** python's assignment to [n] targets, [a, b = dynamic], of an object with __getitem__ (nnet/sync.py:159, nnet/fsync.py:72); [k] values are taken.
    ValueError: not enough or too many values *)
Fixpoint unpack_from {T : Type} (get : index -> res T) (k n : nat) : res (list T) :=
  match n with
  | O => do v <- next_value get k; match v with None => Ok [] | Some _ => Raise ValueError end
  | S n' => do v <- next_value get k; match v with None => Raise ValueError | Some x => do rest <- unpack_from get (S k) n'; Ok (x :: rest) end
  end.
(** see [unpack_from]; nnet/sync.py:159, nnet/fsync.py:72 *)
Definition unpack {T : Type} (get : index -> res T) (n : nat) : res (list T) := unpack_from get 0 n.
