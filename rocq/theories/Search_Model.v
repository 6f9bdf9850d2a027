(** Model of utils/__init__.py:1111-1145 [find_left_element]. *)
From Verif Require Import Base.

Section Search.
Context {A : Type}.
Variable comparator : A -> A -> bool.

(** utils/__init__.py:1136-1145, the [while left < right] loop.  [fuel] bounds the number of
    iterations.  Indices are [nat] (python would also accept negative ones; the callers never do). *)
Fixpoint fle_loop (fuel : nat) (data : list A) (target : A) (left right middle : nat) : res nat :=
  if left <? right then
    match fuel with
    | 0 => Raise OutOfFuel
    | S fuel' =>
      match nth_error data middle with
      | None => Raise IndexError
      | Some x =>
        let left' := if comparator x target then middle + 1 else left in
        let right' := if comparator x target then right else middle in
        let offset := (right' - left') / 2 in
        fle_loop fuel' data target left' right' (left' + offset)
      end
    end
  else Ok left.

(** utils/__init__.py:1111-1145 *)
Definition find_left_element (data : list A) (right : nat) : res nat :=
  match data with
  | [] => Raise ValueError
  | _ =>
    match nth_error data right with
    | None => Raise IndexError
    | Some target => fle_loop right data target 0 right ((right - 0) / 2)
    end
  end.
End Search.
