(** container/cftree.py: comparison of clustering features and the public queries of nodes that the tree itself does not need. *)
From Verif Require Import Base Cftree_Model.
Local Open Scope Q_scope.

(** cftree.py:180 *)
Definition tolerance : Q := 1 # 100000.
(** one comparison of cftree.py:183, 186 *)
Definition within (a b : Q) : bool := Qltb b (a + tolerance) && Qltb (a - tolerance) b.
(** cftree.py:185-186: the loop goes over the coordinates of the first one; [&=] does not stop early, so a missing coordinate of the second one raises *)
Fixpoint sums_within (a b : point) (result : bool) : res bool :=
  match a, b with
  | [], _ => Ok result
  | x :: a', y :: b' => sums_within a' b' (result && within x y)
  | _ :: _, [] => Raise IndexError
  end.
(** cftree.py:168-188 __eq__ *)
Definition entry_eq (a b : entry) : res bool := sums_within (lsum a) (lsum b) ((num a =? num b)%nat && within (ssum a) (ssum b)).

Section Queries.
Variable m : measure.
(** cftree.py:658-666: the loop; no minimum yet is [None], the infinite distance *)
Fixpoint nearest_from (e : entry) (i : nat) (best : option (nat * Q)) (es : list entry) : option (nat * Q) :=
  match es with
  | [] => best
  | x :: t => let d := dist m x e in
              let better := match best with None => true | Some b => Qltb d (snd b) end in
              nearest_from e (S i) (if better then Some (i, d) else best) t
  end.
(** cftree.py:646-666 get_nearest_index_entry; -1 for a leaf without entries *)
Definition nearest_index_entry (es : list entry) (e : entry) : Z := match nearest_from e 0 None es with None => (-1)%Z | Some b => Z.of_nat (fst b) end.
(** min(…, key=…) after the first item, cftree.py:681: the earlier of equal ones *)
Fixpoint min_by (key : entry -> Q) (best : entry) (es : list entry) : entry :=
  match es with [] => best | x :: t => min_by key (if Qltb (key x) (key best) then x else best) t end.
(** cftree.py:669-681 get_nearest_entry *)
Definition nearest_entry (es : list entry) (e : entry) : res entry := match es with [] => Raise ValueError | x :: t => Ok (min_by (fun c => dist m c e) x t) end.

(** cftree.py:521-533: the inner loop of get_nearest_successors with [return] inside; [Some]: returned *)
Definition nearest_inner (c1 : tree) (rest : list tree) : option (tree * tree) :=
  match rest with [] => None | c2 :: _ => Some (c1, c2) end.
(** cftree.py:507-533 get_nearest_successors: positions of the pair are those of the pair of nodes; [None] is python's None.  Every distance is below the infinite one. *)
Fixpoint nearest_successors (kids : list tree) : option (tree * tree) :=
  match kids with [] => None | c1 :: rest => match nearest_inner c1 rest with Some r => Some r | None => nearest_successors rest end end.
End Queries.

(** cftree.py:590-599 insert_entry: (feature, entries) *)
Definition insert_entry (n : entry * list entry) (e : entry) : entry * list entry := (fadd (fst n) e, snd n ++ [e]).
(** cftree.py:602-614 merge of leaves *)
Definition merge_leaf (n k : entry * list entry) : entry * list entry := (fadd (fst n) (fst k), fold_left (fun l e => l ++ [e]) (snd k) (snd n)).
(** cftree.py:449-460 insert_successor *)
Definition insert_successor (n : entry * list tree) (t : tree) : entry * list tree := (fadd (fst n) (feat t), snd n ++ [t]).
(** cftree.py:463-475 merge of non-leaves *)
Definition merge_nonleaf (n k : entry * list tree) : entry * list tree := (fadd (fst n) (fst k), fold_left (fun l e => l ++ [e]) (snd k) (snd n)).
