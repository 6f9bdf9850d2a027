(** Model of container/kdtree.py (classes [node], [kdtree_balanced], [kdtree]).

    Nodes are immutable values of an inductive tree; the [parent] pointer of the python node is
    implicit (it is only used by [remove] to find the slot that refers to the removed node, which
    here is the position reached by the same search path).  Payloads are of an arbitrary type [P]
    with an equality test [pleq] standing for python's [==]. *)
From Verif Require Import Base Search_Model.

Section KdTree.
Context {P : Type}.
Variable pleq : P -> P -> bool.

(** kdtree.py:164-203 [node]: what a node stores besides its links. *)
Record item := mkItem { pt : point; pl : P }.

(** kdtree.py:164-203 [node]: [KNode left x disc right] *)
Inductive tree :=
| KLeaf
| KNode (l : tree) (x : item) (disc : nat) (r : tree).

(** kdtree.py:270-298: the attributes [_root], [_dimension], [_length] *)
Record kdt := mkKd { root : tree; dim : nat; len : Z }.

(** stable sort by coordinate, kdtree.py:334 [nodes.sort(key=...)] *)
Fixpoint ins_by (d : nat) (x : item) (l : list item) : list item :=
  match l with
  | [] => [x]
  | y :: t => if Qle_bool (coord (pt x) d) (coord (pt y) d) then x :: y :: t else y :: ins_by d x t
  end.
(** with [ins_by], kdtree.py:334 *)
Definition sort_by (d : nat) (l : list item) : list item := fold_right (ins_by d) [] l.

(** kdtree.py:318-352 [__create_tree]; the python recursion is bounded by the number of nodes,
    which is the fuel used by [build]. *)
Fixpoint create_tree (fuel : nat) (dimension : nat) (nodes : list item) (depth : nat) : res tree :=
  match nodes with
  | [] => Ok KLeaf
  | _ =>
    match fuel with
    | 0 => Raise OutOfFuel
    | S fuel' =>
      if dimension =? 0 then Raise ZeroDivisionError else
      let discriminator := depth mod dimension in
      let nodes := sort_by discriminator nodes in
      let median := length nodes / 2 in
      do median <- find_left_element
             (fun n1 n2 => Qltb (coord (pt n1) discriminator) (coord (pt n2) discriminator)) nodes median;
      match nth_error nodes median with
      | None => Raise IndexError
      | Some new_node =>
        do tl <- create_tree fuel' dimension (firstn median nodes) (depth + 1);
        do tr <- create_tree fuel' dimension (skipn (median + 1) nodes) (depth + 1);
        Ok (KNode tl new_node discriminator tr)
      end
    end
  end.

(** for [build], kdtree.py:270-298 *)
Fixpoint size (t : tree) : nat :=
  match t with KLeaf => 0 | KNode l _ _ r => size l + 1 + size r end.

(** kdtree.py:279-284: [points is None] *)
Definition empty_kd : kdt := mkKd KLeaf 0 0.

(** kdtree.py:270-298 with a point list; [_length] is incremented once per created node
    (kdtree.py:351).  [payloads] is merged into the items here. *)
Definition build (items : list item) : res kdt :=
  match items with
  | [] => Raise IndexError                       (* points[0], line 286 *)
  | x :: _ =>
    let dimension := length (pt x) in
    do t <- create_tree (length items) dimension items 0;
    Ok (mkKd t dimension (Z.of_nat (size t)))
  end.

(** kdtree.py:369-396 [_find_node_by_rule], started at [t] *)
Fixpoint find_by_rule (rule : item -> bool) (p : point) (t : tree) : option item :=
  match t with
  | KLeaf => None
  | KNode l x d r =>
    if Qle_bool (coord (pt x) d) (coord p d) then
      if rule x then Some x else find_by_rule rule p r
    else find_by_rule rule p l
  end.

(** kdtree.py:412-413 and 429 *)
Definition rule_payload (p : point) (q : P) (x : item) : bool := peqb (pt x) p && pleq (pl x) q.
(** container/kdtree.py:429 *)
Definition rule_point (p : point) (x : item) : bool := peqb (pt x) p.

(** kdtree.py:398-414, 416-430 *)
Definition find_node_with_payload (k : kdt) (p : point) (q : P) : option item :=
  find_by_rule (rule_payload p q) p (root k).
(** container/kdtree.py:416-430 *)
Definition find_node (k : kdt) (p : point) : option item :=
  find_by_rule (rule_point p) p (root k).

(** kdtree.py:476-500 [__recursive_nearest_nodes]; [best] is the list appended to. *)
Fixpoint nearest_nodes (p : point) (distance sqr : Q) (t : tree) (best : list (Q * item))
  : list (Q * item) :=
  match t with
  | KLeaf => best
  | KNode l x d r =>
    let best := match r with
                | KLeaf => best
                | _ => if Qle_bool (coord (pt x) d - distance) (coord p d)
                       then nearest_nodes p distance sqr r best else best
                end in
    let best := match l with
                | KLeaf => best
                | _ => if Qltb (coord p d) (coord (pt x) d + distance)
                       then nearest_nodes p distance sqr l best else best
                end in
    let cand := sqdist p (pt x) in
    if Qle_bool cand sqr then best ++ [(cand, x)] else best
  end.

(** kdtree.py:459-474 *)
Definition find_nearest_dist_nodes (k : kdt) (p : point) (distance : Q) : list (Q * item) :=
  match root k with
  | KLeaf => []
  | t => nearest_nodes p distance (distance * distance) t []
  end.

(** kdtree.py:432-457 ([retdistance=True]; the other mode returns the second component) *)
Definition find_nearest_dist_node (k : kdt) (p : point) (distance : Q) : option (Q * item) :=
  min_by fst (find_nearest_dist_nodes k p distance).

(** kdtree.py:603-624, the descent of [insert] *)
Fixpoint insert_tree (dimension : nat) (x : item) (t : tree) : tree :=
  match t with
  | KLeaf => KLeaf     (* not reached: the loop is entered with a node *)
  | KNode l y d r =>
    let discriminator := (d + 1) mod dimension in
    if Qle_bool (coord (pt y) d) (coord (pt x) d) then
      match r with
      | KLeaf => KNode l y d (KNode KLeaf x discriminator KLeaf)
      | _ => KNode l y d (insert_tree dimension x r)
      end
    else
      match l with
      | KLeaf => KNode (KNode KLeaf x discriminator KLeaf) y d r
      | _ => KNode (insert_tree dimension x l) y d r
      end
  end.

(** kdtree.py:583-624 [insert] *)
Definition insert (k : kdt) (x : item) : kdt :=
  match root k with
  | KLeaf => mkKd (KNode KLeaf x 0 KLeaf) (length (pt x)) (len k + 1)
  | t => mkKd (insert_tree (dim k) x t) (dim k) (len k + 1)
  end.

(** kdtree.py:725-738: the in-order candidate list of [__find_minimal_node]; the explicit stack of
    the python loop is replaced by structural recursion, and each candidate carries its position
    (a path, [true] = right) in place of the object reference. *)
Fixpoint inorder_paths (t : tree) : list (list bool * item) :=
  match t with
  | KLeaf => []
  | KNode l x _ r =>
    map (fun c => (false :: fst c, snd c)) (inorder_paths l)
    ++ ([], x) :: map (fun c => (true :: fst c, snd c)) (inorder_paths r)
  end.

(** kdtree.py:712-740 [__find_minimal_node]; [None] is [min] of an empty sequence *)
Definition find_minimal_node (t : tree) (d : nat) : option (list bool * item) :=
  min_by (fun c => coord (pt (snd c)) d) (inorder_paths t).

(** replace the subtree at a position by the result of [f] on it; for [recursive_remove], kdtree.py:668-710 *)
Fixpoint update_at (path : list bool) (f : tree -> res tree) (t : tree) : res tree :=
  match path, t with
  | [], _ => f t
  | b :: path', KNode l x d r =>
    if b then (do r' <- update_at path' f r; Ok (KNode l x d r'))
    else (do l' <- update_at path' f l; Ok (KNode l' x d r))
  | _ :: _, KLeaf => Raise AttributeError
  end.

(** kdtree.py:668-710 [__recursive_remove] of the node at the root of [t] *)
Fixpoint recursive_remove (fuel : nat) (t : tree) : res tree :=
  match fuel with
  | 0 => Raise OutOfFuel
  | S fuel' =>
    match t with
    | KLeaf => Raise AttributeError
    | KNode KLeaf _ _ KLeaf => Ok KLeaf
    | KNode l x d r =>
      let '(l, r) := match r with KLeaf => (KLeaf, l) | _ => (l, r) end in
      match find_minimal_node r d with
      | None => Raise ValueError
      | Some (path, m) =>
        do r' <- update_at path (recursive_remove fuel') r;
        Ok (KNode l m d r')
      end
    end
  end.

(** kdtree.py:626-666 [remove]: descend as [_find_node_by_rule] does and replace the found node.
    The result is [None] when no node was found. *)
Fixpoint remove_tree (fuel : nat) (rule : item -> bool) (p : point) (t : tree) : option (res tree) :=
  match t with
  | KLeaf => None
  | KNode l x d r =>
    if Qle_bool (coord (pt x) d) (coord p d) then
      if rule x then Some (recursive_remove fuel t)
      else match remove_tree fuel rule p r with
           | None => None
           | Some r' => Some (do r' <- r'; Ok (KNode l x d r'))
           end
    else match remove_tree fuel rule p l with
         | None => None
         | Some l' => Some (do l' <- l'; Ok (KNode l' x d r))
         end
  end.

(** for [remove_payload], cure.py:392-401 *)
Definition remove_rule (rule : item -> bool) (k : kdt) (p : point) : res kdt :=
  match remove_tree (size (root k)) rule p (root k) with
  | None => Ok k
  | Some t => do t <- t; Ok (mkKd t (dim k) (len k - 1))
  end.

(** container/kdtree.py:626-666 *)
Definition remove (k : kdt) (p : point) : res kdt := remove_rule (rule_point p) k p.
(** for [delete_points], cure.py:392-401 *)
Definition remove_payload (k : kdt) (p : point) (q : P) : res kdt := remove_rule (rule_payload p q) k p.

(** A client history: construction followed by calls on the same object. the calls are container/kdtree.py:583-624 and 626-666 *)
Inductive op :=
| OInsert (x : item)
| ORemove (p : point)
| ORemovePayload (p : point) (q : P).

(** one call of container/kdtree.py:583-666 *)
Definition step (k : kdt) (o : op) : res kdt :=
  match o with
  | OInsert x => Ok (insert k x)
  | ORemove p => remove k p
  | ORemovePayload p q => remove_payload k p q
  end.

(** the calls of container/kdtree.py:583-666 in turn *)
Fixpoint run (k : kdt) (ops : list op) : res kdt :=
  match ops with
  | [] => Ok k
  | o :: ops' => do k' <- step k o; run k' ops'
  end.

(** construction: [None] models [kdtree(None)]; container/kdtree.py:270-298, 570-581 *)
Definition start (init : option (list item)) : res kdt :=
  match init with None => Ok empty_kd | Some l => build l end.
End KdTree.
Arguments item : clear implicits.
Arguments tree : clear implicits.
Arguments kdt : clear implicits.
Arguments op : clear implicits.
