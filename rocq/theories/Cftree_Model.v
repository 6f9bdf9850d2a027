(** container/cftree.py.  Numbers are exact.  Entries have at least one point (python gives NaN for
    the centroid of an entry without points). *)
From Verif Require Import Base Kmeans_Model Aggl_Model Cure_Model.

(** utils/__init__.py:277-297 manhattan_distance *)
Fixpoint manhattan (a b : point) : Q :=
  match a, b with x :: a', y :: b' => (Qabs (x - y) + manhattan a' b')%Q | _, _ => 0%Q end.
(** numpy.add and numpy.dot on vectors of one length (numpy raises for different lengths); for [fadd], cftree.py:151-165 *)
Fixpoint padd (a b : point) : point := match a, b with x :: a', y :: b' => (x + y)%Q :: padd a' b' | _, _ => [] end.
(** for [radius_sq], cftree.py:240-260 *)
Fixpoint dot (a b : point) : Q := match a, b with x :: a', y :: b' => (x * y + dot a' b')%Q | _, _ => 0%Q end.

(** cftree.py:66-123 cfentry.  [tag] is the identity of an object passed by the caller to insert();
    [None] marks objects made by the tree itself, to which there is one reference only. *)
Record entry := Ent { tag : option nat; num : nat; lsum : point; ssum : Q }.
(** with [entry], cftree.py:66-123 *)
Definition numq (e : entry) : Q := inject_Z (Z.of_nat (num e)).

(** cftree.py:151-165 __add__ *)
Definition fadd (a b : entry) : entry := Ent None (num a + num b) (padd (lsum a) (lsum b)) (ssum a + ssum b).

(** cftree.py:224-237 get_centroid *)
Definition centroid (e : entry) : point := map (fun x => (x / numq e)%Q) (lsum e).

(** cftree.py:240-260 get_radius, without the root *)
Definition radius_sq (e : entry) : Q :=
  ((1 / numq e) * (ssum e - 2 * dot (lsum e) (centroid e) + numq e * dot (centroid e) (centroid e)))%Q.

(** cftree.py:275 *)
Definition diameter_part (e : entry) : Q := (ssum e * numq e - 2 * dot (lsum e) (lsum e) + ssum e * numq e)%Q.
(** cftree.py:263-282 get_diameter, without the root *)
Definition diameter_sq (e : entry) : Q :=
  if Qltb (diameter_part e) (1 # 1000000000) then 0%Q else (diameter_part e / (numq e * (numq e - 1)))%Q.
(** cftree.py:945 get_diameter() > threshold *)
Definition wider (e : entry) (threshold : Q) : bool := lt_root threshold (diameter_sq e).

(** cftree.py:285-297, without the root *)
Definition inter_sq (a b : entry) : Q :=
  ((numq b * ssum a - 2 * dot (lsum a) (lsum b) + numq a * ssum b) / (numq a * numq b))%Q.
(** cftree.py:300-317, without the root *)
Definition intra_sq (a b : entry) : Q :=
  let l := padd (lsum a) (lsum b) in
  ((2 * (numq a + numq b) * (ssum a + ssum b) - 2 * dot l l) / ((numq a + numq b) * (numq a + numq b - 1)))%Q.
(** cftree.py:320-341 *)
Definition variance_increase (a b : entry) : Q :=
  let l12 := padd (lsum a) (lsum b) in
  let n12 := (numq a + numq b)%Q in
  ((ssum a + ssum b) - 2 * dot l12 l12 / n12 + n12 * dot l12 l12 / (n12 * n12) +
   - (ssum a - 2 * dot (lsum a) (lsum a) / numq a + dot (lsum a) (lsum a) / numq a) +
   - (ssum b - (2 / numq b) * dot (lsum b) (lsum b) + numq b * (1 / (numq b * numq b)) * dot (lsum b) (lsum b)))%Q.

(** cftree.py:23-44 *)
Inductive measure := CentroidEuclidean | CentroidManhattan | AverageInter | AverageIntra | VarianceIncrease.

(** cftree.py:190-221 get_distance; the values of the two average measures are squared, which
    changes neither their comparisons with each other nor with zero *)
Definition dist (m : measure) (a b : entry) : Q :=
  match m with
  | CentroidEuclidean => sqdist (centroid b) (centroid a)
  | CentroidManhattan => manhattan (centroid b) (centroid a)
  | AverageInter => inter_sq a b
  | AverageIntra => intra_sq a b
  | VarianceIncrease => variance_increase a b
  end.

(** cftree.py:344-366, 400-430, 536-566: nodes.  A leaf carries its identity.  Links to parents are not
    kept: replacing a node in the list of its parent is done by the recursion. *)
Inductive tree := Leaf (id : nat) (f : entry) (es : list entry) | Node (f : entry) (kids : list tree).
(** with [tree], cftree.py:344-366 *)
Definition feat (t : tree) : entry := match t with Leaf _ f _ => f | Node f _ => f end.

Section Cftree.
Variable m : measure.
(** branch_factor as given; cftree.py:786-788 *)
Variable branch : nat.
(** for [merge_nearest], cftree.py:1017-1041 *)
Definition bf : nat := if branch <? 2 then 2 else branch.
Variable max_entries : nat.
Variable threshold : Q.

(** cftree.py:478-504 get_farthest_successors, 617-643 get_farthest_entries: the positions of the pair;
    [None] when no distance is positive *)
Definition farthest {A : Type} (key : A -> entry) (d : A) (l : list A) : option (nat * nat) :=
  fst (fold_left (fun best ij => let v := dist m (key (nth (fst ij) l d)) (key (nth (snd ij) l d)) in
                   if Qltb (snd best) v then (Some ij, v) else best) (pairs (length l)) (None, 0%Q)).

(** cftree.py:1095-1103, 1128-1136: the other items are put to the nearer of the two new nodes, whose
    features grow meanwhile *)
Fixpoint distribute {A : Type} (key : A -> entry) (skip : nat -> A -> bool) (k : nat) (l : list A)
    (n1 n2 : entry * list A) : (entry * list A) * (entry * list A) :=
  match l with
  | [] => (n1, n2)
  | x :: t =>
      if skip k x then distribute key skip (S k) t n1 n2
      else if Qltb (dist m (fst n1) (key x)) (dist m (fst n2) (key x))
        then distribute key skip (S k) t (fadd (fst n1) (key x), snd n1 ++ [x]) n2
        else distribute key skip (S k) t n1 (fadd (fst n2) (key x), snd n2 ++ [x])
  end.

(** python's [is] for entries of one leaf at different positions; for [split_leaf], cftree.py:1108-1138 *)
Definition same_object (a b : entry) : bool :=
  match tag a, tag b with Some x, Some y => x =? y | _, _ => false end.

(** for [split_leaf], cftree.py:1108-1138 *)
Definition e0 : entry := Ent None 0 [] 0%Q.
(** copy(feature): cftree.py:126-131 *)
Definition copy (e : entry) : entry := Ent None (num e) (lsum e) (ssum e).

(** cftree.py:1108-1138 __split_leaf_node *)
Definition split_leaf (es : list entry) : res ((entry * list entry) * (entry * list entry)) :=
  match farthest (fun e => e) e0 es with
  | None => Raise AttributeError
  | Some (i, j) =>
      let e1 := nth i es e0 in let e2 := nth j es e0 in
      Ok (distribute (fun e => e) (fun k e => (k =? i) || (k =? j) || same_object e e1 || same_object e e2) 0 es
            (copy e1, [e1]) (copy e2, [e2]))
  end.

(** for [split_nonleaf], cftree.py:1075-1105 *)
Definition t0 : tree := Leaf 0 e0 [].
(** cftree.py:1075-1105 __split_nonleaf_node *)
Definition split_nonleaf (kids : list tree) : res (tree * tree) :=
  match farthest feat t0 kids with
  | None => Raise AttributeError
  | Some (i, j) =>
      let c1 := nth i kids t0 in let c2 := nth j kids t0 in
      let '((f1, l1), (f2, l2)) := distribute feat (fun k _ => (k =? i) || (k =? j)) 0 kids (copy (feat c1), [c1]) (copy (feat c2), [c2]) in
      Ok (Node f1 l1, Node f2 l2)
  end.

(** attributes of the tree apart from the root; [next] supplies identities of new leaves; for [insert_leaf], cftree.py:926-961 *)
Record cfs := mkC { next : nat; leafes : list nat; amount_nodes : nat; amount_entries : nat; height : nat }.

(** list.remove for objects; for [insert_leaf], cftree.py:926-961 *)
Fixpoint remove_id (x : nat) (l : list nat) : list nat :=
  match l with [] => [] | y :: t => if x =? y then t else y :: remove_id x t end.

(** reply of the recursive insertion: the node, or the two nodes it was split into; the feature of
    the node before it was split; statistics; for [insert_leaf], cftree.py:926-961 *)
Record reply := mkR { news : list tree; whole : entry; stat : cfs }.

(** cftree.py:926-961 __insert_for_leaf_node and 1059-1072 of __split_procedure *)
Definition insert_leaf (e : entry) (id : nat) (f : entry) (es : list entry) (s : cfs) : res reply :=
  match min_by (fun i => dist m (nth i es e0) e) (seq 0 (length es)) with
  | None => Raise IndexError
  | Some i =>
      let merged := fadd (nth i es e0) e in
      let f' := fadd f e in
      if wider merged threshold then
        let es' := es ++ [e] in
        if max_entries <? length es' then
          do p <- split_leaf es';
          let '((f1, l1), (f2, l2)) := p in
          Ok (mkR [Leaf (next s) f1 l1; Leaf (S (next s)) f2 l2] f'
                (mkC (S (S (next s))) (remove_id id (leafes s) ++ [next s; S (next s)]) (amount_nodes s + 1) (amount_entries s + 1) (height s)))
        else Ok (mkR [Leaf id f' es'] f' (mkC (next s) (leafes s) (amount_nodes s) (amount_entries s + 1) (height s)))
      else Ok (mkR [Leaf id f' (upd es i merged)] f' s)
  end.

(** cftree.py:1017-1041 __merge_nearest_successors; 507-533 get_nearest_successors returns in its first
    step, that is the first two successors *)
Definition merge_nearest (kids : list tree) (s : cfs) : res (list tree * cfs) :=
  match kids with
  | [] => Raise IndexError
  | Leaf _ _ _ :: _ => Ok (kids, s)
  | Node f1 k1 :: Node f2 k2 :: rest =>
      if length k1 + length k2 <=? bf
      then Ok (Node (fadd f1 f2) (k1 ++ k2) :: rest, mkC (next s) (leafes s) (amount_nodes s - 1) (amount_entries s) (height s))
      else Ok (kids, s)
  | Node _ _ :: Leaf _ _ _ :: _ => Raise AttributeError
  | [Node _ _] => Raise TypeError
  end.

(** cftree.py:905-923 __recursive_insert, 964-1014 __insert_for_noneleaf_node.  The child is chosen by
    its distance to the node itself, not to the entry (line 977). *)
Fixpoint insert_rec (e : entry) (t : tree) (s : cfs) {struct t} : res reply :=
  match t with
  | Leaf id f es => insert_leaf e id f es s
  | Node f kids =>
      match min_by (fun i => dist m (feat (nth i kids t0)) f) (seq 0 (length kids)) with
      | None => Raise ValueError
      | Some i =>
          do r <- (fix at_ (l : list tree) (k : nat) {struct l} : res reply :=
                     match l, k with
                     | [], _ => Raise IndexError
                     | c :: _, 0 => insert_rec e c s
                     | _ :: l', S k' => at_ l' k'
                     end) kids i;
          let s1 := stat r in
          let f' := fadd f e in
          let '(kids', updated) := match news r with
                                   | [c] => (upd kids i c, false)
                                   | cs => (pop kids i ++ cs, true)
                                   end in
          if bf <? length kids' then
            do p <- split_nonleaf kids';
            Ok (mkR [fst p; snd p] f' (mkC (next s1) (leafes s1) (amount_nodes s1 + 1) (amount_entries s1) (height s1)))
          else if updated then
            do ks <- merge_nearest kids' s1;
            Ok (mkR [Node f' (fst ks)] f' (snd ks))
          else Ok (mkR [Node f' kids'] f' s1)
      end
  end.

(** the whole tree; for [empty_tree], cftree.py:773-800 *)
Record cft := mkT { root : option tree; stats : cfs }.
(** cftree.py:773-800 *)
Definition empty_tree : cft := mkT None (mkC 0 [] 0 0 0).

(** cftree.py:854-877 insert; 988-995, 1051-1057: a new root above the two halves of the old one *)
Definition insert (e : entry) (t : cft) : res cft :=
  let s := stats t in
  match root t with
  | None => Ok (mkT (Some (Leaf (next s) (copy e) [e])) (mkC (S (next s)) (leafes s ++ [next s]) (amount_nodes s + 1) (amount_entries s + 1) (height s + 1)))
  | Some r =>
      do p <- insert_rec e r s;
      match news p with
      | [c] => Ok (mkT (Some c) (stat p))
      | cs =>
          let s1 := stat p in
          do ks <- merge_nearest cs (mkC (next s1) (leafes s1) (amount_nodes s1 + 1) (amount_entries s1) (height s1 + 1));
          Ok (mkT (Some (Node (copy (whole p)) (fst ks))) (snd ks))
      end
  end.

(** calls of container/cftree.py:854-877 in turn, as made by cluster/birch.py:253-304 *)
Fixpoint insert_all (es : list entry) (t : cft) : res cft :=
  match es with [] => Ok t | e :: es' => do t' <- insert e t; insert_all es' t' end.

(** cftree.py:842-851 insert_point; utils/__init__.py:1148-1195 linear_sum and square_sum of one point *)
Definition point_entry (p : point) : entry := Ent None 1 (map (fun x => (0 + x)%Q) p) (0 + dot p p)%Q.
(** container/cftree.py:842-851 *)
Definition insert_point (p : point) (t : cft) : res cft := insert (point_entry p) t.

(** cftree.py:820-839 __recursive_get_level_nodes; a leaf has no successors *)
Fixpoint level_nodes_rec (level : nat) (t : tree) : res (list tree) :=
  match level with
  | 0 => Ok [t]
  | S l =>
      match t with
      | Leaf _ _ _ => Raise AttributeError
      | Node _ kids => fold_left (fun acc c => do a <- acc; do b <- level_nodes_rec l c; Ok (a ++ b)) kids (Ok [])
      end
  end.
(** cftree.py:803-817 get_level_nodes *)
Definition get_level_nodes (level : nat) (t : cft) : res (list tree) :=
  if level <? height (stats t) then match root t with Some r => level_nodes_rec level r | None => Raise AttributeError end else Ok [].

(** cftree.py:880-902 find_nearest_leaf *)
Fixpoint find_nearest_leaf (e : entry) (t : tree) {struct t} : res tree :=
  match t with
  | Leaf _ _ _ => Ok t
  | Node f kids =>
      match min_by (fun i => dist m (feat (nth i kids t0)) e) (seq 0 (length kids)) with
      | None => Raise ValueError
      | Some i => (fix at_ (l : list tree) (k : nat) {struct l} : res tree :=
                     match l, k with
                     | [], _ => Raise IndexError
                     | c :: _, 0 => find_nearest_leaf e c
                     | _ :: l', S k' => at_ l' k'
                     end) kids i
      end
  end.
End Cftree.
