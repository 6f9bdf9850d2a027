(** cluster/birch.py on top of the CF-tree, agglomerative clustering and the encoder. *)
From Verif Require Import Base Kmeans_Model Encoder_Model Aggl_Model Cftree_Model.

(** leaves of a tree with their entries; for [entries_of], birch.py:235-251 *)
Fixpoint leaf_list (t : tree) : list (nat * list entry) :=
  match t with Leaf id _ es => [(id, es)] | Node _ kids => flat_map leaf_list kids end.
(** [leaf.entries] of an object of the list of leaves; for [extract_features], birch.py:235-251 *)
Definition entries_of (t : tree) (id : nat) : list entry :=
  match find (fun p => fst p =? id) (leaf_list t) with Some p => snd p | None => [] end.

Section Birch.
Variable data : list point.
Variable number : nat.
Variable m : measure.
Variable branch max_entries limit : nat.
Variable multiplier : Q.

(** attribute __tree: the threshold it was made with, and the tree; for [rebuild_tree], birch.py:270-304 *)
Definition btree := (Q * cft)%type.

(** birch.py:270-304 __rebuild_tree.  The [continue] of line 299 belongs to the inner loop, so that the
    outer loop runs once and the diameter increased in line 298 is not used. *)
Definition rebuild_tree (index : nat) (threshold : Q) : res btree :=
  let increased := (threshold * multiplier)%Q in
  let increased := if Qeq_bool increased 0 then 1%Q else increased in
  do t <- insert_all m branch max_entries increased (map point_entry (firstn (S index) data)) empty_tree;
  Ok (increased, t).

(** birch.py:254-267 __insert_data from point [index] on *)
Fixpoint insert_data (index : nat) (rest : list point) (b : btree) : res btree :=
  match rest with
  | [] => Ok b
  | p :: rest' =>
      do t <- insert_point m branch max_entries (fst b) p (snd b);
      if limit <? amount_entries (stats t)
      then do b' <- rebuild_tree index (fst b); insert_data (S index) rest' b'
      else insert_data (S index) rest' (fst b, t)
  end.

(** birch.py:235-251 __extract_features; both branches list the entries of the leaves in order *)
Definition extract_features (t : cft) : list entry :=
  match root t with None => [] | Some r => flat_map (entries_of r) (leafes (stats t)) end.

(** birch.py:156-161: assignment of points *)
Fixpoint assign (cf_data : list point) (labels : list (option nat)) (index : nat) (rest : list point) (cl : list (list nat)) : res (list (list nat)) :=
  match rest with
  | [] => Ok cl
  | p :: rest' =>
      match nth_error labels (argmin (map (fun c => sqdist c p) cf_data)) with
      | None => Raise IndexError
      | Some None => Raise TypeError
      | Some (Some c) =>
          do cl' <- Encoder_Model.push cl c index; assign cf_data labels (S index) rest' cl'
      end
  end.

(** for [birch], birch.py:97-163 *)
Record bst := mkB { features : list entry; cf_clusters : list (list nat); clusters : list (list nat) }.

(** birch.py:97-163, 218-232: constructor and process() *)
Definition birch (diameter : Q) : res bst :=
  match data with
  | [] => Raise ValueError
  | _ =>
      if number =? 0 then Raise ValueError else
      if limit =? 0 then Raise ValueError else
      do b <- insert_data 0 data (diameter, empty_tree);
      let fs := extract_features (snd b) in
      let cf_data := map centroid fs in
      do a <- agglomerative cf_data SingleLink number;
      do labels <- index_to_label point cf_data (Aggl_Model.clusters a);
      do cl <- assign cf_data labels 0 data (repeat [] (length (Aggl_Model.clusters a)));
      Ok (mkB fs (Aggl_Model.clusters a) cl)
  end.
End Birch.
