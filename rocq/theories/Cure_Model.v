(** cluster/cure.py (python branch).  Cluster objects live in a list, the heap; an object is its
    position.  The kd-tree is the one of Kd_Model with these positions as payloads (cure_cluster
    defines no __eq__, payloads are compared by identity). *)
From Verif Require Import Base Kmeans_Model Kd_Model.

(** cure.py:33-64 cure_cluster; [None] as distance is float('inf') *)
Record ccl := mkC { cpts : list point; cidx : list nat; cmean : point; crep : list point;
                    cclosest : option nat; cdist : option Q }.
(** with [ccl], cure.py:33-64 *)
Definition no_cluster : ccl := mkC [] [] [] [] None None.

(** comparison of distances that may be infinite; for [closest_cluster], cure.py:353-377 *)
Definition olt (a b : option Q) : bool :=
  match a, b with Some x, Some y => Qltb x y | Some _, None => true | None, _ => false end.

(** kdtree.py:459-500 find_nearest_dist_nodes with the radius [sqrt s]; the comparisons of
    Kd_Model.nearest_nodes are made between squares: [e <= sqrt s] is [e <= 0 or e*e <= s],
    [e < sqrt s] is [e < 0 or e*e < s] (see C46_le_sqrt, C46_lt_sqrt in
    Cure_Props) *)
Definition le_root (e s : Q) : bool := Qle_bool e 0 || Qle_bool (e * e) s.
(** with [le_root], kdtree.py:459-500 *)
Definition lt_root (e s : Q) : bool := Qltb e 0 || Qltb (e * e) s.

(** for [closest_cluster], cure.py:353-377 *)
Fixpoint nearest_nodes_sq {P : Type} (p : point) (s : Q) (t : tree P) (best : list (Q * item P)) : list (Q * item P) :=
  match t with
  | KLeaf => best
  | KNode l x d r =>
    let best := match r with
                | KLeaf => best
                | _ => if le_root (coord (pt x) d - coord p d) s then nearest_nodes_sq p s r best else best
                end in
    let best := match l with
                | KLeaf => best
                | _ => if lt_root (coord p d - coord (pt x) d) s then nearest_nodes_sq p s l best else best
                end in
    let cand := sqdist p (pt x) in
    if Qle_bool cand s then best ++ [(cand, x)] else best
  end.

Section Cure.
Variable data : list point.
Variable number_represent_points : nat.
Variable compression : Q.

(** cure.py:511-529 __cluster_distance *)
Definition cluster_distance (c1 c2 : ccl) : option Q :=
  min_by (fun d => d) (flat_map (fun p => map (fun q => sqdist p q) (crep c2)) (crep c1)).

(** cure.py:423: points[1:] == points[:-1] *)
Fixpoint all_equal (l : list point) : bool :=
  match l with
  | p :: ((q :: _) as t) => peqb q p && all_equal t
  | _ => true
  end.

(** cure.py:421-427 *)
Definition merged_mean (c1 c2 : ccl) : point :=
  let pts := cpts c1 ++ cpts c2 in
  if all_equal pts then nth 0 pts []
  else
    let n1 := inject_Z (Z.of_nat (length (cpts c1))) in
    let n2 := inject_Z (Z.of_nat (length (cpts c2))) in
    map (fun d => ((n1 * coord (cmean c1) d + n2 * coord (cmean c2) d) / (n1 + n2))%Q) (seq 0 (length (cmean c1))).

(** cure.py:432-446 one pass over the points; [temporary] is empty in the first pass *)
Definition farthest_point (mean : point) (pts temporary : list point) : option point :=
  snd (fold_left (fun acc p =>
         let minimal := match temporary with
                        | [] => sqdist p mean
                        | _ => match min_by (fun d => d) (map (fun q => sqdist p q) temporary) with Some d => d | None => 0%Q end
                        end in
         if Qle_bool (fst acc) minimal then (minimal, Some p) else acc) pts (0%Q, None)).

(** cure.py:431-449; [maximal_point] is not None when there are points *)
Fixpoint choose_points (count : nat) (mean : point) (pts temporary : list point) : list point :=
  match count with
  | 0 => temporary
  | S c =>
      let temporary' := match farthest_point mean pts temporary with
                        | None => temporary
                        | Some p => if existsb (fun q => peqb q p) temporary then temporary else temporary ++ [p]
                        end in
      choose_points c mean pts temporary'
  end.

(** cure.py:451-456 *)
Definition shrink (mean p : point) : point :=
  map (fun d => (coord p d + compression * (coord mean d - coord p d))%Q) (seq 0 (length mean)).

(** cure.py:404-458 __merge_clusters *)
Definition merge_clusters (c1 c2 : ccl) : ccl :=
  let pts := cpts c1 ++ cpts c2 in
  let mean := merged_mean c1 c2 in
  mkC pts (cidx c1 ++ cidx c2) mean (map (shrink mean) (choose_points number_represent_points mean pts [])) None None.

(** attributes of the run: heap of cluster objects, __queue, __tree; for [cure_step], cure.py:174-225 *)
Record cst := mkS { heap : list ccl; queue : list nat; ctree : kdt nat }.

(** for [rep_items], cure.py:492-508 *)
Definition obj (h : list ccl) (i : nat) : ccl := nth i h no_cluster.
(** for [items_loop], cure.py:195-220 *)
Definition set_closest (c : ccl) (cl : option nat) (d : option Q) : ccl := mkC (cpts c) (cidx c) (cmean c) (crep c) cl d.

(** cure.py:461-489 __create_queue; with one point the closest index stays -1, the last cluster *)
Definition singleton (i : nat) : ccl := let p := nth i data [] in mkC [p] [i] p [p] None None.
(** with [singleton], cure.py:461-489 *)
Definition first_closest (h : list ccl) (i : nat) : option nat * option Q :=
  let n := length h in
  let dist k := match cluster_distance (obj h i) (obj h k) with Some d => d | None => 0%Q end in
  match min_by dist (filter (fun k => negb (k =? i)) (seq 0 n)) with
  | Some k => (Some k, Some (dist k))
  | None => (Some (n - 1), None)
  end.
(** with [singleton], cure.py:461-489 *)
Definition create_heap : list ccl :=
  let h := map singleton (seq 0 (length data)) in
  map (fun i => let '(c, d) := first_closest h i in set_closest (obj h i) c d) (seq 0 (length data)).
(** the sort by distance is stable; an infinite distance only occurs with a single cluster; for [cure], cure.py:102-128 *)
Definition create_queue : list nat :=
  sort_key (fun i => match cdist (obj create_heap i) with Some d => d | None => 0%Q end) (seq 0 (length data)).

(** cure.py:492-508 __create_kdtree *)
Definition rep_items (h : list ccl) (i : nat) : list (item nat) := map (fun p => mkItem p i) (crep (obj h i)).
(** with [rep_items], cure.py:492-508 *)
Definition create_kdtree (h : list ccl) (q : list nat) : res (kdt nat) := build (flat_map (rep_items h) q).

(** cure.py:392-401 __delete_represented_points *)
Fixpoint delete_points (k : kdt nat) (ps : list point) (c : nat) : res (kdt nat) :=
  match ps with
  | [] => Ok k
  | p :: ps' => do k' <- remove_payload Nat.eqb k p c; delete_points k' ps' c
  end.
(** cure.py:380-389 __insert_represented_points *)
Definition insert_points (k : kdt nat) (ps : list point) (c : nat) : kdt nat :=
  fold_left (fun k p => insert k (mkItem p c)) ps k.

(** cure.py:353-377 __closest_cluster; the radius is the root of [distance] *)
Definition closest_cluster (k : kdt nat) (c : nat) (rep : list point) (distance : Q) : option nat * option Q :=
  fold_left (fun acc p =>
    fold_left (fun acc cand =>
        if olt (Some (fst cand)) (snd acc) && negb (pl (snd cand) =? c)
        then (Some (pl (snd cand)), Some (fst cand)) else acc)
      (nearest_nodes_sq p distance (root k) []) acc) rep (None, None).

(** list.remove; for [relocate_cluster], cure.py:341-350 *)
Fixpoint remove_first (x : nat) (l : list nat) : res (list nat) :=
  match l with
  | [] => Raise ValueError
  | y :: t => if y =? x then Ok t else do t' <- remove_first x t; Ok (y :: t')
  end.

(** cure.py:325-338 __insert_cluster *)
Fixpoint insert_cluster (h : list ccl) (c : nat) (q : list nat) : list nat :=
  match q with
  | [] => [c]
  | x :: t => if olt (cdist (obj h c)) (cdist (obj h x)) then c :: x :: t else x :: insert_cluster h c t
  end.

(** cure.py:341-350 __relocate_cluster *)
Definition relocate_cluster (h : list ccl) (q : list nat) (c : nat) : res (list nat) :=
  do q' <- remove_first c q; Ok (insert_cluster h c q').
(** with [relocate_cluster], cure.py:341-350 *)
Fixpoint relocate_all (h : list ccl) (q : list nat) (cs : list nat) : res (list nat) :=
  match cs with
  | [] => Ok q
  | c :: cs' => do q' <- relocate_cluster h q c; relocate_all h q' cs'
  end.

(** is [o] the object [c]?; for [item_update], cure.py:195-220 *)
Definition is_obj (o : option nat) (c : nat) : bool := match o with Some x => x =? c | None => false end.

(** cure.py:195-220 for one item of the queue: the item's new closest and distance, if changed.
    [m] is the merged cluster, [distance] the distance to it *)
Definition item_update (k : kdt nat) (h : list ccl) (c1 c2 m item : nat) (distance : option Q) : option (option nat * option Q) :=
  let it := obj h item in
  if is_obj (cclosest it) c1 || is_obj (cclosest it) c2 then
    if olt (cdist it) distance then
      match distance with
      | None => Some (Some m, distance)      (* an infinite distance, not reachable *)
      | Some d =>
          match closest_cluster k item (crep it) d with
          | (None, _) => Some (Some m, distance)
          | found => Some found
          end
      end
    else Some (Some m, distance)
  else None.

(** cure.py:195-220 the loop over the queue; state: heap, closest and distance of the merged
    cluster, relocation requests *)
Fixpoint items_loop (k : kdt nat) (merged : ccl) (c1 c2 m : nat) (q : list nat) (h : list ccl) (mc : option nat) (md : option Q) (req : list nat)
  : list ccl * option nat * option Q * list nat :=
  match q with
  | [] => (h, mc, md, req)
  | item :: q' =>
      let distance := cluster_distance merged (obj h item) in
      let '(mc, md) := if olt distance md then (Some item, distance) else (mc, md) in
      match item_update k h c1 c2 m item distance with
      | None => items_loop k merged c1 c2 m q' h mc md req
      | Some (cl, d) => items_loop k merged c1 c2 m q' (upd h item (set_closest (obj h item) cl d)) mc md (req ++ [item])
      end
  end.

(** cure.py:174-225 one turn of the loop *)
Definition cure_step (s : cst) : res cst :=
  match queue s with
  | [] => Raise IndexError
  | c1 :: _ =>
      match cclosest (obj (heap s) c1) with
      | None => Raise ValueError
      | Some c2 =>
          do q1 <- remove_first c1 (queue s);
          do q2 <- remove_first c2 q1;
          do t1 <- delete_points (ctree s) (crep (obj (heap s) c1)) c1;
          do t2 <- delete_points t1 (crep (obj (heap s) c2)) c2;
          let merged := merge_clusters (obj (heap s) c1) (obj (heap s) c2) in
          let m := length (heap s) in
          let t3 := insert_points t2 (crep merged) m in
          let '(h, mc, md, req) :=
            match q2 with
            | [] => (heap s, None, None, [])
            | x :: _ => items_loop t3 merged c1 c2 m q2 (heap s) (Some x) (cluster_distance merged (obj (heap s) x)) []
            end in
          let h' := h ++ [set_closest merged mc md] in
          do q3 <- relocate_all h' (insert_cluster h' m q2) req;
          Ok (mkS h' q3 t3)
      end
  end.

(** cure.py:173; fuel: the number of merges *)
Fixpoint cure_loop (fuel : nat) (number : nat) (s : cst) : res cst :=
  if number <? length (queue s) then
    match fuel with
    | 0 => Raise OutOfFuel
    | S f => do s' <- cure_step s; cure_loop f number s'
    end
  else Ok s.

(** cure.py:102-128, 305-322, 165-230: the constructor and process(); a negative number of clusters
    or representatives is 0 here *)
Definition cure (number : nat) : res cst :=
  match data with
  | [] => Raise ValueError
  | _ =>
      if number =? 0 then Raise ValueError
      else if Qltb compression 0 then Raise ValueError
      else if number_represent_points =? 0 then Raise ValueError
      else
        do t <- create_kdtree create_heap create_queue;
        cure_loop (length data) number (mkS create_heap create_queue t)
  end.

(** cure.py:228-230 get_clusters, get_representors, get_means *)
Definition clusters (s : cst) : list (list nat) := map (fun i => cidx (obj (heap s) i)) (queue s).
(** cluster/cure.py:228-230 *)
Definition representors (s : cst) : list (list point) := map (fun i => crep (obj (heap s) i)) (queue s).
(** cluster/cure.py:228-230 *)
Definition means (s : cst) : list point := map (fun i => cmean (obj (heap s) i)) (queue s).
End Cure.
