(** cluster/bang.py.  Numbers are exact.  A spatial block and the bang block around it are one record; the
    cached points of a block are recomputed when needed (bang.py:828-838, 900-941 cache the same indexes).
    The visualizer and the animator (lines 20-402) are in Blocks_Model. *)
From Verif Require Import Base Small_Model.

(** bang.py:597-607 spatial_block and 746-766 bang_block, without the data *)
Record block := mkBlk { bmax : point; bmin : point; region : nat; level : nat }.

(** bang.py:620-631 __contains__ *)
Definition contains (b : block) (p : point) : bool :=
  forallb (fun i => negb (Qltb (coord p i) (coord (bmin b) i) || Qltb (coord (bmax b) i) (coord p i))) (seq 0 (length p)).

(** bang.py:732 *)
Definition side (b : block) (i : nat) : Q := (coord (bmax b) i - coord (bmin b) i)%Q.
(** bang.py:720-738 __calculate_volume *)
Definition volume (b : block) : Q :=
  fold_left (fun v i => if Qeq_bool (side b i) 0 then v else if Qeq_bool v 0 then side b i else (v * side b i)%Q)
            (seq 0 (length (bmax b))) 0%Q.

(** bang.py:656-673 spatial_block.split and 863-881 bang_block.split *)
Definition split (b : block) (d : nat) : block * block :=
  let border := ((coord (bmax b) d + coord (bmin b) d) / 2)%Q in
  (mkBlk (upd (bmax b) d border) (bmin b) (region b) (S (level b)),
   mkBlk (bmax b) (upd (bmin b) d border) (region b + 2 ^ level b) (S (level b))).

(** bang.py:697-717 __calculate_neighborhood and 676-694 is_neighbor of two different blocks; the second
    block enters with its upper corner only *)
Definition is_neighbor (self block : block) : bool :=
  let dims := seq 0 (length (bmax block)) in
  let score := length (filter (fun i => Qle_bool (Qabs (coord (bmax block) i - coord (bmax self) i)) (side self i + side self i * (1 # 10000))) dims) in
  score =? length (bmax block).

(** the exact version of a set's iteration order is not fixed: bang.py:1242, 1205, 1206 iterate over sets of
    indexes in the order [order] *)
Section Bang.
Variable order : list nat -> list nat.
Variable data : list point.
Variable levels : nat.
Variable density_threshold : Q.
Variable amount_threshold : nat.

(** bang.py:900-941: indexes of the points a block covers *)
Definition points (b : block) : list nat := filter (fun i => contains b (nth i data [])) (seq 0 (length data)).
(** bang.py:777-782 __len__ *)
Definition amount (b : block) : nat := length (points b).
(** bang.py:884-897 __calculate_density *)
Definition density (b : block) : Q := if Qeq_bool (volume b) 0 then 0%Q else (inject_Z (Z.of_nat (amount b)) / volume b)%Q.

(** bang.py:579, 1150 *)
Definition is_sparse (b : block) : bool := Qle_bool (density b) density_threshold || (amount b <=? amount_threshold).

(** bang.py:412-440: attributes __leafs, __level_blocks (observe=True) and __size *)
Record directory := mkDir { leafs : list block; level_blocks : list (list block); size : nat }.

(** bang.py:567-585 __split_block on all blocks of a level: leafs found and blocks of the next level *)
Fixpoint split_blocks (d : nat) (previous : list block) (lf current : list block) : list block * list block :=
  match previous with
  | [] => (lf, current)
  | b :: t =>
      if is_sparse b then split_blocks d t (lf ++ [b]) current
      else let h := split b d in split_blocks d t lf (current ++ [fst h; snd h])
  end.

(** bang.py:515-524 __store_level_blocks *)
Definition store_level (bs : list block) (dir : directory) : directory :=
  mkDir (leafs dir) (level_blocks dir ++ [bs]) (size dir + length bs).

(** bang.py:543-564 __build_level *)
Definition build_level (dims : nat) (previous : list block) (lev : nat) (dir : directory) : list block * directory :=
  let '(lf, current) := split_blocks (lev mod dims) previous (leafs dir) [] in
  let lf := if lev =? levels - 1 then lf ++ current else lf in
  (current, mkDir lf (level_blocks dir) (size dir)).

(** bang.py:528-538: loop of __build_directory_levels over the levels [levs] *)
Fixpoint build_levels (dims : nat) (levs : list nat) (previous : list block) (dir : directory) : directory :=
  match levs with
  | [] => dir
  | lev :: t => let '(current, dir) := build_level dims previous lev dir in build_levels dims t current (store_level current dir)
  end.

(** bang.py:496-512 __create_directory and 540; python raises ZeroDivisionError in line 555 for points
    without coordinates *)
Definition create_directory : res directory :=
  do c <- data_corners data None;
  let root := mkBlk (snd c) (fst c) 0 0 in
  let dims := length (nth 0 data []) in
  if levels =? 1 then Ok (store_level [root] (mkDir [root] [] 0))
  else if dims =? 0 then Raise ZeroDivisionError
  else let dir := build_levels dims (seq 1 (levels - 1)) [root] (mkDir [] [] 0) in
       Ok (mkDir (sort_key density (leafs dir)) (level_blocks dir) (size dir)).

(** for [update_dendrogram], bang.py:1257-1269 *)
Definition b0 : block := mkBlk [] [] 0 0.

(** state of the allocation: attribute __cluster of every leaf, the set of unhandled indexes, the
    dendrogram (blocks as positions in the list of leafs); for [expand], bang.py:1180-1185 *)
Record ast := mkA { marks : list (option nat); unhandled : list nat; dendrogram : list (list nat) }.

Section Allocation.
Variable lb : list block.

(** bang.py:1257-1269 __update_cluster_dendrogram *)
Definition update_dendrogram (dg : list (list nat)) (c : nat) (blocks : list nat) : res (list (list nat)) :=
  let dg := if length dg <=? c then dg ++ [[]] else dg in
  if length dg <=? c then Raise IndexError
  else Ok (upd dg c (nth c dg [] ++ sort_key (fun k => (- density (nth k lb b0))%Q) blocks)).

(** bang.py:1209-1224 __find_block_center over the positions [ks] *)
Fixpoint find_center (mk : list (option nat)) (ks : list nat) (unh : list nat) : res (option nat * list nat) :=
  match ks with
  | [] => Ok (None, unh)
  | k :: t =>
      if Qle_bool (density (nth k lb b0)) density_threshold then Ok (None, unh)
      else match nth k mk None with
           | None => if existsb (Nat.eqb k) unh then Ok (Some k, remove Nat.eq_dec k unh) else Raise KeyError
           | Some _ => find_center mk t unh
           end
  end.
(** with [find_center], bang.py:1209-1224 *)
Definition find_block_center (s : ast) : res (option nat * ast) :=
  do r <- find_center (marks s) (rev (seq 0 (length lb))) (unhandled s);
  Ok (fst r, mkA (marks s) (snd r) (dendrogram s)).

(** bang.py:1239-1249: the loop breaks at eight neighbours *)
Fixpoint take_neighbors (k : nat) (ks : list nat) (found : list nat) : list nat :=
  match ks with
  | [] => found
  | j :: t =>
      if is_neighbor (nth k lb b0) (nth j lb b0) then
        let found := found ++ [j] in
        if length found =? 8 then found else take_neighbors k t found
      else take_neighbors k t found
  end.
(** bang.py:1227-1254 __find_block_neighbors *)
Definition find_block_neighbors (k : nat) (unh : list nat) : list nat * list nat :=
  let nb := take_neighbors k (order unh) [] in
  (nb, fold_left (fun u j => remove Nat.eq_dec j u) nb unh).

(** bang.py:1180-1185: the list of neighbours grows while it is iterated *)
Fixpoint expand (fuel : nat) (c : nat) (queue : list nat) (s : ast) : res ast :=
  match queue with
  | [] => Ok s
  | j :: q =>
      match fuel with
      | 0 => Raise OutOfFuel
      | S f =>
          let mk := upd (marks s) j (Some c) in
          let '(nb, unh) := find_block_neighbors j (unhandled s) in
          do dg <- update_dendrogram (dendrogram s) c nb;
          expand f c (q ++ nb) (mkA mk unh dg)
      end
  end.
(** bang.py:1161-1185 __expand_cluster_block *)
Definition expand_cluster_block (k c : nat) (s : ast) : res ast :=
  let mk := upd (marks s) k (Some c) in
  do dg <- update_dendrogram (dendrogram s) c [k];
  let '(nb, unh) := find_block_neighbors k (unhandled s) in
  do dg <- update_dendrogram dg c nb;
  expand (length lb) c nb (mkA mk unh dg).

(** bang.py:1149-1156 *)
Fixpoint allocate (fuel : nat) (current : option nat) (c : nat) (s : ast) : res (nat * ast) :=
  match current with
  | None => Ok (c, s)
  | Some k =>
      if is_sparse (nth k lb b0) then Ok (c, s)
      else match fuel with
           | 0 => Raise OutOfFuel
           | S f =>
               do s <- expand_cluster_block k c s;
               do r <- find_block_center s;
               allocate f (fst r) (S c) (snd r)
           end
  end.

(** list(set(l)); for [store_results], bang.py:1188-1206 *)
Definition as_set (l : list nat) : list nat := order (nodup Nat.eq_dec l).

(** bang.py:1188-1206 __store_clustering_results; [noise] is the attribute before the call *)
Definition store_results (c : nat) (mk : list (option nat)) (noise : list nat) : list (list nat) * list nat :=
  let '(cl, ns) := fold_left (fun acc k => match nth k mk None with
                                          | Some i => (upd (fst acc) i (nth i (fst acc) [] ++ points (nth k lb b0)), snd acc)
                                          | None => (fst acc, snd acc ++ points (nth k lb b0))
                                          end) (seq 0 (length lb)) (repeat [] c, noise) in
  (map as_set cl, as_set ns).
End Allocation.

(** bang.py:1016-1020: attributes set by process() *)
Record bang := mkBang { dir : option directory; clusters : list (list nat); noise : list nat; dendro : list (list nat); leaf_marks : list (option nat) }.
(** bang.py:1014-1020 *)
Definition initial : bang := mkBang None [] [] [] [].

(** bang.py:1117-1135 __validate_arguments, then 1028-1045 process() and 1138-1158 __allocate_clusters on the
    object [self] *)
Definition process (self : bang) : res bang :=
  if length data =? 0 then Raise ValueError else
  if levels <? 1 then Raise ValueError else
  if Qltb density_threshold 0 then Raise ValueError else
  do d <- create_directory;
  let lb := leafs d in
  let unh := filter (fun k => Qltb density_threshold (density (nth k lb b0))) (seq 0 (length lb)) in
  do r <- find_block_center lb (mkA (repeat None (length lb)) unh (dendro self));
  do cs <- allocate lb (S (length lb)) (fst r) 0 (snd r);
  let '(c, s) := cs in
  let '(cl, ns) := store_results lb c (marks s) (noise self) in
  Ok (mkBang (Some d) cl ns (dendrogram s) (marks s)).
End Bang.
