(** Properties of BANG.  [order] is the unknown iteration order of python's sets. *)
From Coq Require Import Relations.
From Verif Require Import Base Small_Model Bang_Model Bang_Proofs.

(** what process() of a new object sees: points of one dimension D >= 1, at least one point, levels >= 1, and a
    density threshold >= 0 (the last three are enforced by the code) *)
Definition valid (data : list point) (D levels : nat) (dthr : Q) : Prop :=
  (forall p, In p data -> length p = D) /\ 1 <= D /\ data <> [] /\ 1 <= levels /\ (0 <= dthr)%Q.

(** [j] numbers the clusters, [length (clusters b)] stands for the noise *)
Definition result (b : bang) (j : nat) : list nat := nth j (clusters b ++ [noise b]) [].

(** a leaf reaches over the edges of another by no more than the size (and 0.01 %) of the other *)
Definition adjacent (D : nat) (b1 b2 : block) : Prop :=
  forall i, i < D -> (Qabs (coord (bmax b2) i - coord (bmax b1) i) <= (coord (bmax b1) i - coord (bmin b1) i) * (10001 # 10000))%Q.

(** ** C34: every point is in a cluster or in the noise; two of them share only points on faces of blocks *)
Theorem C34_bang_covers (order : list nat -> list nat) data D levels dthr athr :
  (forall l, Permutation (order l) l) -> valid data D levels dthr ->
  exists b d, process order data levels dthr athr initial = Ok b /\ dir b = Some d /\
    (forall i, i < length data <-> exists j, j <= length (clusters b) /\ In i (result b j)) /\
    (forall i j j', j < j' -> j' <= length (clusters b) -> In i (result b j) -> In i (result b j') ->
       exists b1 b2, In b1 (leafs d) /\ In b2 (leafs d) /\ inside (nth i data []) b1 /\ inside (nth i data []) b2 /\ on_common_face D (nth i data []) b1 b2).
Proof.
  intros Ho (Hd & HD & Hne & Hl & Ht). destruct (bang_spec order Ho data D levels dthr athr Hd HD Hne Hl Ht) as (b & d & E & Ed & H). exists b, d. split; [exact E|]. split; [exact Ed|]. cbv zeta in H.
  destruct H as (H1 & H2 & H3 & H4 & H5 & H6 & H7 & H8 & H9 & H10 & H11 & H12 & H13).
  assert (R1 : forall j, j < length (clusters b) -> result b j = nth j (clusters b) []) by (intros j Hj; unfold result; apply app_nth1; auto).
  assert (R2 : result b (length (clusters b)) = noise b) by (unfold result; rewrite app_nth2, Nat.sub_diag; auto).
  assert (R : forall i j, j <= length (clusters b) -> (In i (result b j) <-> i < length data /\ exists k, k < length (leafs d) /\ nth k (leaf_marks b) None = (if j <? length (clusters b) then Some j else None) /\ inside (nth i data []) (nth k (leafs d) b0))).
  { intros i j Hj. destruct (Nat.ltb_spec j (length (clusters b))) as [Hlt|Hge]; [rewrite R1 by auto; apply H4; auto|]. replace j with (length (clusters b)) by lia. rewrite R2. apply H6. }
  split.
  - intros i. split.
    + intros Hi. destruct (H10 i Hi) as (k & Hk & Hin). destruct (nth k (leaf_marks b) None) as [j|] eqn:Em.
      * destruct (H2 k j Em) as (_ & Hj & _). exists j. split; [lia|]. apply R; [lia|]. destruct (Nat.ltb_spec j (length (clusters b))); [|lia]. eauto.
      * exists (length (clusters b)). split; [lia|]. apply R; [lia|]. rewrite Nat.ltb_irrefl. eauto.
    + intros (j & Hj & Hi). apply R in Hi; [tauto|auto].
  - intros i j j' Hjj Hj' A B. apply R in A as (Hi & k & Hk & Mk & Ik); [|lia]. apply R in B as (_ & k' & Hk' & Mk' & Ik'); [|auto].
    exists (nth k (leafs d) b0), (nth k' (leafs d) b0). do 2 (split; [apply nth_In; auto|]). split; [auto|]. split; [auto|].
    apply H11; auto; [|apply Hd, nth_In; auto]. intros <-. rewrite Mk in Mk'. destruct (Nat.ltb_spec j (length (clusters b))); [|lia]. destruct (j' <? _); [injection Mk'; lia|discriminate].
Qed.
Print Assumptions C34_bang_covers.

Definition w34 : list point := [[0]; [16]; [3]; [7 # 2]; [4]; [9]; [19 # 2]]%Q.
Example C34_case : valid w34 1 4 0 /\ exists b, process (fun l => l) w34 4 0 1 initial = Ok b /\ clusters b = [[0; 2; 3; 4]; [4; 5; 6]] /\ noise b = [1].
Proof.
  split; [|eexists; split; [vm_compute; reflexivity|split; reflexivity]]. split; [|split; [lia|split; [discriminate|split; [lia|lra]]]].
  intros p H. repeat (destruct H as [<-|H]; [reflexivity|]). destruct H.
Qed.

(** the point on the border of two blocks is in two clusters *)
Theorem C34_disjoint_refuted : exists data D levels dthr athr b i,
  valid data D levels dthr /\ process (fun l => l) data levels dthr athr initial = Ok b /\ In i (nth 0 (clusters b) []) /\ In i (nth 1 (clusters b) []).
Proof.
  exists w34, 1, 4, 0%Q, 1. destruct C34_case as (V & b & E & C & _). exists b, 4. split; [exact V|]. split; [exact E|]. rewrite C. cbn [nth In]. auto 8.
Qed.
Print Assumptions C34_disjoint_refuted.

(** ** C76: clusters are non-empty duplicate-free sets of points of connected blocks; every leaf above both
    thresholds is in a cluster, every block of a cluster is above the density threshold *)
Theorem C76_bang_clusters (order : list nat -> list nat) data D levels dthr athr :
  (forall l, Permutation (order l) l) -> valid data D levels dthr ->
  exists b d (cluster_of : nat -> option nat), process order data levels dthr athr initial = Ok b /\ dir b = Some d /\
    let leaf k := nth k (leafs d) b0 in
    NoDup (noise b) /\
    (forall j, j < length (clusters b) -> nth j (clusters b) [] <> [] /\ NoDup (nth j (clusters b) []) /\
       (forall i, In i (nth j (clusters b) []) <-> i < length data /\ exists k, k < length (leafs d) /\ cluster_of k = Some j /\ inside (nth i data []) (leaf k)) /\
       exists r, cluster_of r = Some j /\ forall k, cluster_of k = Some j -> chain (fun x => cluster_of x = Some j) (fun k1 k2 => adjacent D (leaf k1) (leaf k2)) r k) /\
    (forall k j, cluster_of k = Some j -> k < length (leafs d) /\ j < length (clusters b) /\ (dthr < density data (leaf k))%Q) /\
    (forall k, k < length (leafs d) -> (dthr < density data (leaf k))%Q -> athr < amount data (leaf k) -> cluster_of k <> None).
Proof.
  intros Ho (Hd & HD & Hne & Hl & Ht). destruct (bang_spec order Ho data D levels dthr athr Hd HD Hne Hl Ht) as (b & d & E & Ed & H). exists b, d, (fun k => nth k (leaf_marks b) None). split; [exact E|]. split; [exact Ed|]. cbv zeta in H |- *.
  destruct H as (H1 & H2 & H3 & H4 & H5 & H6 & H7 & H8 & H9 & H10 & H11 & H12 & H13).
  split; [auto|]. split; [|split; [exact H2|]].
  - intros j Hj. destruct (H4 j Hj) as [N I]. destruct (H7 j Hj) as (r & Mr & Sr & Cr). split; [|split; [auto|split; [auto|exists r; split; [auto|]]]].
    + intros En. unfold is_sparse in Sr. apply orb_false_iff in Sr as [_ Sr]. apply Nat.leb_gt in Sr. unfold amount in Sr. destruct (points data (nth r (leafs d) b0)) as [|i t] eqn:Ep; [simpl in Sr; lia|].
      assert (Hi : In i (points data (nth r (leafs d) b0))) by (rewrite Ep; left; auto). apply (points_in data D levels HD Hl) in Hi as [Hi Hin]. assert (X : In i (nth j (clusters b) [])) by (apply I; split; auto; exists r; split; [apply (H2 r j Mr)|auto]). rewrite En in X. exact X.
    + intros k Mk. apply (chain_mono (fun x => nth x (leaf_marks b) None = Some j) _ (nbr (leafs d))); [auto| |auto]. intros x y Hy Hn. unfold adjacent. apply (neighbor_spec D levels HD Hl); [|exact Hn]. apply H13, (H2 y j Hy).
  - intros k Hk Dk Ak. apply H3; [auto|]. unfold is_sparse. apply orb_false_iff. split; [|apply Nat.leb_gt; auto].
    destruct (Qle_bool _ _) eqn:Eq; auto. apply Qle_bool_iff in Eq. lra.
Qed.
Print Assumptions C76_bang_clusters.

Example C76_case : exists b d, process (fun l => l) w34 4 0 1 initial = Ok b /\ dir b = Some d /\
  map (fun x => (bmin x, bmax x)) (leafs d) <> [] /\ leaf_marks b = [None; Some 1; None; Some 0; Some 1; Some 0].
Proof. eexists _, _. split; [vm_compute; reflexivity|]. split; [reflexivity|]. split; [discriminate|]. vm_compute. reflexivity. Qed.

(** ** C77: the dendrogram lists the blocks of every cluster once, but not by decreasing density *)
Theorem C77_bang_dendrogram (order : list nat -> list nat) data D levels dthr athr :
  (forall l, Permutation (order l) l) -> valid data D levels dthr ->
  exists b d, process order data levels dthr athr initial = Ok b /\ dir b = Some d /\
    length (dendro b) = length (clusters b) /\
    (forall j, j < length (dendro b) -> NoDup (nth j (dendro b) []) /\
       forall i, In i (nth j (clusters b) []) <-> i < length data /\ exists k, In k (nth j (dendro b) []) /\ k < length (leafs d) /\ inside (nth i data []) (nth k (leafs d) b0)) /\
    (forall j j' k, j < j' -> j' < length (dendro b) -> In k (nth j (dendro b) []) -> ~ In k (nth j' (dendro b) [])).
Proof.
  intros Ho (Hd & HD & Hne & Hl & Ht). destruct (bang_spec order Ho data D levels dthr athr Hd HD Hne Hl Ht) as (b & d & E & Ed & H). exists b, d. split; [exact E|]. split; [exact Ed|]. cbv zeta in H.
  destruct H as (H1 & H2 & H3 & H4 & H5 & H6 & H7 & H8 & H9 & H10 & H11 & H12 & H13). split; [auto|]. rewrite H8. split.
  - intros j Hj. destruct (H9 j Hj) as [N I]. split; [auto|]. intros i. rewrite (proj2 (H4 j Hj) i). split; intros (Hi & k & A & B & C); (split; [auto|]); exists k; rewrite I in *; auto.
  - intros j j' k Hjj Hj' A B. apply (H9 j) in A; [|lia]. apply (H9 j') in B; [|lia]. rewrite A in B. injection B. lia.
Qed.
Print Assumptions C77_bang_dendrogram.

(** every batch of blocks is appended by decreasing density *)
Theorem C77_batches_sorted data lb dg c blocks dg' :
  c <= length dg -> length dg <= S c -> update_dendrogram data lb dg c blocks = Ok dg' ->
  (forall j, j <> c -> nth j dg' [] = nth j dg []) /\
  exists batch, nth c dg' [] = nth c dg [] ++ batch /\ Permutation batch blocks /\
    StronglySorted (fun x y => (density data (nth y lb b0) <= density data (nth x lb b0))%Q) batch.
Proof.
  intros H1 H2 E. destruct (update_dendrogram_spec data lb dg c blocks H1 H2) as (dg2 & E2 & L2 & N2 & _). rewrite E in E2. apply Ok_inj in E2. subst dg2.
  split; [exact N2|]. unfold update_dendrogram in E.
  set (dg1 := if length dg <=? c then dg ++ [[]] else dg) in E. destruct (Nat.leb_spec (length dg1) c) as [|Hl]; [discriminate|]. apply Ok_inj in E. subst dg'.
  exists (sort_key (fun k => (- density data (nth k lb b0))%Q) blocks). rewrite upd_nth_eq by auto. split; [|split].
  - f_equal. unfold dg1. destruct (Nat.leb_spec (length dg) c); auto. rewrite app_nth2, (nth_overflow dg) by lia. destruct (c - length dg) as [|[|]]; reflexivity.
  - apply sort_key_perm.
  - pose proof (sort_key_sorted (fun k => (- density data (nth k lb b0))%Q) blocks) as S. clear -S.
    induction S as [|x l S IH F]; constructor; auto. eapply Forall_impl; [|exact F]. intros y Hy. unfold key_le in Hy. lra.
Qed.
Print Assumptions C77_batches_sorted.

Definition w77 : list point := [[0]; [1 # 4]; [1 # 2]; [3 # 4]; [3 # 2]; [9 # 4]; [5 # 2]; [4]]%Q.
Lemma w77_valid : valid w77 1 3 0.
Proof.
  split; [|split; [lia|split; [discriminate|split; [lia|lra]]]]. intros p H. repeat (destruct H as [<-|H]; [reflexivity|]). destruct H.
Qed.
(** densities of the blocks of one cluster: 4, 1, 2, 1 *)
Theorem C77_dendrogram_order_refuted : exists data D levels dthr athr b d j k,
  valid data D levels dthr /\ process (fun l => l) data levels dthr athr initial = Ok b /\ dir b = Some d /\
  S k < length (nth j (dendro b) []) /\
  (density data (nth (nth k (nth j (dendro b) []) 0%nat) (leafs d) b0) < density data (nth (nth (S k) (nth j (dendro b) []) 0%nat) (leafs d) b0))%Q.
Proof.
  exists w77, 1, 3, 0%Q, 0. eexists _, _, 0, 1. split; [exact w77_valid|]. split; [vm_compute; reflexivity|]. split; [reflexivity|]. split; [vm_compute; lia|]. vm_compute. reflexivity.
Qed.
Print Assumptions C77_dendrogram_order_refuted.

(** ** C49: a second process() of the same object repeats every entry of the dendrogram *)
Theorem C49_bang_reprocess_refuted : exists data D levels dthr athr b b',
  valid data D levels dthr /\ process (fun l => l) data levels dthr athr initial = Ok b /\ process (fun l => l) data levels dthr athr b = Ok b' /\
  dendro b = [[3; 0; 2; 1]] /\ dendro b' = [[3; 0; 2; 1; 3; 0; 2; 1]] /\ clusters b' = clusters b /\ noise b' = noise b.
Proof.
  exists w77, 1, 3, 0%Q, 0. eexists _, _. split; [exact w77_valid|]. split; [vm_compute; reflexivity|]. split; [vm_compute; reflexivity|]. split; [reflexivity|]. split; [reflexivity|]. split; reflexivity.
Qed.
Print Assumptions C49_bang_reprocess_refuted.

(** ** C78: neighbouring dense blocks are in one cluster - false, as only eight neighbours are taken *)
Definition w78 : list point :=
  [[0;0;0]; [4;4;4]; [3#2;3#2;3#2]; [5#4;3#2;3#2]; [7#4;3#2;3#2]; [5#2;5#2;5#2]; [5#2;9#4;5#2];
   [1#2;1#2;3#2]; [1#2;1#2;5#2]; [1#2;3#2;1#2]; [1#2;3#2;3#2]; [1#2;3#2;5#2]; [1#2;5#2;1#2]; [1#2;5#2;3#2]; [1#2;5#2;5#2]]%Q.
Theorem C78_neighbours_refuted : exists data D levels dthr athr b d k k' j j',
  valid data D levels dthr /\ process (fun l => l) data levels dthr athr initial = Ok b /\ dir b = Some d /\
  k < length (leafs d) /\ k' < length (leafs d) /\
  adjacent D (nth k (leafs d) b0) (nth k' (leafs d) b0) /\ adjacent D (nth k' (leafs d) b0) (nth k (leafs d) b0) /\
  nth k (leaf_marks b) None = Some j /\ nth k' (leaf_marks b) None = Some j' /\ j <> j'.
Proof.
  exists w78, 3, 7, 0%Q, 0. eexists _, _, 31, 30, 0, 1. split.
  { split; [|split; [lia|split; [discriminate|split; [lia|lra]]]]. intros p H. repeat (destruct H as [<-|H]; [reflexivity|]). destruct H. }
  split; [vm_compute; reflexivity|]. split; [reflexivity|]. split; [vm_compute; lia|]. split; [vm_compute; lia|].
  split; [|split; [|split; [reflexivity|split; [reflexivity|lia]]]]; intros i Hi; (destruct i as [|[|[|i]]]; [| | |lia]); vm_compute; discriminate.
Qed.
Print Assumptions C78_neighbours_refuted.

(** ** C79: the height of the directory *)
Theorem C79_bang_height (order : list nat -> list nat) data D levels dthr athr :
  (forall l, Permutation (order l) l) -> valid data D levels dthr ->
  exists b d, process order data levels dthr athr initial = Ok b /\ dir b = Some d /\ length (level_blocks d) = Nat.max 1 (levels - 1).
Proof.
  intros Ho (Hd & HD & Hne & Hl & Ht). destruct (bang_spec order Ho data D levels dthr athr Hd HD Hne Hl Ht) as (b & d & E & Ed & H). exists b, d. cbv zeta in H. intuition.
Qed.
Print Assumptions C79_bang_height.
Theorem C79_height_is_levels_refuted : exists data D levels dthr athr b d,
  valid data D levels dthr /\ process (fun l => l) data levels dthr athr initial = Ok b /\ dir b = Some d /\ levels = 3 /\ length (level_blocks d) = 2.
Proof.
  exists w77, 1, 3, 0%Q, 0. eexists _, _. split; [exact w77_valid|]. split; [vm_compute; reflexivity|]. split; [reflexivity|]. split; reflexivity.
Qed.
Print Assumptions C79_height_is_levels_refuted.
