(** C23, C24, C25, C72, C73, C74, C75: CF-tree and BIRCH. *)
From Verif Require Import Base Kmeans_Model Kmeans_Proofs Aggl_Model Cftree_Model Cftree_Proofs Birch_Model Birch_Proofs Birch_Total.

(** C23, C24: after the insertion of any sequence of entries (no object of the caller twice) the root
    feature is the sum of what was inserted, the features of all nodes are the sums of what is below, the
    tree is balanced and within its limits, the counters are true, the list of leaves names every leaf
    once, and every entry of a leaf stands for a group of the inserted entries, these groups together
    being all of them. *)
Theorem C23_cftree_conserves :
  forall D m branch max_entries threshold es t r, 1 <= max_entries ->
  (forall e, In e es -> length (lsum e) = D) -> NoDup (flat_map tagl es) ->
  insert_all m branch max_entries threshold es empty_tree = Ok t -> root t = Some r ->
  sums D (feat r) es /\ conserving D r /\
  exists gs, Forall2 (stands_for D threshold) (leaf_entries r) gs /\ Permutation (concat gs) es.
Proof.
  intros D m branch maxe thr es t r Hm Hd Hn E Er.
  pose proof (insert_all_spec D m branch maxe thr Hm es empty_tree [] (tinv_empty _ _ _ _) Hd Hn) as H. rewrite E in H.
  destruct (t_tree _ _ _ _ _ _ H r Er) as (G & Hs & _ & _ & _ & _ & _ & _ & Hg). split; [exact Hs|]. split; [eapply good_conserving; eauto|exact Hg].
Qed.

(** a branching factor below two counts as two *)
Lemma bf_max branch : bf branch = Nat.max 2 branch.
Proof. unfold bf. destruct (Nat.ltb_spec branch 2); lia. Qed.

Theorem C24_cftree_structure :
  forall D m branch max_entries threshold es t, 1 <= max_entries ->
  (forall e, In e es -> length (lsum e) = D) -> NoDup (flat_map tagl es) ->
  insert_all m branch max_entries threshold es empty_tree = Ok t ->
  match root t with
  | None => es = []
  | Some r =>
      balanced (Nat.max 2 branch) max_entries (height (stats t)) r /\
      amount_nodes (stats t) = count_nodes r /\ amount_entries (stats t) = length (leaf_entries r) /\
      Permutation (leafes (stats t)) (leaf_ids r) /\ NoDup (leaf_ids r)
  end.
Proof.
  intros D m branch maxe thr es t Hm Hd Hn E.
  pose proof (insert_all_spec D m branch maxe thr Hm es empty_tree [] (tinv_empty _ _ _ _) Hd Hn) as H. rewrite E in H.
  destruct (root t) as [r|] eqn:Er; [|apply (t_empty _ _ _ _ _ _ H); auto].
  destruct (t_tree _ _ _ _ _ _ H r Er) as (G & _ & H1 & H2 & H3 & H4 & _). split; [rewrite <- bf_max; eapply good_balanced; eauto|]. auto.
Qed.

(** C23: an object inserted twice by the caller is lost when its leaf is split. *)
Theorem C23_same_object_refuted :
  exists e e' t r, insert_all CentroidEuclidean 2 2 0 [e; e; e'] empty_tree = Ok t /\ root t = Some r /\
    num e = 2 /\ num e' = 1 /\ num (feat r) = 5 /\ list_sum (map num (leaf_entries r)) = 3.
Proof.
  exists (Ent (Some 0) 2 [2%Q] 4%Q), (Ent (Some 1) 1 [10%Q] 100%Q). eexists. eexists. split; [vm_compute; reflexivity|]. split; [reflexivity|]. vm_compute. auto.
Qed.

(** C24: max_entries = 0 is accepted and then not respected. *)
Theorem C24_zero_max_entries_refuted :
  exists t r, insert_all CentroidEuclidean 2 0 0 [point_entry [0%Q]] empty_tree = Ok t /\ root t = Some r /\ length (leaf_entries r) = 1.
Proof. eexists. eexists. split; [vm_compute; reflexivity|]. split; reflexivity. Qed.

(** C25: BIRCH. *)
Theorem C25_birch_partition :
  forall data D number m branch max_entries limit multiplier diameter b,
  uniform D data -> data <> [] -> 1 <= number -> 1 <= limit -> 1 <= max_entries ->
  birch data number m branch max_entries limit multiplier diameter = Ok b ->
  partitions (length data) (clusters b) /\ length (clusters b) <= number /\
  grouped D (features b) data /\ partitions (length (features b)) (cf_clusters b) /\
  follows data (map centroid (features b)) (cf_clusters b) (clusters b).
Proof.
  intros data D number m branch maxe limit mult diameter b Hu Hne Hn Hl Hm E. pose proof (birch_spec data D number m branch maxe limit mult Hu Hm diameter Hne Hn Hl) as H. rewrite E in H.
  destruct H as (H1 & H2 & _ & H4 & H5 & _ & H7). split; auto. split; [rewrite H5; lia|]. auto.
Qed.

(** C72: the statistics of features are those of the points they stand for. *)
Theorem C72_feature_statistics :
  forall D e ps, describes D e ps -> uniform D ps -> ps <> [] ->
  is_mean D ps (centroid e) /\
  (numq e * radius_sq e == spread ps (centroid e))%Q /\ (diameter_part e == cross ps ps)%Q.
Proof.
  intros D e ps He Hu Hne. split; [apply centroid_spec; auto|]. split; [eapply radius_spec; eauto|eapply diameter_spec; eauto].
Qed.

Theorem C72_feature_distances :
  forall D a ps b qs, describes D a ps -> describes D b qs -> uniform D ps -> uniform D qs -> ps <> [] -> qs <> [] ->
  (numq a * numq b * inter_sq a b == cross ps qs)%Q /\
  ((numq a + numq b) * (numq a + numq b - 1) * intra_sq a b == cross (ps ++ qs) (ps ++ qs))%Q /\
  (variance_increase a b == spread (ps ++ qs) (centroid (fadd a b)) - spread ps (centroid a) - spread qs (centroid b))%Q /\
  describes D (fadd a b) (ps ++ qs).
Proof.
  intros D a ps b qs Ha Hb H1 H2 N1 N2. split; [eapply inter_spec; eauto|]. split; [eapply intra_spec; eauto|]. split; [eapply variance_spec; eauto|apply describes_fadd; auto].
Qed.

(** C72: the diameter is the average over the ordered pairs of points, or zero for points that close. *)
Theorem C72_feature_diameter :
  forall D e ps, describes D e ps -> uniform D ps -> 2 <= length ps ->
  let n := inject_Z (Z.of_nat (length ps)) in
  ((1 # 1000000000) <= cross ps ps -> diameter_sq e == cross ps ps / (n * (n - 1)))%Q /\
  (cross ps ps < (1 # 1000000000) -> diameter_sq e == 0)%Q.
Proof.
  intros D e ps He Hu Hl n. pose proof (diameter_spec D e ps He Hu) as E. pose proof (describes_num D e ps He) as En. fold n in En. unfold diameter_sq.
  destruct (Qltb (diameter_part e) (1 # 1000000000)) eqn:Eq; [apply Qltb_true in Eq|apply Qltb_false in Eq]; rewrite E in Eq; split; intros H; try lra; try reflexivity.
  rewrite E, En. reflexivity.
Qed.

(** C72: the diameter is reported as zero when the points are close together. *)
Theorem C72_small_diameter_refuted :
  exists ps e, describes 1 e ps /\ diameter_sq e = 0%Q /\ ~ (cross ps ps == 0)%Q.
Proof.
  exists [[0%Q]; [(1 # 100000)%Q]], (fadd (point_entry [0%Q]) (point_entry [(1 # 100000)%Q])). split; [|split; [vm_compute; reflexivity|vm_compute; discriminate]].
  apply (describes_fadd 1 _ [[0%Q]] _ [[(1 # 100000)%Q]]); apply point_describes; reflexivity.
Qed.

(** C73: points of one dimension are always accepted when the threshold is not below sqrt(1e-9); BIRCH with
    such a diameter returns a result. *)
Theorem C73_insert_points_total :
  forall D m branch max_entries threshold ps,
  1 <= max_entries -> (0 <= threshold)%Q -> ((1 # 1000000000) <= threshold * threshold)%Q -> uniform D ps ->
  exists t, insert_all m branch max_entries threshold (map point_entry ps) empty_tree = Ok t.
Proof.
  intros D m branch maxe thr ps Hm H1 H2 Hu. apply (insert_points_total D m branch maxe thr Hm H1 H2 ps [] empty_tree (tinv_empty _ _ _ _)); auto. intros p [].
Qed.
Theorem C73_birch_total :
  forall data D number m branch max_entries limit multiplier diameter,
  uniform D data -> data <> [] -> 1 <= number -> 1 <= limit -> 1 <= max_entries -> (1 <= multiplier)%Q ->
  (0 <= diameter)%Q -> ((1 # 1000000000) <= diameter * diameter)%Q ->
  exists b, birch data number m branch max_entries limit multiplier diameter = Ok b.
Proof. intros data D number m branch maxe limit mult diameter Hu Hne Hn Hl Hm Hx H1 H2. apply (birch_total data D); auto. split; auto. Qed.
(** With a smaller threshold insertion fails on ordinary points. *)
Theorem C73_zero_threshold_refuted :
  exists data, uniform 1 data /\
    insert_all CentroidEuclidean 2 1 0 (map point_entry data) empty_tree = Raise AttributeError /\
    birch data 1 CentroidEuclidean 2 1 500 (3 # 2) 0 = Raise AttributeError.
Proof.
  exists [[(-1 # 100000)%Q]; [(1 # 100000)%Q]; [0%Q]]. split; [intros p [<-|[<-|[<-|[]]]]; reflexivity|]. split; vm_compute; reflexivity.
Qed.

(** C74: entry_size_limit is exceeded after a rebuild. *)
Theorem C74_entry_limit_refuted :
  exists data limit b, birch data 3 CentroidEuclidean 2 2 limit (3 # 2) (1 # 2) = Ok b /\ limit < length (features b).
Proof. exists [[0%Q]; [100%Q]; [200%Q]], 1. eexists. split; [vm_compute; reflexivity|]. vm_compute. lia. Qed.

(** C75: a reported cluster can be empty. *)
Theorem C75_empty_cluster_refuted :
  exists data b, birch data 3 CentroidEuclidean 2 1 500 (3 # 2) 4 = Ok b /\ ~ no_empty (clusters b).
Proof.
  exists [[8%Q]; [0%Q]; [7%Q]; [0%Q]]. eexists. split; [vm_compute; reflexivity|]. intros H. inversion H as [|? ? _ H1]; subst. inversion H1 as [|? ? _ H2]; subst. inversion H2 as [|? ? H3 _]; subst. apply H3. reflexivity.
Qed.

(** *** Concrete cases *)
Definition ex_points : list point := [[0%Q]; [1%Q]; [10%Q]; [11%Q]; [20%Q]; [21%Q]; [5%Q]].
Example C23_ex : exists t r, insert_all AverageInter 2 1 2 (map point_entry ex_points) empty_tree = Ok t /\ root t = Some r /\
  height (stats t) = 5 /\ length (leaf_entries r) = 6 /\ num (feat r) = 7 /\ NoDup (flat_map tagl (map point_entry ex_points)).
Proof. eexists. eexists. split; [vm_compute; reflexivity|]. split; [reflexivity|]. vm_compute. repeat split; constructor. Qed.
Example C25_ex : exists b, birch ex_points 3 CentroidEuclidean 2 2 500 (3 # 2) 2 = Ok b /\ clusters b = [[0; 1; 6]; [4; 5]; [2; 3]].
Proof. eexists. split; [vm_compute; reflexivity|]. reflexivity. Qed.
Example C73_ex : exists b, birch [[0%Q]; [0%Q]; [1%Q]; [1%Q]; [0%Q]] 2 AverageIntra 2 1 1 1 (1 # 100) = Ok b /\ clusters b = [[0; 1; 4]; [2; 3]].
Proof. eexists. split; [vm_compute; reflexivity|]. reflexivity. Qed.
Example C72_ex : describes 1 (fadd (point_entry [1%Q]) (point_entry [3%Q])) [[1%Q]; [3%Q]] /\
  (radius_sq (fadd (point_entry [1%Q]) (point_entry [3%Q])) == 1)%Q /\ (diameter_sq (fadd (point_entry [1%Q]) (point_entry [3%Q])) == 4)%Q.
Proof. split; [apply (describes_fadd 1 _ [[1%Q]] _ [[3%Q]]); apply point_describes; reflexivity|]. split; vm_compute; reflexivity. Qed.

Print Assumptions C23_cftree_conserves.
Print Assumptions C23_same_object_refuted.
Print Assumptions C24_cftree_structure.
Print Assumptions C24_zero_max_entries_refuted.
Print Assumptions C25_birch_partition.
Print Assumptions C72_feature_statistics.
Print Assumptions C72_feature_distances.
Print Assumptions C72_feature_diameter.
Print Assumptions C72_small_diameter_refuted.
Print Assumptions C73_insert_points_total.
Print Assumptions C73_birch_total.
Print Assumptions C73_zero_threshold_refuted.
Print Assumptions C74_entry_limit_refuted.
Print Assumptions C75_empty_cluster_refuted.
