(** C266: BANG gives the same clusters, in the same sequence, the same noise, blocks and dendrogram whatever the
    order of the points, and also when every point is given [m] times and both thresholds are multiplied by [m]. *)
From Verif Require Import Base Small_Model Small_Proofs Kmeans_Model Kmeans_Proofs Scaled_Proofs Unit_Props Reorder_Props Clique_Model Cliqorder_Props Bang_Model Bang_Proofs Bang_Props.
Open Scope nat_scope.

(** ** specification: clusters one by one and noise have the copies of the same points; the leaf blocks are the
    same boxes in the same sequence, the dendrogram names the same leafs *)
Definition same_corner (p p' : point) : Prop := length p' = length p /\ forall i, (coord p' i == coord p i)%Q.
Definition same_block (b b' : block) : Prop :=
  same_corner (bmax b) (bmax b') /\ same_corner (bmin b) (bmin b') /\ region b' = region b /\ level b' = level b.
Definition same_bang (m : nat) (ord : list nat) (b b' : bang) : Prop :=
  Forall2 (same_members m ord) (Bang_Model.clusters b) (Bang_Model.clusters b') /\ same_members m ord (Bang_Model.noise b) (Bang_Model.noise b') /\ dendro b' = dendro b /\
  match dir b, dir b' with Some d, Some d' => Forall2 same_block (leafs d) (leafs d') | _, _ => False end.

(** ** the same boxes *)
Lemma corner_refl p : same_corner p p.
Proof. split; [reflexivity|]. intro i. reflexivity. Qed.
Lemma coord_out p i : length p <= i -> coord p i = 0%Q.
Proof. intro H. apply nth_overflow, H. Qed.
Lemma corner_upd p p' d v v' : same_corner p p' -> (v' == v)%Q -> same_corner (upd p d v) (upd p' d v').
Proof.
  intros (H1 & H2) Hv. split; [now rewrite !upd_length|]. intro i. destruct (Nat.lt_ge_cases d (length p)) as [L|L].
  - rewrite !coord_upd by (rewrite ?H1; exact L). destruct (d =? i); [exact Hv|apply H2].
  - destruct (Nat.lt_ge_cases i (length p)) as [Li|Li]; [|rewrite !coord_out by (rewrite upd_length, ?H1; exact Li); reflexivity].
    unfold coord. rewrite !upd_nth_neq by lia. apply H2.
Qed.
Lemma Qle_bool_same x x' y y' : (x == x')%Q -> (y == y')%Q -> Qle_bool x y = Qle_bool x' y'.
Proof. intros H1 H2. now rewrite H1, H2. Qed.

Lemma side_same b b' i : same_block b b' -> (side b' i == side b i)%Q.
Proof. intros ((_ & H1) & (_ & H2) & _). unfold side. rewrite H1, H2. reflexivity. Qed.
Lemma contains_same b b' p : same_block b b' -> Bang_Model.contains b' p = Bang_Model.contains b p.
Proof.
  intros ((_ & H1) & (_ & H2) & _). unfold Bang_Model.contains. induction (seq 0 (length p)) as [|i l IH]; cbn [forallb]; [reflexivity|]. rewrite IH. f_equal. f_equal. f_equal; apply Qltb_same; auto; reflexivity.
Qed.
Lemma volume_fold (s s' : nat -> Q) : (forall i, (s' i == s i)%Q) -> forall l v v', (v' == v)%Q ->
  (fold_left (fun v i => if Qeq_bool (s' i) 0 then v else if Qeq_bool v 0 then s' i else (v * s' i)%Q) l v' ==
   fold_left (fun v i => if Qeq_bool (s i) 0 then v else if Qeq_bool v 0 then s i else (v * s i)%Q) l v)%Q.
Proof.
  intros H l. induction l as [|i l IH]; intros v v' E; cbn [fold_left]; [exact E|]. apply IH. assert (Z : forall x y, (x == y)%Q -> Qeq_bool x 0 = Qeq_bool y 0) by (intros x y W; now rewrite W).
  rewrite (Z _ _ (H i)), (Z _ _ E). destruct (Qeq_bool (s i) 0); [exact E|]. destruct (Qeq_bool v 0); [apply H|]. rewrite E, (H i). reflexivity.
Qed.
Lemma volume_same b b' : same_block b b' -> (volume b' == volume b)%Q.
Proof. intro H. unfold volume. destruct (H) as ((L & _) & _). unfold point in *. rewrite L. apply volume_fold; [intro i; now apply side_same|reflexivity]. Qed.
Lemma split_same b b' d : same_block b b' -> same_block (fst (split b d)) (fst (split b' d)) /\ same_block (snd (split b d)) (snd (split b' d)).
Proof.
  intros (H1 & H2 & H3 & H4). unfold split. cbn [fst snd].
  assert (E : ((coord (bmax b') d + coord (bmin b') d) / 2 == (coord (bmax b) d + coord (bmin b) d) / 2)%Q) by (rewrite (proj2 H1), (proj2 H2); reflexivity).
  split; repeat split; cbn [bmax bmin region level]; try apply corner_upd; auto; try apply H1; try apply H2; rewrite ?H3, ?H4; auto.
Qed.
Lemma is_neighbor_same b b' c c' : same_block b b' -> same_block c c' -> is_neighbor b' c' = is_neighbor b c.
Proof.
  intros H Hc. unfold is_neighbor. destruct (Hc) as ((L & C) & _). destruct (H) as ((_ & B) & _). unfold point in *. rewrite L. f_equal. f_equal. apply filter_ext. intro i.
  apply Qle_bool_same; [now rewrite (C i), (B i)|now rewrite (side_same b b' i H)].
Qed.

(** sorting related lists by keys that compare alike *)
Lemma sort_both {A B} (R : A -> B -> Prop) (key : A -> Q) (key' : B -> Q) l l' :
  (forall x y x' y', R x x' -> R y y' -> Qle_bool (key' x') (key' y') = Qle_bool (key x) (key y)) -> Forall2 R l l' -> Forall2 R (sort_key key l) (sort_key key' l').
Proof.
  intros Hk H. unfold sort_key. induction H as [|x x' l l' Hx Hl IH]; cbn [fold_right]; [constructor|].
  induction IH as [|y y' t t' Hy Ht IH2]; cbn [ins_key]; [repeat constructor; exact Hx|]. rewrite (Hk x y x' y' Hx Hy). destruct (Qle_bool (key x) (key y)); repeat constructor; auto.
Qed.

Section Order.
Variable order : list nat -> list nat.
Variables (data : list point) (m : nat) (ord : list nat) (D levels athr : nat) (dthr : Q).
Hypothesis order_perm : forall l, Permutation (order l) l.
Hypothesis m_pos : 0 < m.
Hypothesis Hord : copies m (length data) ord.
Hypothesis Hdim : forall p, In p data -> length p = D.
Hypothesis Hne : data <> [].
Notation data' := (pick data ord).
Notation same := (same_members m ord).
Notation mq := (inject_Z (Z.of_nat m)).

Lemma mq_pos : (0 < mq)%Q.
Proof. clear - m_pos. unfold Qlt, inject_Z. cbn. lia. Qed.

(** a list of all the points with some property of the original point *)
Lemma filtered (P P' : nat -> bool) : (forall i, i < length ord -> P' i = P (nth i ord 0)) -> same (filter P (seq 0 (length data))) (filter P' (seq 0 (length ord))).
Proof.
  intro E. assert (F : filter P' (seq 0 (length ord)) = filter (fun i => P (nth i ord 0)) (seq 0 (length ord))) by (apply filter_ext_in; intros i Hi; apply in_seq in Hi; apply E; lia).
  unfold same_members. rewrite F, (filter_through (fun i => nth i ord 0) P), positions, <- filter_concat_repeat. apply perm_filter, Hord.
Qed.
Lemma data_length : length data' = length ord.
Proof. unfold pick. apply map_length. Qed.
Lemma points_in_step b b' : same_block b b' -> forall i, In i (points data' b') <-> i < length ord /\ In (nth i ord 0) (points data b).
Proof.
  intros H i. unfold points. rewrite data_length, !filter_In, !in_seq. split.
  - intros (Hi & E). split; [lia|]. rewrite (pick_nth data ord i) in E by lia. rewrite (contains_same b b' _ H) in E. split; [|exact E].
    assert (nth i ord 0 < length data) by (eapply ord_bound; [eassumption..|apply nth_In; lia]). lia.
  - intros (Hi & _ & E). split; [lia|]. rewrite (pick_nth data ord i) by exact Hi. now rewrite (contains_same b b' _ H).
Qed.
Lemma amount_both b b' : same_block b b' -> amount data' b' = m * amount data b.
Proof.
  intro H. unfold amount. apply members_length with (ord := ord). unfold points. rewrite data_length. apply filtered. intros i Hi. rewrite (pick_nth data ord i) by exact Hi. apply contains_same, H.
Qed.
Lemma density_both b b' : same_block b b' -> (density data' b' == mq * density data b)%Q.
Proof.
  intro H. unfold density. rewrite (volume_same b b' H). destruct (Qeq_bool (volume b) 0) eqn:E; [ring|]. apply Qeq_bool_neq in E. rewrite (amount_both b b' H), Nat2Z.inj_mul, inject_Z_mult, (volume_same b b' H). field. exact E.
Qed.
Lemma scaled_le x y x' y' : (x' == mq * x)%Q -> (y' == mq * y)%Q -> Qle_bool x' y' = Qle_bool x y.
Proof.
  intros H1 H2. pose proof mq_pos as M. rewrite (Qle_bool_same _ _ _ _ H1 H2). destruct (Qle_bool x y) eqn:E.
  - apply Qle_bool_iff in E. apply Qle_bool_iff. clear - E M. nra.
  - destruct (Qle_bool (mq * x) (mq * y)) eqn:E2; [|reflexivity]. apply Qle_bool_iff in E2. rewrite <- E. symmetry. apply Qle_bool_iff. clear - E2 M. nra.
Qed.
Lemma is_sparse_both b b' : same_block b b' -> is_sparse data' (mq * dthr) (m * athr) b' = is_sparse data dthr athr b.
Proof.
  intro H. unfold is_sparse. rewrite (scaled_le (density data b) dthr); [|now apply density_both|reflexivity]. f_equal. rewrite (amount_both b b' H).
  clear - m_pos. destruct (Nat.leb_spec (m * amount data b) (m * athr)), (Nat.leb_spec (amount data b) athr); auto; nia.
Qed.
Lemma below_both b b' : same_block b b' -> Qle_bool (density data' b') (mq * dthr) = Qle_bool (density data b) dthr.
Proof. intro H. apply scaled_le; [now apply density_both|reflexivity]. Qed.
Lemma above_both b b' : same_block b b' -> Qltb (mq * dthr) (density data' b') = Qltb dthr (density data b).
Proof. intro H. unfold Qltb. now rewrite (below_both b b' H). Qed.

(** ** directory *)
Notation blocks := (Forall2 same_block).
Lemma split_blocks_both d prev prev' : blocks prev prev' -> forall lf lf' cur cur', blocks lf lf' -> blocks cur cur' ->
  let r := split_blocks data dthr athr d prev lf cur in let r' := split_blocks data' (mq * dthr) (m * athr) d prev' lf' cur' in blocks (fst r) (fst r') /\ blocks (snd r) (snd r').
Proof.
  induction 1 as [|b b' t t' H Ht IH]; intros lf lf' cur cur' Hl Hc; cbn [split_blocks]; [split; assumption|]. rewrite (is_sparse_both b b' H). destruct (is_sparse data dthr athr b).
  - apply IH; [apply Forall2_app; [exact Hl|constructor; [exact H|constructor]]|exact Hc].
  - destruct (split_same b b' d H). apply IH; [exact Hl|]. apply Forall2_app; [exact Hc|]. constructor; [assumption|]. constructor; [assumption|constructor].
Qed.
Definition same_dir (d d' : directory) : Prop := blocks (leafs d) (leafs d') /\ Forall2 blocks (level_blocks d) (level_blocks d') /\ size d' = size d.
Lemma blocks_length l l' : blocks l l' -> length l' = length l.
Proof. induction 1; cbn [length]; congruence. Qed.
Lemma store_level_both bs bs' d d' : blocks bs bs' -> same_dir d d' -> same_dir (store_level bs d) (store_level bs' d').
Proof.
  intros Hb (H1 & H2 & H3). unfold store_level. split; [exact H1|]. cbn [level_blocks size]. split; [apply Forall2_app; [exact H2|constructor; [exact Hb|constructor]]|]. now rewrite H3, (blocks_length _ _ Hb).
Qed.
Lemma build_levels_both dims levs : forall prev prev' d d', blocks prev prev' -> same_dir d d' ->
  same_dir (build_levels data levels dthr athr dims levs prev d) (build_levels data' levels (mq * dthr) (m * athr) dims levs prev' d').
Proof.
  induction levs as [|lev t IH]; intros prev prev' d d' Hp Hd; cbn [build_levels]; [exact Hd|]. unfold build_level. destruct Hd as (H1 & H2 & H3).
  pose proof (split_blocks_both (lev mod dims) prev prev' Hp (leafs d) (leafs d') [] [] H1 (Forall2_nil _)) as W. cbn zeta in W.
  destruct (split_blocks data dthr athr (lev mod dims) prev (leafs d) []) as (lf, cur), (split_blocks data' (mq * dthr) (m * athr) (lev mod dims) prev' (leafs d') []) as (lf', cur').
  destruct W as (W1 & W2). cbn [fst snd] in W1, W2. apply IH; [exact W2|]. apply store_level_both; [exact W2|]. split; [|split; assumption]. cbn [leafs]. destruct (lev =? levels - 1); [now apply Forall2_app|exact W1].
Qed.
Lemma both_ways p : In p data' <-> In p data.
Proof. eapply points_both; eassumption. Qed.
Lemma ne' : data' <> [].
Proof. eapply pick_nonempty; eassumption. Qed.
Lemma root_both : exists c c', data_corners data None = Ok c /\ data_corners data' None = Ok c' /\ same_corner (fst c) (fst c') /\ same_corner (snd c) (snd c').
Proof.
  destruct (data_corners_spec data None D Hne Hdim ltac:(discriminate)) as (c & E & L1 & L2 & T).
  destruct (data_corners_spec data' None D ne') as (c' & E' & L1' & L2' & T'); [intros p Hp; apply Hdim, both_ways, Hp|discriminate|].
  exists c, c'. split; [exact E|]. split; [exact E'|]. unfold same_corner. split; (split; [etransitivity; [eassumption|symmetry; assumption]|]); intro i; destruct (Nat.lt_ge_cases i D) as [Hi|Hi]; try (rewrite !coord_out by (unfold point in *; lia); reflexivity).
  all: destruct (T i Hi) as ((a & Ha & Ea) & (b & Hb & Eb) & Hall), (T' i Hi) as ((a' & Ha' & Ea') & (b' & Hb' & Eb') & Hall').
  - pose proof (proj1 (Hall a' (proj1 (both_ways a') Ha'))). pose proof (proj1 (Hall' a (proj2 (both_ways a) Ha))). rewrite Ea in *. rewrite Ea' in *. apply Qle_antisym; assumption.
  - pose proof (proj2 (Hall b' (proj1 (both_ways b') Hb'))). pose proof (proj2 (Hall' b (proj2 (both_ways b) Hb))). rewrite Eb in *. rewrite Eb' in *. apply Qle_antisym; assumption.
Qed.
Lemma dims_both : length (nth 0 data' []) = length (nth 0 data []).
Proof.
  transitivity D; [|symmetry]; apply Hdim; [apply both_ways|]; apply nth_In; [pose proof ne'; destruct data'; [congruence|cbn; lia]|destruct data; [congruence|cbn; lia]].
Qed.
Lemma create_both : same_run same_dir (create_directory data levels dthr athr) (create_directory data' levels (mq * dthr) (m * athr)).
Proof.
  unfold create_directory. destruct root_both as (c & c' & -> & -> & H1 & H2). cbn [bind]. rewrite dims_both.
  assert (Hr : same_block (mkBlk (snd c) (fst c) 0 0) (mkBlk (snd c') (fst c') 0 0)) by (repeat split; cbn [bmax bmin region level]; try apply H1; apply H2).
  assert (Hrs : blocks [mkBlk (snd c) (fst c) 0 0] [mkBlk (snd c') (fst c') 0 0]) by (constructor; [exact Hr|constructor]).
  destruct (levels =? 1); [cbn [same_run]; apply store_level_both; [exact Hrs|split; [exact Hrs|split; [constructor|reflexivity]]]|]. destruct (_ =? 0); [reflexivity|]. cbn [same_run].
  assert (W : same_dir (build_levels data levels dthr athr (length (nth 0 data [])) (seq 1 (levels - 1)) [mkBlk (snd c) (fst c) 0 0] (mkDir [] [] 0))
     (build_levels data' levels (mq * dthr) (m * athr) (length (nth 0 data [])) (seq 1 (levels - 1)) [mkBlk (snd c') (fst c') 0 0] (mkDir [] [] 0))) by (apply build_levels_both; [exact Hrs|]; repeat split; constructor).
  destruct W as (W1 & W2 & W3). split; [|split; assumption]. cbn [leafs]. apply sort_both; [|exact W1]. intros x y x' y' Hx Hy. apply scaled_le; now apply density_both.
Qed.

(** ** allocation *)
Section Allocation.
Variables lb lb' : list block.
Hypothesis Hlb : blocks lb lb'.
Lemma nth_block k : same_block (nth k lb b0) (nth k lb' b0).
Proof. clear - Hlb. revert k. induction Hlb as [|b b' t t' H Ht IH]; intros [|k]; cbn [nth]; auto; repeat split; reflexivity. Qed.
Lemma update_both dg c ks : update_dendrogram data' lb' dg c ks = update_dendrogram data lb dg c ks.
Proof.
  unfold update_dendrogram. destruct (_ <=? c); [reflexivity|]. f_equal. f_equal. f_equal. 
  assert (W : Forall2 eq (sort_key (fun k => (- density data (nth k lb b0))%Q) ks) (sort_key (fun k => (- density data' (nth k lb' b0))%Q) ks)).
  { apply sort_both; [|clear; induction ks; constructor; auto]. intros x y ? ? <- <-. apply scaled_le; rewrite (density_both _ _ (nth_block _)); ring. }
  clear - W. induction W; congruence.
Qed.
Lemma find_center_both mk ks : forall unh, find_center data' (mq * dthr) lb' mk ks unh = find_center data dthr lb mk ks unh.
Proof. induction ks as [|k t IH]; intro unh; cbn [find_center]; [reflexivity|]. rewrite (below_both _ _ (nth_block k)). destruct (Qle_bool _ _); [reflexivity|]. destruct (nth k mk None); [apply IH|reflexivity]. Qed.
Lemma block_center_both s : find_block_center data' (mq * dthr) lb' s = find_block_center data dthr lb s.
Proof. unfold find_block_center. now rewrite find_center_both, (blocks_length _ _ Hlb). Qed.
Lemma take_both k ks : forall found, take_neighbors lb' k ks found = take_neighbors lb k ks found.
Proof.
  induction ks as [|j t IH]; intro found; cbn [take_neighbors]; [reflexivity|]. rewrite (is_neighbor_same _ _ _ _ (nth_block k) (nth_block j)). destruct (is_neighbor _ _); [|apply IH]. destruct (_ =? 8); [reflexivity|apply IH].
Qed.
Lemma block_neighbors_both k unh : find_block_neighbors order lb' k unh = find_block_neighbors order lb k unh.
Proof. unfold find_block_neighbors. now rewrite take_both. Qed.
Lemma expand_both fuel : forall c queue s, expand order data' lb' fuel c queue s = expand order data lb fuel c queue s.
Proof.
  induction fuel as [|f IH]; intros c [|j q] s; cbn [expand]; try reflexivity. rewrite block_neighbors_both. destruct (find_block_neighbors order lb j (unhandled s)) as (nb, unh). rewrite update_both.
  destruct (update_dendrogram data lb (dendrogram s) c nb); cbn [bind]; [apply IH|reflexivity].
Qed.
Lemma expand_cluster_both k c s : expand_cluster_block order data' lb' k c s = expand_cluster_block order data lb k c s.
Proof.
  unfold expand_cluster_block. rewrite block_neighbors_both, update_both. destruct (update_dendrogram data lb (dendrogram s) c [k]) as [dg|e]; cbn [bind]; [|reflexivity].
  destruct (find_block_neighbors order lb k (unhandled s)) as (nb, unh). rewrite update_both, (blocks_length _ _ Hlb). destruct (update_dendrogram data lb dg c nb); cbn [bind]; [apply expand_both|reflexivity].
Qed.
Lemma allocate_both fuel : forall o c s, allocate order data' (mq * dthr) (m * athr) lb' fuel o c s = allocate order data dthr athr lb fuel o c s.
Proof.
  induction fuel as [|f IH]; intros [k|] c s; cbn [allocate]; try reflexivity; rewrite (is_sparse_both _ _ (nth_block k)); destruct (is_sparse _ _ _ _); try reflexivity.
  rewrite expand_cluster_both. destruct (expand_cluster_block order data lb k c s) as [s1|e]; cbn [bind]; [|reflexivity]. rewrite block_center_both. destruct (find_block_center data dthr lb s1) as [r|e]; cbn [bind]; [apply IH|reflexivity].
Qed.

(** members, without regard to repetition *)
Definition in_step (g g' : list nat) : Prop := (forall i, In i g -> i < length data) /\ forall i, In i g' <-> i < length ord /\ In (nth i ord 0) g.
Lemma in_step_app a a' b b' : in_step a a' -> in_step b b' -> in_step (a ++ b) (a' ++ b').
Proof.
  intros (A & H1) (B & H2). split; [intros i Hi; apply in_app_or in Hi as [Hi|Hi]; auto|]. intro i. rewrite !in_app_iff, H1, H2. tauto.
Qed.
Lemma in_step_nil : in_step [] [].
Proof. split; [intros i []|]. intro i. cbn. tauto. Qed.
Lemma set_both g g' : in_step g g' -> same (as_set order g) (as_set order g').
Proof.
  intros (B & H). unfold as_set, same_members.
  assert (S1 : Permutation (nodup Nat.eq_dec g) (filter (fun i => existsb (Nat.eqb i) g) (seq 0 (length data)))).
  { apply NoDup_Permutation; [apply NoDup_nodup|apply NoDup_filter, seq_NoDup|]. intro i. rewrite nodup_In, filter_In, in_seq, existsb_exists. split.
    - intro Hi. split; [specialize (B i Hi); lia|]. exists i. split; [exact Hi|apply Nat.eqb_refl].
    - intros (_ & j & Hj & E). apply Nat.eqb_eq in E. now subst. }
  assert (S2 : Permutation (nodup Nat.eq_dec g') (filter (fun i => existsb (Nat.eqb (nth i ord 0)) g) (seq 0 (length ord)))).
  { apply NoDup_Permutation; [apply NoDup_nodup|apply NoDup_filter, seq_NoDup|]. intro i. rewrite nodup_In, filter_In, in_seq, existsb_exists, H. split.
    - intros (Hi & Hg). split; [lia|]. exists (nth i ord 0). split; [exact Hg|apply Nat.eqb_refl].
    - intros (Hi & j & Hj & E). apply Nat.eqb_eq in E. subst. split; [lia|exact Hj]. }
  pose proof (filtered (fun i => existsb (Nat.eqb i) g) (fun i => existsb (Nat.eqb (nth i ord 0)) g) (fun i _ => eq_refl)) as W. unfold same_members in W.
  apply Permutation_trans with (map (fun i => nth i ord 0) (filter (fun i => existsb (Nat.eqb (nth i ord 0)) g) (seq 0 (length ord)))).
  { apply Permutation_map. apply Permutation_trans with (nodup Nat.eq_dec g'); [apply order_perm|exact S2]. }
  apply (Permutation_trans W). assert (V : Permutation (filter (fun i => existsb (Nat.eqb i) g) (seq 0 (length data))) (order (nodup Nat.eq_dec g))) by (symmetry; apply Permutation_trans with (nodup Nat.eq_dec g); [apply order_perm|exact S1]).
  clear - V. induction m as [|k IH]; cbn [repeat concat]; [constructor|]. apply Permutation_app; [exact V|exact IH].
Qed.
Lemma points_step k : in_step (points data (nth k lb b0)) (points data' (nth k lb' b0)).
Proof. split; [intros i Hi; unfold points in Hi; apply filter_In in Hi as (Hi & _); apply in_seq in Hi; lia|]. apply points_in_step, nth_block. Qed.
Lemma upd_both {A B} (R : A -> B -> Prop) l l' i x x' : Forall2 R l l' -> R x x' -> Forall2 R (upd l i x) (upd l' i x').
Proof. intro H. revert i. induction H as [|y y' t t' Hy Ht IH]; intros [|i] Hx; cbn [upd]; constructor; auto. Qed.
Lemma store_both c mk : let r := store_results order data lb c mk [] in let r' := store_results order data' lb' c mk [] in Forall2 same (fst r) (fst r') /\ same (snd r) (snd r').
Proof.
  unfold store_results. rewrite (blocks_length _ _ Hlb).
  assert (W : forall ks a a' n n', Forall2 in_step a a' -> in_step n n' ->
    let f := fun d l (acc : list (list nat) * list nat) k => match nth k mk None with Some i => (upd (fst acc) i (nth i (fst acc) [] ++ points d (nth k l b0)), snd acc) | None => (fst acc, snd acc ++ points d (nth k l b0)) end in
    let r := fold_left (f data lb) ks (a, n) in let r' := fold_left (f data' lb') ks (a', n') in Forall2 in_step (fst r) (fst r') /\ in_step (snd r) (snd r')).
  { induction ks as [|k ks IH]; intros a a' n n' Ha Hn; cbn [fold_left]; [split; assumption|]. cbn zeta in IH |- *. cbn beta. destruct (nth k mk None) as [i|]; cbn [fst snd].
    - apply IH; [|exact Hn]. apply upd_both; [exact Ha|]. apply in_step_app; [|apply points_step]. clear - Ha. revert i. induction Ha as [|g g' t t' H Ht IH]; intros [|i]; cbn [nth]; auto using in_step_nil.
    - apply IH; [exact Ha|]. apply in_step_app; [exact Hn|apply points_step]. }
  specialize (W (seq 0 (length lb)) (repeat [] c) (repeat [] c) [] []). cbn zeta in W.
  destruct (fold_left _ (seq 0 (length lb)) (repeat [] c, [])) as (cl, ns) in W |- *. destruct (fold_left _ (seq 0 (length lb)) (repeat [] c, [])) as (cl', ns') in W |- *.
  cbn [fst snd] in *. destruct W as (W1 & W2); [clear; induction c; cbn [repeat]; constructor; auto using in_step_nil|apply in_step_nil|]. split; [|now apply set_both].
  clear - W1 order_perm Hord m_pos. induction W1; cbn [map]; constructor; auto. now apply set_both.
Qed.
End Allocation.

Lemma process_both : same_run (same_bang m ord) (process order data levels dthr athr initial) (process order data' levels (mq * dthr) (m * athr) initial).
Proof.
  unfold process. assert (L : forall l : list point, l <> [] -> (length l =? 0) = false) by (intros [|? ?] H; [congruence|reflexivity]). rewrite (L data Hne), (L data' ne'). destruct (levels <? 1); [reflexivity|].
  assert (E : Qltb (mq * dthr) 0 = Qltb dthr 0). { unfold Qltb. f_equal. apply scaled_le; [ring|reflexivity]. } rewrite E. destruct (Qltb dthr 0); [reflexivity|].
  pose proof create_both as W. destruct (create_directory data levels dthr athr) as [d|e], (create_directory data' levels (mq * dthr) (m * athr)) as [d'|e']; cbn [same_run bind] in W |- *; try exact W; try (destruct W; fail).
  destruct W as (Hlb & _). rewrite (blocks_length _ _ Hlb), (block_center_both _ _ Hlb).
  rewrite (filter_ext (fun k => Qltb (mq * dthr) (density data' (nth k (leafs d') b0))) (fun k => Qltb dthr (density data (nth k (leafs d) b0)))) by (intro k; apply above_both, nth_block, Hlb).
  destruct (find_block_center data dthr (leafs d) _) as [r|e]; cbn [bind]; [|reflexivity]. rewrite (allocate_both _ _ Hlb).
  destruct (allocate order data dthr athr (leafs d) _ _ _ _) as [(c, s)|e]; cbn [bind]; [|reflexivity]. pose proof (store_both _ _ Hlb c (marks s)) as W. cbn zeta in W. cbn [Bang_Model.noise initial].
  destruct (store_results order data (leafs d) c (marks s) []) as (cl, ns), (store_results order data' (leafs d') c (marks s) []) as (cl', ns'). cbn [fst snd] in W. destruct W as (W1 & W2).
  cbn [same_run]. split; [exact W1|]. split; [exact W2|]. split; [reflexivity|]. exact Hlb.
Qed.
End Order.

Theorem C266_copies (order : list nat -> list nat) data m ord D levels dthr athr : (forall l, Permutation (order l) l) -> valid data D levels dthr -> 0 < m -> copies m (length data) ord ->
  exists b b', process order data levels dthr athr initial = Ok b /\ process order (pick data ord) levels (inject_Z (Z.of_nat m) * dthr) (m * athr) initial = Ok b' /\ same_bang m ord b b'.
Proof.
  intros Ho (V1 & V2 & V3 & V4 & V5) Hm Hc. destruct (bang_spec order Ho data D levels dthr athr V1 V2 V3 V4 V5) as (b & d & E & _).
  pose proof (process_both order data m ord D levels athr dthr Ho Hm Hc V1 V3) as W. rewrite E in W. exists b. destruct (process order (pick data ord) _ _ _ _) as [b'|e]; [|destruct W]. exists b'. auto.
Qed.
Print Assumptions C266_copies.

(** one copy of each: another order *)
Theorem C266_order (order : list nat -> list nat) data ord D levels dthr athr : (forall l, Permutation (order l) l) -> valid data D levels dthr -> Permutation ord (seq 0 (length data)) ->
  exists b b', process order data levels dthr athr initial = Ok b /\ process order (pick data ord) levels dthr athr initial = Ok b' /\
    Forall2 (fun g g' => Permutation (map (fun i => nth i ord 0) g') g) (Bang_Model.clusters b) (Bang_Model.clusters b') /\ Permutation (map (fun i => nth i ord 0) (Bang_Model.noise b')) (Bang_Model.noise b).
Proof.
  intros Ho V Hp. destruct (C266_copies order data 1 ord D levels dthr athr Ho V) as (b & b' & E & E' & H1 & H2 & _); [lia|unfold copies; cbn [repeat concat]; now rewrite app_nil_r|].
  rewrite Nat.mul_1_l in E'. assert (Q1 : (inject_Z (Z.of_nat 1) * dthr)%Q = dthr) by (destruct dthr as [n d]; unfold Qmult, inject_Z; cbn [Qnum Qden Z.of_nat Pos.of_succ_nat]; now rewrite Z.mul_1_l). rewrite Q1 in E'. exists b, b'. split; [exact E|]. split; [exact E'|]. unfold same_members in *. cbn [repeat concat] in *. rewrite app_nil_r in H2. split; [|exact H2].
  induction H1 as [|g g' l l' H Hl IH]; constructor; auto. cbn [repeat concat] in H. now rewrite app_nil_r in H.
Qed.
Print Assumptions C266_order.

(** seven points of which one lies on the border of two clusters, in another order; and each point twice *)
Example C266_example : let ord := [4; 0; 6; 2; 5; 1; 3] in valid w34 1 4 0 /\ Permutation ord (seq 0 (length w34)) /\
  exists b b' b2, process (fun l => l) w34 4 0 1 initial = Ok b /\ Bang_Model.clusters b = [[0; 2; 3; 4]; [4; 5; 6]] /\ Bang_Model.noise b = [1] /\
   process (fun l => l) (pick w34 ord) 4 0 1 initial = Ok b' /\ Bang_Model.clusters b' = [[1; 0; 3; 6]; [0; 2; 4]] /\ Bang_Model.noise b' = [5] /\
   copies 2 (length w34) (ord ++ ord) /\ process (fun l => l) (pick w34 (ord ++ ord)) 4 0 2 initial = Ok b2 /\ map (@length nat) (Bang_Model.clusters b2) = [8; 6].
Proof.
  cbn zeta. split; [apply C34_case|]. split; [apply (Permutation_count_occ Nat.eq_dec); intro x; do 8 (destruct x; [reflexivity|]); reflexivity|]. do 3 eexists. split; [vm_compute; reflexivity|]. split; [vm_compute; reflexivity|]. split; [vm_compute; reflexivity|].
  split; [vm_compute; reflexivity|]. split; [vm_compute; reflexivity|]. split; [vm_compute; reflexivity|]. split; [apply (Permutation_count_occ Nat.eq_dec); intro x; do 8 (destruct x; [reflexivity|]); reflexivity|]. split; vm_compute; reflexivity.
Qed.
