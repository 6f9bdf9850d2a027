(** C103, C104: descent in the CF-tree, and its levels. *)
From Verif Require Import Base Kmeans_Model Kmeans_Proofs Aggl_Model Cftree_Model Cftree_Proofs.

(** * Specification *)
(** [l] is reached from [t] by always going to a child that is nearest to [e] *)
Inductive nearest_descent (m : measure) (e : entry) : tree -> tree -> Prop :=
| desc_leaf id f es : nearest_descent m e (Leaf id f es) (Leaf id f es)
| desc_node f kids c l : In c kids -> (forall c', In c' kids -> dist m (feat c) e <= dist m (feat c') e)%Q ->
    nearest_descent m e c l -> nearest_descent m e (Node f kids) l.

(** [x] is [k] steps below [t] *)
Inductive below : nat -> tree -> tree -> Prop :=
| below_here t : below 0 t t
| below_child k f kids c x : In c kids -> below k c x -> below (S k) (Node f kids) x.

(** * Proofs *)
Lemma at_nth e m l : forall k, k < length l ->
  (fix at_ (l : list tree) (k : nat) {struct l} : res tree :=
     match l, k with [], _ => Raise IndexError | c :: _, 0 => find_nearest_leaf m e c | _ :: l', S k' => at_ l' k' end) l k = find_nearest_leaf m e (nth k l t0).
Proof. induction l as [|c l IH]; intros k Hk; cbn in Hk; [lia|]. destruct k as [|k]; [reflexivity|]. cbn [nth]. apply IH. lia. Qed.

Lemma find_nearest_leaf_spec b maxe m e h : forall t, balanced b maxe h t -> exists l, find_nearest_leaf m e t = Ok l /\ nearest_descent m e t l.
Proof.
  induction h as [|h IH]; intros t B; inversion B; subst.
  - eexists. split; [reflexivity|constructor].
  - destruct (min_by (fun i => dist m (feat (nth i kids t0)) e) (seq 0 (length kids))) as [i|] eqn:E.
    + pose proof (min_by_spec _ _ _ E) as (Hi & Hmin). apply in_seq in Hi. assert (Hi' : i < length kids) by lia.
      destruct (IH (nth i kids t0)) as (l & El & Hl). { rewrite Forall_forall in H1. apply H1, nth_In. auto. }
      exists l. split; [cbn [find_nearest_leaf]; rewrite E, at_nth by auto; exact El|]. apply desc_node with (nth i kids t0); auto; [apply nth_In; auto|].
      intros c' Hc'. destruct (In_nth _ _ t0 Hc') as (j & Hj & <-). apply (Hmin j). apply in_seq. lia.
    + apply min_by_none in E. destruct kids; [cbn in H0; lia|discriminate].
Qed.

Lemma level_fold l kids : forall acc, (forall c, In c kids -> exists a, level_nodes_rec l c = Ok a) ->
  exists r, fold_left (fun acc c => do a <- acc; do b <- level_nodes_rec l c; Ok (a ++ b)) kids (Ok acc) = Ok (acc ++ r) /\
    exists parts, Forall2 (fun c p => level_nodes_rec l c = Ok p) kids parts /\ r = concat parts.
Proof.
  induction kids as [|c kids IH]; intros acc H; cbn [fold_left].
  - exists []. rewrite app_nil_r. split; auto. exists []. split; constructor.
  - destruct (H c (or_introl eq_refl)) as (a & Ea). rewrite Ea. cbn [bind]. destruct (IH (acc ++ a) (fun c' Hc' => H c' (or_intror Hc'))) as (r & Er & parts & Fp & ->).
    exists (a ++ concat parts). rewrite Er, app_assoc. split; auto. exists (a :: parts). split; auto.
Qed.

Lemma level_nodes_spec b maxe k : forall h t, balanced b maxe h t -> k < h ->
  exists l, level_nodes_rec k t = Ok l /\ Forall (balanced b maxe (h - k)) l /\ (forall x, In x l <-> below k t x) /\
    flat_map leaf_entries l = leaf_entries t /\ flat_map leaf_ids l = leaf_ids t.
Proof.
  induction k as [|k IH]; intros h t B Hk.
  - exists [t]. split; [reflexivity|]. rewrite Nat.sub_0_r. split; [repeat constructor; auto|]. split; [|cbn; rewrite !app_nil_r; auto].
    intros x. split; [intros [<-|[]]; constructor|inversion 1; left; auto].
  - inversion B; subst; [lia|]. cbn [level_nodes_rec]. rewrite Forall_forall in H0.
    destruct (level_fold k kids []) as (r & Er & parts & Fp & ->). { intros c Hc. destruct (IH h0 c (H0 c Hc) ltac:(lia)) as (l & El & _). eauto. }
    rewrite Er. cbn [app]. exists (concat parts). split; [reflexivity|]. replace (S h0 - S k) with (h0 - k) by lia.
    assert (G : Forall2 (fun c p => Forall (balanced b maxe (h0 - k)) p /\ (forall x, In x p <-> below k c x) /\ flat_map leaf_entries p = leaf_entries c /\ flat_map leaf_ids p = leaf_ids c) kids parts).
    { clear Er B H. induction Fp as [|c p kids parts Hp Fp IHp]; constructor; [|apply IHp; intros; apply H0; right; auto].
      destruct (IH h0 c (H0 c (or_introl eq_refl)) ltac:(lia)) as (l & El & A1 & A2 & A3 & A4). rewrite Hp in El. apply Ok_inj in El. subst l. auto. }
    clear Er Fp B H H0. cbn [leaf_entries leaf_ids]. split; [|split; [|split]].
    + induction G as [|c p kids parts (G1 & _) G IHG]; cbn; [constructor|]. apply Forall_app. split; auto.
    + intros x. split.
      * intros Hx. assert (E : exists c, In c kids /\ below k c x).
        { induction G as [|c p kids parts (_ & G2 & _) G IHG]; cbn in Hx; [tauto|]. apply in_app_iff in Hx as [Hx|Hx]; [exists c; split; [left; auto|apply G2; auto]|].
          destruct (IHG Hx) as (c' & Hc' & Hb). exists c'. split; [right|]; auto. }
        destruct E as (c & Hc & Hb). eapply below_child; eauto.
      * inversion 1; subst. clear H. induction G as [|c' p kids parts (_ & G2 & _) G IHG]; [contradiction|]. cbn. apply in_app_iff. destruct H3 as [->|Hc]; [left; apply G2; auto|right; auto].
    + induction G as [|c p kids parts (_ & _ & G3 & _) G IHG]; cbn; auto. rewrite flat_map_app, G3, IHG. auto.
    + induction G as [|c p kids parts (_ & _ & _ & G4) G IHG]; cbn; auto. rewrite flat_map_app, G4, IHG. auto.
Qed.

(** * Theorems *)
(** C104: in every tree built by insertions find_nearest_leaf returns a leaf reached by going to a nearest child at every node *)
Theorem C104_find_nearest_leaf D m branch max_entries threshold es t r e : 1 <= max_entries ->
  (forall x, In x es -> length (lsum x) = D) -> NoDup (flat_map tagl es) ->
  insert_all m branch max_entries threshold es empty_tree = Ok t -> root t = Some r ->
  exists l, find_nearest_leaf m e r = Ok l /\ nearest_descent m e r l.
Proof.
  intros Hm Hd Hn E Er. pose proof (insert_all_spec D m branch max_entries threshold Hm es empty_tree [] (tinv_empty _ _ _ _) Hd Hn) as H. rewrite E in H.
  destruct (t_tree _ _ _ _ _ _ H r Er) as (G & _). eapply find_nearest_leaf_spec. eapply good_balanced; eauto.
Qed.
Print Assumptions C104_find_nearest_leaf.

(** C104: get_level_nodes(level) returns exactly the nodes [level] steps below the root, all of one height, which together hold
    every leaf entry (and every leaf) of the tree once; nothing for a level that does not exist *)
Theorem C104_level_nodes D m branch max_entries threshold es t r level : 1 <= max_entries ->
  (forall x, In x es -> length (lsum x) = D) -> NoDup (flat_map tagl es) ->
  insert_all m branch max_entries threshold es empty_tree = Ok t -> root t = Some r ->
  exists l, get_level_nodes level t = Ok l /\ (forall x, In x l <-> level < height (stats t) /\ below level r x) /\
    (level < height (stats t) -> flat_map leaf_entries l = leaf_entries r /\ flat_map leaf_ids l = leaf_ids r /\
       Forall (balanced (Nat.max 2 branch) max_entries (height (stats t) - level)) l).
Proof.
  intros Hm Hd Hn E Er. pose proof (insert_all_spec D m branch max_entries threshold Hm es empty_tree [] (tinv_empty _ _ _ _) Hd Hn) as H. rewrite E in H.
  destruct (t_tree _ _ _ _ _ _ H r Er) as (G & _). assert (G' : balanced (Nat.max 2 branch) max_entries (height (stats t)) r) by (replace (Nat.max 2 branch) with (bf branch) by (unfold bf; destruct (Nat.ltb_spec branch 2); lia); eapply good_balanced; eauto). clear G; rename G' into G. unfold get_level_nodes. rewrite Er. destruct (Nat.ltb_spec level (height (stats t))) as [Hl|Hl].
  - destruct (level_nodes_spec _ _ _ _ _ G Hl) as (l & El & A1 & A2 & A3 & A4). exists l. split; [exact El|]. split; [|auto]. intros x. rewrite A2. tauto.
  - exists []. split; auto. split; [|lia]. intros x. split; [intros []|lia].
Qed.
Print Assumptions C104_level_nodes.

(** a tree of six levels *)
Definition query_points : list entry := map (fun x => point_entry [inject_Z x]) [0; 100; 101; 50; 7; 200; 150; 20]%Z.
Example C104_ex : exists t r l, insert_all CentroidEuclidean 2 1 1 query_points empty_tree = Ok t /\ root t = Some r /\ height (stats t) = 6 /\
  NoDup (flat_map tagl query_points) /\ get_level_nodes 2 t = Ok l /\ length l = 3 /\
  exists id f es, find_nearest_leaf CentroidEuclidean (point_entry [60%Q]) r = Ok (Leaf id f es).
Proof.
  eexists. eexists. eexists. split; [vm_compute; reflexivity|]. split; [reflexivity|]. split; [reflexivity|]. split; [vm_compute; constructor|]. split; [vm_compute; reflexivity|]. split; [reflexivity|].
  eexists. eexists. eexists. vm_compute. reflexivity.
Qed.

(** C103: an insertion goes to the leaf nearest to the entry: false.  The child is chosen by its distance to its parent.  Here
    the nearest leaf of 101 is the one of 100, which is near enough to absorb it, but 101 is put next to 0. *)
Theorem C103_nearest_leaf_refuted : exists t r t' r',
  insert_all CentroidEuclidean 2 1 2 [point_entry [0%Q]; point_entry [100%Q]] empty_tree = Ok t /\ root t = Some r /\
  insert CentroidEuclidean 2 1 2 (point_entry [101%Q]) t = Ok t' /\ root t' = Some r' /\
  (exists id f, find_nearest_leaf CentroidEuclidean (point_entry [101%Q]) r = Ok (Leaf id f [point_entry [100%Q]])) /\
  wider (fadd (point_entry [100%Q]) (point_entry [101%Q])) 2 = false /\
  length (leaf_entries r') = 3.
Proof.
  eexists. eexists. eexists. eexists. split; [vm_compute; reflexivity|]. split; [reflexivity|]. split; [vm_compute; reflexivity|]. split; [reflexivity|].
  split; [eexists; eexists; vm_compute; reflexivity|]. split; [vm_compute; reflexivity|]. reflexivity.
Qed.
Print Assumptions C103_nearest_leaf_refuted.
