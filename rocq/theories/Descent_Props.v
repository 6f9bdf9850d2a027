(** C103 and C57: where the CF-tree puts an entry; which run the ordering of OPTICS describes. *)
From Verif Require Import Base Kmeans_Model Kmeans_Proofs Aggl_Model Cftree_Model Cftree_Proofs Cfquery_Props.
From Verif Require Optics_Model.
From Coq Require Import Lia QArith.Qabs.
Open Scope nat_scope.

(** * Specification *)
(** [l] is reached from [t] by always going to a child that is nearest to the node it hangs under *)
Inductive own_descent (m : measure) : tree -> tree -> Prop :=
| own_leaf id f es : own_descent m (Leaf id f es) (Leaf id f es)
| own_node f kids c l : In c kids -> (forall c', In c' kids -> dist m (feat c) f <= dist m (feat c') f)%Q ->
    own_descent m c l -> own_descent m (Node f kids) l.

(** the entries of a leaf after [e] has come to it: the nearest one takes [e] in if the result is not too wide *)
Definition takes (m : measure) (thr : Q) (e : entry) (es new : list entry) : Prop :=
  exists before x after, es = before ++ x :: after /\ (forall y, In y es -> dist m x e <= dist m y e)%Q /\
    (wider (fadd x e) thr = false /\ new = before ++ fadd x e :: after \/ wider (fadd x e) thr = true /\ new = es ++ [e]).

(** * Proofs *)
Lemma insert_leaf_where D m branch maxe thr e id f es s r : good D branch maxe 1 (Leaf id f es) -> length (lsum e) = D -> NoDup (tags (Leaf id f es) ++ tagl e) ->
  insert_leaf m maxe thr e id f es s = Ok r -> exists new, takes m thr e es new /\ Permutation (flat_map leaf_entries (news r)) new.
Proof.
  intros G He Ht. unfold insert_leaf. destruct (min_by _ _) as [i|] eqn:E; [|discriminate]. apply min_by_spec in E as (Hi & Hmin). apply in_seq in Hi. destruct Hi as [_ Hi]. cbn in Hi.
  destruct (upd_split es i (fadd (nth i es e0) e) e0 Hi) as (Es & Eu). set (before := firstn i es) in *. set (after := skipn (S i) es) in *.
  assert (Hnear : forall y, In y es -> (dist m (nth i es e0) e <= dist m y e)%Q).
  { intros y Hy. destruct (In_nth _ _ e0 Hy) as (j & Hj & <-). apply (Hmin j). apply in_seq. lia. }
  destruct (wider (fadd (nth i es e0) e) thr) eqn:W.
  - intro H. exists (es ++ [e]). split; [exists before, (nth i es e0), after; split; [exact Es|]; split; [exact Hnear|]; right; split; [exact W|reflexivity]|].
    destruct (maxe <? length (es ++ [e])) in H.
    + destruct (split_leaf m (es ++ [e])) as [[[f1 l1] [f2 l2]]|] eqn:Sp; cbn [bind] in H; [|discriminate]. apply Ok_inj in H. subst r. cbn [news flat_map leaf_entries]. rewrite app_nil_r.
      assert (Hd : forall x, In x (es ++ [e]) -> length (lsum x) = D). { inversion G; subst. intros x Hx. apply in_app_iff in Hx as [Hx|[<-|[]]]; auto. }
      assert (Hn : NoDup (flat_map tagl (es ++ [e]))). { rewrite flat_map_app. cbn [flat_map]. rewrite app_nil_r. exact Ht. }
      apply (split_leaf_spec m D _ _ _ _ _ Hn Hd Sp).
    + apply Ok_inj in H. subst r. cbn [news flat_map leaf_entries]. rewrite app_nil_r. reflexivity.
  - intro H. apply Ok_inj in H. subst r. cbn [news flat_map leaf_entries]. rewrite app_nil_r.
    exists (before ++ fadd (nth i es e0) e :: after). split; [exists before, (nth i es e0), after; split; [exact Es|]; split; [exact Hnear|]; left; split; [exact W|reflexivity]|].
    rewrite Eu. reflexivity.
Qed.

Lemma insert_rec_where D m branch maxe thr (Hmax : 1 <= maxe) h : forall t, good D branch maxe h t ->
  exists id f es rest, own_descent m t (Leaf id f es) /\ Permutation (leaf_entries t) (es ++ rest) /\
    forall e s r, length (lsum e) = D -> NoDup (tags t ++ tagl e) -> insert_rec m branch maxe thr e t s = Ok r ->
      exists new, takes m thr e es new /\ Permutation (flat_map leaf_entries (news r)) (new ++ rest).
Proof.
  induction h as [|h IH]; intros t G; [apply good_pos in G; lia|]. destruct t as [id f es|f kids].
  - pose proof (good_kind _ _ _ _ _ _ _ G) as Eh. rewrite Eh in G. exists id, f, es, []. split; [constructor|]. split; [cbn [leaf_entries]; rewrite app_nil_r; reflexivity|].
    intros e s r He Ht H. cbn [insert_rec] in H. destruct (insert_leaf_where _ _ _ _ _ _ _ _ _ _ _ G He Ht H) as (new & T & P). exists new. rewrite app_nil_r. auto.
  - apply good_node_inv in G as (h' & E & Hlen & Hall & Hs). injection E as <-.
    destruct (min_by (fun i => dist m (feat (nth i kids t0)) f) (seq 0 (length kids))) as [i|] eqn:Em; [|apply min_by_none in Em; destruct kids; cbn in *; [lia|discriminate]].
    pose proof (min_by_spec _ _ _ Em) as [Hi Hmin]. apply in_seq in Hi. cbn in Hi. destruct Hi as [_ Hi].
    pose proof (pop_perm kids i t0 Hi) as Hpk.
    assert (Hc : In (nth i kids t0) kids) by (apply nth_In; auto).
    assert (Gc : good D branch maxe h (nth i kids t0)) by (rewrite Forall_forall in Hall; auto).
    assert (Go : Forall (good D branch maxe h) (pop kids i)). { apply (Permutation_Forall Hpk) in Hall. inversion Hall; auto. }
    destruct (IH _ Gc) as (id & fl & es & rest & Hd & Hp & Hins). exists id, fl, es, (rest ++ flat_map leaf_entries (pop kids i)).
    assert (Hpl : Permutation (flat_map leaf_entries kids) (leaf_entries (nth i kids t0) ++ flat_map leaf_entries (pop kids i))) by (rewrite (Permutation_flat_map leaf_entries Hpk); reflexivity).
    split; [|split; [cbn [leaf_entries]; rewrite Hpl, Hp, <- app_assoc; reflexivity|]].
    { apply own_node with (nth i kids t0); auto. intros c' Hc'. destruct (In_nth _ _ t0 Hc') as (j & Hj & <-). apply (Hmin j). apply in_seq. lia. }
    intros e s r He Ht. rewrite insert_rec_node by exact Hmax. rewrite Em.
    assert (Htc : NoDup (tags (nth i kids t0) ++ tagl e)).
    { unfold tags in *. cbn [leaf_entries] in Ht. rewrite (Permutation_flat_map tagl Hpl) in Ht. rewrite flat_map_app in Ht.
      rewrite <- app_assoc, Permutation_app_comm, <- app_assoc in Ht. apply NoDup_app_inv in Ht as (_ & Ht & _). rewrite Permutation_app_comm. exact Ht. }
    pose proof (insert_rec_spec D m branch maxe thr Hmax h _ e s Gc He Htc) as R.
    destruct (insert_rec m branch maxe thr e (nth i kids t0) s) as [r1|x] eqn:Er; cbn [bind]; [|discriminate].
    destruct (Hins e s r1 He Htc Er) as (new & T & P).
    assert (HK : exists K up, match news r1 with [c'] => (upd kids i c', false) | cs => (pop kids i ++ cs, true) end = (K, up) /\ Permutation K (news r1 ++ pop kids i) /\ (up = true -> 2 <= length K)).
    { pose proof (r_len _ _ _ _ _ _ _ _ _ R) as Hl. destruct (news r1) as [|a [|b [|z q]]]; cbn in Hl; try lia.
      - exists (upd kids i a), false. split; auto. split; [apply (upd_perm _ _ _ t0); auto|discriminate].
      - exists (pop kids i ++ [a; b]), true. split; auto. split; [apply Permutation_app_comm|]. intros _. rewrite app_length. cbn. lia. }
    destruct HK as (K & up & EK & PK & Hup). rewrite EK.
    assert (GK : Forall (good D branch maxe h) K). { apply (Permutation_Forall (Permutation_sym PK)). apply Forall_app. split; auto. apply (r_good _ _ _ _ _ _ _ _ _ R). }
    assert (PL : Permutation (flat_map leaf_entries K) (new ++ rest ++ flat_map leaf_entries (pop kids i))).
    { rewrite (Permutation_flat_map leaf_entries PK), flat_map_app, P, <- app_assoc. reflexivity. }
    intro H. exists new. split; [exact T|]. destruct (bf branch <? length K).
    + destruct (split_nonleaf m K) as [[n1 n2]|] eqn:Sp; cbn [bind] in H; [|discriminate]. apply Ok_inj in H. subst r. cbn [news fst snd flat_map]. rewrite app_nil_r.
      assert (Hd' : forall c, In c K -> length (lsum (feat c)) = D) by (intros c Hc'; rewrite Forall_forall in GK; exact (good_dim D branch maxe h c (GK c Hc'))).
      destruct (split_nonleaf_spec m D K n1 n2 Hd' Sp) as (f1 & l1 & f2 & l2 & -> & -> & PP & _). cbn [leaf_entries]. rewrite <- flat_map_app, (Permutation_flat_map leaf_entries PP). exact PL.
    + destruct up.
      * destruct (merge_nearest_spec D branch maxe Hmax h K (stat r1) GK (Hup eq_refl)) as (K' & s' & Emg & _ & _ & _ & Pe & _). rewrite Emg in H. cbn [bind fst snd] in H.
        apply Ok_inj in H. subst r. cbn [news flat_map leaf_entries]. rewrite app_nil_r, Pe. exact PL.
      * apply Ok_inj in H. subst r. cbn [news flat_map leaf_entries]. rewrite app_nil_r. exact PL.
Qed.

(** C103: in a tree that was built by insertions, every further entry goes to one and the same leaf, whatever the entry is: the
    one found by going to the child nearest to its own parent.  There it is taken in by the nearest entry, or becomes a new
    entry.  All other entries stay as they are. *)
Theorem C103_same_leaf D m branch maxe thr inserted t r : 1 <= maxe ->
  (forall e, In e inserted -> length (lsum e) = D) -> NoDup (flat_map tagl inserted) ->
  insert_all m branch maxe thr inserted empty_tree = Ok t -> root t = Some r ->
  exists id f es rest, own_descent m r (Leaf id f es) /\ Permutation (leaf_entries r) (es ++ rest) /\
    forall e t' r', length (lsum e) = D -> tag e = None -> insert m branch maxe thr e t = Ok t' -> root t' = Some r' ->
      exists new, takes m thr e es new /\ Permutation (leaf_entries r') (new ++ rest).
Proof.
  intros Hm Hd Hn E Er. pose proof (insert_all_spec D m branch maxe thr Hm inserted empty_tree [] (tinv_empty D branch maxe thr) Hd Hn) as I. rewrite E in I. cbn [app] in I.
  destruct (t_tree _ _ _ _ _ _ I r Er) as (G & _ & _ & _ & _ & _ & _ & (d & Hdr) & _).
  destruct (insert_rec_where D m branch maxe thr Hm _ r G) as (id & f & es & rest & Ho & P & H). exists id, f, es, rest. split; [exact Ho|]. split; [exact P|].
  intros e t' r' He Ht Ei Er'. unfold insert in Ei. rewrite Er in Ei.
  assert (Hnt : NoDup (tags r ++ tagl e)). { unfold tagl. rewrite Ht, app_nil_r. rewrite Hdr in Hn. apply NoDup_app_inv in Hn. tauto. }
  pose proof (insert_rec_spec D m branch maxe thr Hm _ r e (stats t) G He Hnt) as R.
  destruct (insert_rec m branch maxe thr e r (stats t)) as [p|] eqn:Ep; cbn [bind] in Ei; [|discriminate]. destruct (H e _ p He Hnt Ep) as (new & T & PN). exists new. split; [exact T|].
  pose proof (r_len _ _ _ _ _ _ _ _ _ R) as Hl. pose proof (r_good _ _ _ _ _ _ _ _ _ R) as HG. destruct (news p) as [|a [|b [|z q]]]; cbn in Hl; try lia.
  - apply Ok_inj in Ei. subst t'. cbn in Er'. injection Er' as <-. cbn [flat_map] in PN. rewrite app_nil_r in PN. exact PN.
  - destruct (merge_nearest_spec D branch maxe Hm (height (stats t)) [a; b] (mkC (next (stat p)) (leafes (stat p)) (amount_nodes (stat p) + 1) (amount_entries (stat p)) (height (stat p) + 1)) HG ltac:(cbn; lia)) as (K & s3 & Emg & _ & _ & _ & Pe & _).
    rewrite Emg in Ei. cbn [bind fst snd] in Ei. apply Ok_inj in Ei. subst t'. cbn in Er'. injection Er' as <-. cbn [leaf_entries]. rewrite Pe. exact PN.
Qed.
Print Assumptions C103_same_leaf.

(** while the tree is a single leaf, the entry goes to the nearest of all entries *)
Theorem C103_single_leaf D m branch maxe thr inserted t id f es : 1 <= maxe ->
  (forall e, In e inserted -> length (lsum e) = D) -> NoDup (flat_map tagl inserted) ->
  insert_all m branch maxe thr inserted empty_tree = Ok t -> root t = Some (Leaf id f es) ->
  forall e t' r', length (lsum e) = D -> tag e = None -> insert m branch maxe thr e t = Ok t' -> root t' = Some r' ->
    exists new, takes m thr e es new /\ Permutation (leaf_entries r') new.
Proof.
  intros Hm Hd Hn E Er e t' r' He Ht Ei Er'. destruct (C103_same_leaf D m branch maxe thr inserted t _ Hm Hd Hn E Er) as (id' & f' & es' & rest & Ho & P & H).
  assert (es' = es) by (inversion Ho; reflexivity). subst es'. destruct (H e t' r' He Ht Ei Er') as (new & T & PN). exists new. split; [exact T|]. cbn [leaf_entries] in P. apply Permutation_length in P. rewrite app_length in P.
  assert (rest = []) as -> by (destruct rest; [reflexivity|cbn in P; lia]). rewrite app_nil_r in PN. exact PN.
Qed.
Print Assumptions C103_single_leaf.

(** the tree of 0 and 100 has two leafs; 101 and 1 both go to the leaf of 0, one becomes a new entry, the other is taken in *)
Example C103_case : exists t r, insert_all CentroidEuclidean 2 1 2 [point_entry [0%Q]; point_entry [100%Q]] empty_tree = Ok t /\ root t = Some r /\
  (exists t' r', insert CentroidEuclidean 2 1 2 (point_entry [101%Q]) t = Ok t' /\ root t' = Some r' /\ length (leaf_entries r') = 3) /\
  (exists t' r', insert CentroidEuclidean 2 1 2 (point_entry [1%Q]) t = Ok t' /\ root t' = Some r' /\ length (leaf_entries r') = 2).
Proof.
  eexists. eexists. split; [vm_compute; reflexivity|]. split; [reflexivity|]. split; eexists; eexists; (split; [vm_compute; reflexivity|]; split; reflexivity).
Qed.
Example C103_case_leaf : exists t id f, insert_all CentroidEuclidean 2 3 2 [point_entry [0%Q]; point_entry [100%Q]] empty_tree = Ok t /\ root t = Some (Leaf id f [point_entry [0%Q]; point_entry [100%Q]]).
Proof. eexists. eexists. eexists. split; vm_compute; reflexivity. Qed.

(** * C57 *)
(** C57: whatever amount of clusters was asked for, get_ordering() describes the run with the radius given to the constructor *)
Theorem C57_given_radius mat eps minpts amount o r ord : Optics_Model.optics_matrix mat eps minpts amount = Ok (o, r, ord) ->
  exists o0, Optics_Model.optics_matrix mat eps minpts None = Ok (o0, eps, ord) /\
    (amount = Some (Z.of_nat (length (Optics_Model.r_clusters o0))) -> o = o0 /\ r = eps).
Proof.
  unfold Optics_Model.optics_matrix. destruct (length mat =? 0); [discriminate|]. destruct (Qltb eps 0); [discriminate|].
  destruct (match amount with Some a => (a <=? 0)%Z | None => false end); [discriminate|].
  destruct (Optics_Model.allocate_clusters (Optics_Model.neighbors_matrix mat eps) minpts eps (length mat)) as [o0|]; cbn [bind]; [|discriminate].
  destruct amount as [a|]; [|intro H; apply Ok_inj in H; injection H as <- <- <-; exists o0; split; [reflexivity|discriminate]].
  destruct (Z.eqb_spec a (Z.of_nat (length (Optics_Model.r_clusters o0)))) as [Ea|Ea].
  - intro H. apply Ok_inj in H. injection H as <- <- <-. exists o0. split; [reflexivity|]. auto.
  - intro H. destruct (Optics_Model.connectivity_radius (Optics_Model.get_ordering o0) a 100) as [rad|]; cbn [bind] in H; [|discriminate].
    assert (X : ord = Optics_Model.get_ordering o0).
    { destruct rad as [r'|]; [|apply Ok_inj in H; injection H as _ _ <-; reflexivity].
      destruct (Optics_Model.allocate_clusters (Optics_Model.neighbors_matrix mat r') minpts r' (length mat)); cbn [bind] in H; [|discriminate]. apply Ok_inj in H. injection H as _ _ <-. reflexivity. }
    exists o0. rewrite X. split; [reflexivity|]. intro Hs. injection Hs as Hs. contradiction.
Qed.
Print Assumptions C57_given_radius.

(** five points on a line, three clusters asked (two and noise are found): the clusters are those of the radius found, the ordering that of the radius 50,
    which joins all points *)
Example C57_case : exists o r ord o0, let m := map (fun a => map (fun b => Qabs (a - b)) [0; 1; 10; 11; 20]%Q) [0; 1; 10; 11; 20]%Q in
  Optics_Model.optics_matrix m 50%Q 1 (Some 3%Z) = Ok (o, r, ord) /\ Optics_Model.optics_matrix m 50%Q 1 None = Ok (o0, 50%Q, ord) /\
  length (Optics_Model.r_clusters o0) = 1 /\ length (Optics_Model.r_clusters o) = 2 /\ Qltb r 50 = true.
Proof. do 4 eexists. cbv zeta. split; [vm_compute; reflexivity|]. split; [vm_compute; reflexivity|]. split; [reflexivity|]. split; reflexivity. Qed.
