(** C74 and C75: when the limit of entries is kept, and when no cluster of BIRCH is empty. *)
From Verif Require Import Base Kmeans_Model Kmeans_Proofs Aggl_Model Cftree_Model Cftree_Proofs Birch_Model Birch_Proofs Birch_Total.
From Coq Require Import Lia.

(** ** the amount of entries grows by at most one with each insertion, and never shrinks *)
Lemma insert_rec_grows m branch maxe thr h D (Hmax : 1 <= maxe) : forall t e s r, good D branch maxe h t -> insert_rec m branch maxe thr e t s = Ok r ->
  amount_entries s <= amount_entries (stat r) <= amount_entries s + 1.
Proof.
  induction h as [|h IH]; intros t e s r G E; [apply good_pos in G; lia|]. destruct t as [id f es|f kids].
  - cbn [insert_rec] in E. unfold insert_leaf in E. destruct (min_by _ _); [|discriminate]. destruct (wider _ _).
    + destruct (maxe <? _); [destruct (split_leaf m (es ++ [e])) as [[[f1 l1] [f2 l2]]|]; cbn [bind] in E; [|discriminate]|]; apply Ok_inj in E; subst r; cbn; lia.
    + apply Ok_inj in E. subst r. cbn. lia.
  - apply good_node_inv in G as (h' & Eh & Hlen & Hall & Hs). injection Eh as <-. rewrite insert_rec_node in E by exact Hmax.
    destruct (min_by (fun i => dist m (feat (nth i kids t0)) f) (seq 0 (length kids))) as [i|] eqn:Em; [|discriminate].
    apply min_by_spec in Em as [Hi _]. apply in_seq in Hi. cbn in Hi. destruct Hi as [_ Hi].
    destruct (insert_rec m branch maxe thr e (nth i kids t0) s) as [r1|] eqn:E1; cbn [bind] in E; [|discriminate].
    assert (G1 : good D branch maxe h (nth i kids t0)) by (rewrite Forall_forall in Hall; apply Hall, nth_In; exact Hi).
    pose proof (IH _ _ _ _ G1 E1) as I.
    destruct (match news r1 with [c] => (upd kids i c, false) | cs => (pop kids i ++ cs, true) end) as [K up]. destruct (bf branch <? length K).
    + destruct (split_nonleaf m K) as [p|]; cbn [bind] in E; [|discriminate]. apply Ok_inj in E. subst r. cbn. exact I.
    + destruct up; [|apply Ok_inj in E; subst r; cbn; exact I].
      destruct (merge_nearest branch K (stat r1)) as [[K' s']|] eqn:Eg; cbn [bind fst snd] in E; [|discriminate]. apply Ok_inj in E. subst r. cbn [stat].
      assert (X : amount_entries s' = amount_entries (stat r1)); [|rewrite X; exact I].
      unfold merge_nearest in Eg. destruct K as [|[id0 f0 es0|f1 k1] K0]; [discriminate|apply Ok_inj in Eg; injection Eg as _ <-; reflexivity|].
      destruct K0 as [|[id1 f2 es1|f2 k2] K1]; [discriminate|discriminate|]. destruct (_ <=? _); apply Ok_inj in Eg; injection Eg as _ <-; reflexivity.
Qed.

Lemma insert_grows m branch maxe thr D (Hmax : 1 <= maxe) e t t' inserted : tinv D branch maxe thr inserted t -> insert m branch maxe thr e t = Ok t' ->
  amount_entries (stats t) <= amount_entries (stats t') <= amount_entries (stats t) + 1.
Proof.
  intros I E. unfold insert in E. destruct (root t) as [r|] eqn:Er; [|apply Ok_inj in E; subst t'; cbn; lia].
  destruct (t_tree _ _ _ _ _ _ I r Er) as (G & _). destruct (insert_rec m branch maxe thr e r (stats t)) as [p|] eqn:Ep; cbn [bind] in E; [|discriminate].
  pose proof (insert_rec_grows m branch maxe thr _ D Hmax _ _ _ _ G Ep) as B.
  assert (M : forall cs s2, amount_entries s2 = amount_entries (stat p) -> forall ks, merge_nearest branch cs s2 = Ok ks -> amount_entries (snd ks) = amount_entries (stat p)).
  { intros cs s2 E2 [K s'] Eg. cbn [snd]. unfold merge_nearest in Eg. destruct cs as [|[id0 f0 es0|f1 k1] K0]; [discriminate|apply Ok_inj in Eg; injection Eg as _ <-; exact E2|].
    destruct K0 as [|[id1 f2 es1|f2 k2] K1]; [discriminate|discriminate|]. destruct (_ <=? _); apply Ok_inj in Eg; injection Eg as _ <-; exact E2. }
  destruct (news p) as [|c [|c2 cs]].
  - destruct (merge_nearest branch [] _) as [ks|] eqn:Eg in E; cbn [bind] in E; [|discriminate]. discriminate Eg.
  - apply Ok_inj in E. subst t'. cbn. exact B.
  - destruct (merge_nearest branch (c :: c2 :: cs) _) as [ks|] eqn:Eg in E; cbn [bind] in E; [|discriminate]. apply Ok_inj in E. subst t'. cbn [stats]. assert (X : amount_entries (snd ks) = amount_entries (stat p)) by (eapply M; [|exact Eg]; reflexivity). rewrite X. exact B.
Qed.

Section Within.
Variables (data : list point) (D : nat) (m : measure) (branch maxe limit : nat) (mult : Q).
Hypothesis Hdim : uniform D data.
Hypothesis Hmax : 1 <= maxe.

Lemma entry_len p : In p data -> length (lsum (point_entry p)) = D.
Proof. intro H. unfold point_entry. cbn [lsum]. rewrite map_length. apply Hdim. exact H. Qed.

Lemma insert_all_grows thr ps : forall inserted t t', incl ps data -> tinv D branch maxe thr (map point_entry inserted) t ->
  insert_all m branch maxe thr (map point_entry ps) t = Ok t' -> amount_entries (stats t) <= amount_entries (stats t').
Proof.
  induction ps as [|p ps IH]; intros inserted t t' Hin I E; cbn [map insert_all] in E; [apply Ok_inj in E; subst; lia|].
  destruct (insert m branch maxe thr (point_entry p) t) as [t1|] eqn:E1; cbn [bind] in E; [|discriminate].
  pose proof (insert_grows m branch maxe thr D Hmax _ _ _ _ I E1) as B.
  pose proof (insert_spec D m branch maxe thr Hmax (point_entry p) t (map point_entry inserted) I (entry_len p (Hin p (or_introl eq_refl)))) as S1. rewrite E1 in S1.
  assert (S2 : tinv D branch maxe thr (map point_entry (inserted ++ [p])) t1).
  { rewrite map_app. apply S1. rewrite flat_map_app, point_tags. constructor. }
  pose proof (IH (inserted ++ [p]) t1 t' (fun x Hx => Hin x (or_intror Hx)) S2 E). lia.
Qed.

Lemma insert_data_within thr rest : forall index inserted t t', incl rest data -> tinv D branch maxe thr (map point_entry inserted) t ->
  insert_all m branch maxe thr (map point_entry rest) t = Ok t' -> amount_entries (stats t') <= limit ->
  insert_data data m branch maxe limit mult index rest (thr, t) = Ok (thr, t').
Proof.
  induction rest as [|p rest IH]; intros index inserted t t' Hin I E Hl; cbn [map insert_all insert_data] in *; [apply Ok_inj in E; subst; reflexivity|].
  unfold insert_point. cbn [fst snd]. destruct (insert m branch maxe thr (point_entry p) t) as [t1|] eqn:E1; cbn [bind] in *; [|discriminate].
  pose proof (insert_spec D m branch maxe thr Hmax (point_entry p) t (map point_entry inserted) I (entry_len p (Hin p (or_introl eq_refl)))) as S1. rewrite E1 in S1.
  assert (S2 : tinv D branch maxe thr (map point_entry (inserted ++ [p])) t1).
  { rewrite map_app. apply S1. rewrite flat_map_app, point_tags. constructor. }
  pose proof (insert_all_grows thr rest (inserted ++ [p]) t1 t' (fun x Hx => Hin x (or_intror Hx)) S2 E) as B.
  destruct (Nat.ltb_spec limit (amount_entries (stats t1))); [lia|]. apply (IH (S index) (inserted ++ [p])); auto. intros x Hx. apply Hin. right. exact Hx.
Qed.
End Within.

(** C74: if the tree made by inserting all points with the given diameter has no more entries than the limit, process() makes
    just this tree, and the entries it clusters are within the limit. *)
Theorem C74_limit_partial data D number m branch maxe limit mult diameter t b : uniform D data -> data <> [] -> 1 <= number -> 1 <= limit -> 1 <= maxe ->
  insert_all m branch maxe diameter (map point_entry data) empty_tree = Ok t -> amount_entries (stats t) <= limit ->
  birch data number m branch maxe limit mult diameter = Ok b ->
  length (features b) <= limit /\ exists r, root t = Some r /\ Permutation (features b) (leaf_entries r).
Proof.
  intros Hu Hne Hn Hl Hm E Ha Eb.
  pose proof (insert_data_within data D m branch maxe limit mult Hu Hm diameter data 0 [] empty_tree t (fun x Hx => Hx) (tinv_empty _ _ _ _) E Ha) as Ei.
  pose proof (insert_all_spec D m branch maxe diameter Hm (map point_entry data) empty_tree [] (tinv_empty _ _ _ _)) as I. rewrite E in I. cbn [app] in I.
  specialize (I ltac:(intros e He; apply in_map_iff in He as (p & <- & Hp); apply (entry_len data D Hu p Hp)) ltac:(rewrite point_tags; constructor)).
  unfold birch in Eb. destruct data as [|p0 d0] eqn:Ed; [congruence|]. rewrite <- Ed in *. destruct (Nat.eqb_spec number 0); [lia|]. destruct (Nat.eqb_spec limit 0); [lia|].
  rewrite Ei in Eb. cbn [bind snd] in Eb. destruct (agglomerative _ _ _) as [a|]; cbn [bind] in Eb; [|discriminate]. destruct (Encoder_Model.index_to_label _ _ _) as [lb|]; cbn [bind] in Eb; [|discriminate].
  destruct (assign _ _ _ _ _) as [cl|]; cbn [bind] in Eb; [|discriminate]. apply Ok_inj in Eb. subst b. cbn [features].
  destruct (root t) as [r|] eqn:Er.
  - destruct (t_tree _ _ _ _ _ _ I r Er) as (G & _ & _ & Ee & Pl & Nl & _). pose proof (features_perm D branch maxe (height (stats t)) t r Er G Pl Nl) as P.
    split; [rewrite (Permutation_length P); lia|]. exists r. split; [reflexivity|exact P].
  - exfalso. pose proof (proj2 (t_empty _ _ _ _ _ _ I) Er) as X. rewrite Ed in X. discriminate.
Qed.
Print Assumptions C74_limit_partial.

(** two groups of points, limit of two entries *)
Example C74_case : exists t b, insert_all CentroidEuclidean 2 2 (3 # 1) (map point_entry [[0%Q]; [1%Q]; [10%Q]; [11%Q]]) empty_tree = Ok t /\ amount_entries (stats t) = 2 /\
  birch [[0%Q]; [1%Q]; [10%Q]; [11%Q]] 2 CentroidEuclidean 2 2 2 (3 # 2) (3 # 1) = Ok b /\ length (features b) = 2.
Proof. eexists. eexists. split; [vm_compute; reflexivity|]. split; [reflexivity|]. split; [vm_compute; reflexivity|reflexivity]. Qed.

(** C75: no cluster is empty if every entry that is clustered has its centre in a point of the data, and no two entries have the
    same centre (for example because every entry stands for copies of one point) *)
Theorem C75_no_empty_partial data D number m branch maxe limit mult diameter b : uniform D data -> data <> [] -> 1 <= number -> 1 <= limit -> 1 <= maxe ->
  birch data number m branch maxe limit mult diameter = Ok b ->
  (forall f, In f (features b) -> exists p, In p data /\ peq (centroid f) p) ->
  (forall k k', k < k' -> k' < length (features b) -> ~ peq (centroid (nth k (features b) e0)) (centroid (nth k' (features b) e0))) ->
  no_empty (clusters b).
Proof.
  intros Hu Hne Hn Hl Hm E Hc Hd. pose proof (birch_spec data D number m branch maxe limit mult Hu Hm diameter Hne Hn Hl) as H. rewrite E in H.
  destruct H as (_ & H2 & H3 & _ & _ & H6 & H7).
  set (fs := features b) in *. assert (Ln : forall k, k < length fs -> nth k (map centroid fs) [] = centroid (nth k fs e0)).
  { intros k Hk. rewrite (nth_indep _ [] (centroid e0)) by (rewrite map_length; exact Hk). apply map_nth. }
  apply Forall_forall. intros c Hin. apply (In_nth _ _ []) in Hin as (ci & Hci & Ec).
  assert (Hcf : nth ci (cf_clusters b) [] <> []) by (unfold no_empty in H3; rewrite Forall_forall in H3; apply H3, nth_In; lia).
  destruct (nth ci (cf_clusters b) []) as [|k ks] eqn:Ek; [congruence|].
  assert (Hk : k < length fs). { assert (X : In k (concat (cf_clusters b))) by (apply in_concat; exists (nth ci (cf_clusters b) []); split; [apply nth_In; lia|rewrite Ek; left; reflexivity]). apply (Permutation_in _ H2) in X. apply in_seq in X. lia. }
  destruct (Hc (nth k fs e0) (nth_In _ _ Hk)) as (p & Hp & Ep). destruct (In_nth _ _ [] Hp) as (i & Hi & Ei).
  destruct (H7 i Hi) as (k' & (Hk' & Hnear) & Hiff). rewrite map_length in Hk'.
  assert (Hnear' : forall j, j < length (map centroid fs) -> (sqdist p (nth k' (map centroid fs) []) <= sqdist p (nth j (map centroid fs) []))%Q) by (intros j Hj; rewrite <- Ei; exact (Hnear j Hj)). clear Hnear.
  assert (Z : (sqdist (centroid (nth k fs e0)) p == 0)%Q).
  { rewrite <- (sqdist_refl p). clear - Ep. unfold peq in Ep. induction Ep as [|x y l l' Hx F IH]; [reflexivity|]. cbn. rewrite Hx, IH. reflexivity. }
  assert (X : k' = k).
  { pose proof (Hnear' k ltac:(rewrite map_length; exact Hk)) as Hle. rewrite !Ln in Hle by assumption.
    assert (Ek' : peq (centroid (nth k' fs e0)) p).
    { apply sqdist_zero; [|apply Qle_antisym; [|apply sqdist_nonneg]].
      - pose proof (birch_spec data D number m branch maxe limit mult Hu Hm diameter Hne Hn Hl) as B. rewrite E in B. destruct B as ((gs & F & _) & _). fold fs in F. rewrite (Hu p Hp). clear - F Hk'.
        revert k' Hk'. induction F as [|f g fs gs Hf F IH]; intros k' Hk'; [cbn in Hk'; lia|]. destruct k' as [|k']; [exact (centroid_length D f g Hf)|]. cbn [nth]. apply IH. cbn in Hk'. lia.
      - rewrite <- Z. rewrite (sqdist_sym _ p), (sqdist_sym _ p). exact Hle. }
    destruct (Nat.lt_trichotomy k' k) as [L|[L|L]]; [|exact L|]; exfalso.
    - apply (Hd k' k L Hk). apply (peq_trans _ p); [exact Ek'|apply peq_sym; exact Ep].
    - apply (Hd k k' L Hk'). apply (peq_trans _ p); [exact Ep|apply peq_sym; exact Ek']. }
  subst k'. assert (Y : In i (nth ci (clusters b) [])) by (apply Hiff; rewrite Ek; left; reflexivity). rewrite Ec in Y. intros ->. exact Y.
Qed.
Print Assumptions C75_no_empty_partial.

(** three places, two points at one of them, two clusters *)
Example C75_case_partial : exists b, birch [[0%Q]; [5 # 1]; [5 # 1]; [11 # 1]] 2 CentroidEuclidean 2 2 10 (3 # 2) (1 # 2) = Ok b /\ length (features b) = 3 /\
  (forall f, In f (features b) -> exists p, In p [[0%Q]; [5 # 1]; [5 # 1]; [11 # 1]] /\ peq (centroid f) p) /\ length (clusters b) = 2 /\
  (forall k k', k < k' -> k' < length (features b) -> ~ peq (centroid (nth k (features b) e0)) (centroid (nth k' (features b) e0))).
Proof.
  eexists. split; [vm_compute; reflexivity|]. split; [reflexivity|]. cbn [features]. split; [|split; [reflexivity|]].
  - intros f H. cbn [In] in H. repeat (destruct H as [<-|H]; [|]); [| | |contradiction].
    all: first [exists [0%Q]; split; [cbn; tauto|repeat constructor; reflexivity]|exists [5 # 1]; split; [cbn; tauto|repeat constructor; reflexivity]|exists [11 # 1]; split; [cbn; tauto|repeat constructor; reflexivity]].
  - intros k k' Hlt Hk'. cbn [length] in Hk'. assert (X : (k = 0 /\ k' = 1) \/ (k = 0 /\ k' = 2) \/ (k = 1 /\ k' = 2)) by lia.
    destruct X as [[-> ->]|[[-> ->]|[-> ->]]]; intro P; inversion P as [|? ? ? ? Q _]; vm_compute in Q; discriminate.
Qed.
