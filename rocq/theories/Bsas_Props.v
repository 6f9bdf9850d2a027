(** C18, C19, C49 (BSAS), C67: BSAS, MBSAS, TTSAS *)
From Verif Require Import Base Kmeans_Model Kmeans_Proofs Bsas_Model Bsas_Proofs.

(** hypotheses on the caller's data: pairwise different list objects of one dimension *)
Definition good_data (h : list point) (data : list nat) (dim : nat) : Prop :=
  NoDup data /\ (forall r, In r data -> r < length h) /\ (forall r, In r data -> length (nth r h []) = dim).
(** the points as the caller gave them *)
Definition given (h : list point) (data : list nat) (i : nat) : point := nth (nth i data 0) h [].

(** clusters are a partition, and representative [k] (a list object) is the mean of cluster [k] *)
Definition partition_with_means (h : list point) (data : list nat) (dim : nat) (s : sst) : Prop :=
  partitions (length data) (clusters s) /\ no_empty (clusters s) /\ length (reps s) = length (clusters s) /\
  forall k, k < length (clusters s) ->
    is_mean dim (map (given h data) (nth k (clusters s) [])) (nth (nth k (reps s) 0) (heap s) []).

Lemma inv_means h data dim s seen : inv data h dim s seen -> Permutation seen (seq 0 (length data)) -> partition_with_means h data dim s.
Proof.
  intros H Hp. split; [unfold partitions; rewrite (i_perm _ _ _ _ _ H); auto|]. split; [apply (i_ne _ _ _ _ _ H)|]. split; [apply (i_len _ _ _ _ _ H)|].
  apply (i_mean _ _ _ _ _ H).
Qed.

Theorem C18_bsas metric h data dim amount thr : good_data h data dim -> data <> [] -> 1 <= amount -> (0 <= thr)%Q ->
  exists s, bsas metric data amount thr h = Ok s /\ partition_with_means h data dim s /\ length (clusters s) <= amount /\
    scheme metric dim (given h data) thr (fun m => amount <= m) (seq 0 (length data)) (clusters s).
Proof.
  intros (H1 & H2 & H3) Hd Ha Ht. assert (Hn : 1 <= length data) by (destruct data; [congruence|simpl; lia]).
  destruct (bsas_process_inv metric data h dim H1 H2 H3 amount thr Ha Hn) as (I1 & I2 & I3 & _).
  exists (bsas_process metric data amount thr (mkS h [] [])). split.
  - unfold bsas, verify_arguments. destruct data; [congruence|]. destruct (Nat.eqb_spec amount 0); [lia|].
    replace (Qltb thr 0) with false; auto. symmetry. apply Qltb_false. auto.
  - split; [apply inv_means with (seq 0 (length data)); auto|]. auto.
Qed.
Print Assumptions C18_bsas.

(** MBSAS: founders of the clusters are farther than the threshold from all earlier founders,
    and when the limit is not reached everything else is within the threshold of a founder *)
Theorem C18_mbsas metric h data dim amount thr : good_data h data dim -> data <> [] -> 1 <= amount -> (0 <= thr)%Q ->
  exists s, mbsas metric data amount thr h = Ok s /\ partition_with_means h data dim s /\ length (clusters s) <= amount /\
    (let founders := map (hd 0) (clusters s) in
     (forall j k, j < k -> k < length founders -> (thr < metric (given h data (nth k founders 0%nat)) (given h data (nth j founders 0%nat)))%Q) /\
     (length (clusters s) < amount -> forall i, i < length data -> ~ In i founders ->
        exists f, In f founders /\ (metric (given h data i) (given h data f) <= thr)%Q)).
Proof.
  intros (H1 & H2 & H3) Hd Ha Ht. assert (Hn : 1 <= length data) by (destruct data; [congruence|simpl; lia]).
  destruct (mbsas_process_inv metric data h dim H1 H2 H3 amount thr Ha Hn) as (seen & I1 & I2 & I3 & I4 & I5).
  exists (mbsas_process metric data amount thr (mkS h [] [])). split.
  - unfold mbsas, verify_arguments. destruct data; [congruence|]. destruct (Nat.eqb_spec amount 0); [lia|].
    replace (Qltb thr 0) with false; auto. symmetry. apply Qltb_false. auto.
  - split; [apply inv_means with seen; auto|]. split; auto. cbn zeta. split; [exact I4|].
    intros Hl i Hi Hf. destruct (I5 Hl i Hi) as [Hc|Hc]; [contradiction|exact Hc].
Qed.
Print Assumptions C18_mbsas.

(** TTSAS terminates within 2 * len(data) passes *)
Theorem C18_ttsas metric h data dim thr thr2 : good_data h data dim -> data <> [] -> (0 <= thr)%Q ->
  exists t0 t order, ttsas_new data thr h = Ok t0 /\
    (forall fuel, 2 * length data <= fuel -> exists t', ttsas_process metric data thr thr2 fuel t0 = Some t') /\
    ttsas_process metric data thr thr2 (2 * length data) t0 = Some t /\
    partition_with_means h data dim (base t) /\ Permutation order (seq 0 (length data)) /\
    scheme metric dim (given h data) thr (fun _ => False) order (clusters (base t)).
Proof.
  intros (H1 & H2 & H3) Hd Ht. exists (mkT (mkS h [] []) (repeat true (length data))).
  assert (Ha : amount_skipped (mkT (mkS h [] []) (repeat true (length data))) = length data).
  { unfold amount_skipped. cbn [skipped]. generalize (length data) as m. induction m; simpl; auto. }
  assert (H : forall fuel, 2 * length data <= fuel -> exists t' seen', ttsas_loop metric data thr thr2 fuel 0 (mkT (mkS h [] []) (repeat true (length data))) = Some t' /\
     tinv metric data h dim thr t' seen' /\ amount_skipped t' = 0).
  { intros fuel Hf. apply (ttsas_loop_spec metric data h dim H1 H2 H3 thr thr2 fuel 0 _ []).
    - apply tinv_start.
    - intros _ i Hi _ c [].
    - congruence.
    - rewrite Ha. simpl. lia. }
  destruct (H (2 * length data) (le_n _)) as (t & seen & E & I & Hz). exists t, seen. split.
  - unfold ttsas_new, verify_arguments. destruct data; [congruence|]. cbn [length Nat.eqb]. replace (Qltb thr 0) with false; auto. symmetry. apply Qltb_false. auto.
  - split; [intros fuel Hf; destruct (H fuel Hf) as (t' & _ & E' & _); eauto|]. split; [exact E|].
    assert (Hall : Permutation seen (seq 0 (length data))).
    { apply NoDup_Permutation; [apply (i_nd _ _ _ _ _ (t_inv _ _ _ _ _ _ _ I))|apply seq_NoDup|]. intros i. rewrite in_seq. split.
      - intros Hi. apply (i_seen _ _ _ _ _ (t_inv _ _ _ _ _ _ _ I)) in Hi. lia.
      - intros [_ Hi]. simpl in Hi. destruct (in_dec Nat.eq_dec i seen); auto. exfalso.
        apply (t_skip _ _ _ _ _ _ _ I i Hi) in n. unfold amount_skipped in Hz.
        assert (Hin : In true (filter (fun b => b) (skipped t))).
        { apply filter_In. split; auto. rewrite <- n. apply nth_In. rewrite (t_len _ _ _ _ _ _ _ I). auto. }
        destruct (filter (fun b => b) (skipped t)); [contradiction|discriminate]. }
    split; [apply inv_means with seen; auto; apply (t_inv _ _ _ _ _ _ _ I)|]. split; auto. apply (t_scheme _ _ _ _ _ _ _ I).
Qed.
Print Assumptions C18_ttsas.

Theorem C18_refused metric h data amount thr :
  (data = [] \/ amount = 0 \/ (thr < 0)%Q) <-> (bsas metric data amount thr h = Raise ValueError /\ mbsas metric data amount thr h = Raise ValueError).
Proof.
  unfold bsas, mbsas, verify_arguments. destruct data as [|r t]; [tauto|]. destruct (Nat.eqb_spec amount 0); [tauto|].
  destruct (Qltb thr 0) eqn:E.
  - apply Qltb_true in E. tauto.
  - apply Qltb_false in E. split; [|intros [? _]; discriminate]. intros [?|[?|?]]; [discriminate|contradiction|lra].
Qed.
Print Assumptions C18_refused.

(** with one list object at two places of the data, the means are wrong: [[0],[1],[0]] with the
    first and the last entry being the same object *)
Theorem C18_shared_object_refuted : exists h data amount thr s,
  (forall r, In r data -> r < length h) /\ bsas sqdist data amount thr h = Ok s /\
  ~ is_mean 1 (map (given h data) (nth 0 (clusters s) [])) (nth (nth 0 (reps s) 0) (heap s) []).
Proof.
  exists [[0]; [1]]%Q, [0; 1; 0], 1, 5%Q. eexists. split; [intros r [<-|[<-|[<-|[]]]]; simpl; lia|]. split; [reflexivity|].
  intros [_ H]. specialize (H 0 ltac:(lia)). revert H. vm_compute. discriminate.
Qed.
Print Assumptions C18_shared_object_refuted.

Example C18_case : good_data [[0]; [1]; [10]; [11]; [4]]%Q [0; 1; 2; 3; 4] 1 /\
  (exists s, bsas sqdist [0; 1; 2; 3; 4] 2 4%Q [[0]; [1]; [10]; [11]; [4]]%Q = Ok s /\ clusters s = [[0; 1; 4]; [2; 3]]) /\
  (exists s, mbsas sqdist [0; 1; 2; 3; 4] 3 4%Q [[0]; [1]; [10]; [11]; [4]]%Q = Ok s /\ clusters s = [[0; 1]; [2; 3]; [4]]) /\
  (exists t, ttsas_process sqdist [0; 1; 2; 3; 4] 4%Q 20%Q 10 (mkT (mkS [[0]; [1]; [10]; [11]; [4]]%Q [] []) (repeat true 5)) = Some t /\
     clusters (base t) = [[0; 1]; [2; 3]; [4]]).
Proof.
  split; [split; [|split]|].
  - repeat constructor; simpl; intuition; lia.
  - intros r Hr. simpl in *. intuition; subst; lia.
  - intros r Hr. simpl in *. intuition; subst; reflexivity.
  - split; [|split]; eexists; split; vm_compute; reflexivity.
Qed.

(** C19 is false: clustering [[0],[1]] overwrites the first point *)
Theorem C19_caller_data_refuted : exists h data amount thr s, good_data h data 1 /\
  bsas sqdist data amount thr h = Ok s /\ ~ peq (nth 0 (heap s) []) (nth 0 h []).
Proof.
  exists [[0]; [1]]%Q, [0; 1], 1, 5%Q. eexists. split; [|split; [reflexivity|]].
  - split; [repeat constructor; simpl; intuition; lia|]. split; intros r Hr; simpl in *; intuition; subst; auto.
  - intros H. rewrite <- peqb_true in H. vm_compute in H. discriminate.
Qed.
Print Assumptions C19_caller_data_refuted.

(** what happens to the caller's lists: only the founders of clusters change, to the mean of
    their cluster *)
Theorem C19_only_founders metric h data dim amount thr s : good_data h data dim -> data <> [] -> 1 <= amount ->
  (bsas metric data amount thr h = Ok s \/ mbsas metric data amount thr h = Ok s) ->
  length (heap s) = length h /\
  (forall i, i < length data -> ~ In i (map (hd 0) (clusters s)) -> nth (nth i data 0) (heap s) [] = given h data i) /\
  (forall k, k < length (clusters s) -> is_mean dim (map (given h data) (nth k (clusters s) [])) (nth (nth (hd 0 (nth k (clusters s) [])) data 0) (heap s) [])).
Proof.
  intros (H1 & H2 & H3) Hd Ha Hs. assert (Hn : 1 <= length data) by (destruct data; [congruence|simpl; lia]).
  assert (Hinv : exists seen, inv data h dim s seen /\ Permutation seen (seq 0 (length data))).
  { destruct Hs as [Hs|Hs].
    - unfold bsas in Hs. destruct (verify_arguments _ _ _); [discriminate|]. apply Ok_inj in Hs. subst s.
      destruct (bsas_process_inv metric data h dim H1 H2 H3 amount thr Ha Hn) as (I1 & _). eauto.
    - unfold mbsas in Hs. destruct (verify_arguments _ _ _); [discriminate|]. apply Ok_inj in Hs. subst s.
      destruct (mbsas_process_inv metric data h dim H1 H2 H3 amount thr Ha Hn) as (seen & I1 & I2 & _). eauto. }
  destruct Hinv as (seen & I & Hp). split; [apply (i_heap _ _ _ _ _ I)|]. split.
  - intros i Hi Hf. apply (i_same _ _ _ _ _ I). intro Hr. apply (In_nth _ _ 0) in Hr as [k [Hk E]]. rewrite (i_len _ _ _ _ _ I) in Hk.
    rewrite (i_rep _ _ _ _ _ I k Hk) in E. apply (ref_inj data H1) in E; auto.
    + apply Hf. rewrite <- E. apply in_map. apply nth_In. auto.
    + apply (i_seen _ _ _ _ _ I), (founder_in data h dim s seen); auto.
  - intros k Hk. pose proof (i_mean _ _ _ _ _ I k Hk) as M. rewrite (i_rep _ _ _ _ _ I k Hk) in M. exact M.
Qed.
Print Assumptions C19_only_founders.

(** C49 for BSAS: a second process() adds the objects again *)
Theorem C49_bsas_reprocess_refuted : exists h data amount thr s,
  good_data h data 1 /\ bsas sqdist data amount thr h = Ok s /\ partitions (length data) (clusters s) /\
  ~ partitions (length data) (clusters (bsas_process sqdist data amount thr s)).
Proof.
  exists [[0]; [10]]%Q, [0; 1], 2, 1%Q. eexists. split; [|split; [reflexivity|]].
  - split; [repeat constructor; simpl; intuition; lia|]. split; intros r Hr; simpl in *; intuition; subst; auto.
  - split; [vm_compute; apply Permutation_refl|]. intros H. apply Permutation_length in H. vm_compute in H. discriminate.
Qed.
Print Assumptions C49_bsas_reprocess_refuted.

(** C67: a TTSAS object that finished is left alone by a second process() *)
Theorem C67_ttsas_reprocess metric data thr thr2 fuel t0 t :
  ttsas_process metric data thr thr2 fuel t0 = Some t -> forall fuel', ttsas_process metric data thr thr2 fuel' t = Some t.
Proof.
  intros H. assert (Hz : amount_skipped t = 0).
  { unfold ttsas_process in H. revert H. generalize 0 at 1. revert t0. induction fuel as [|f IH]; intros t0 c H; cbn [ttsas_loop] in H;
      destruct (Nat.eqb_spec (amount_skipped t0) 0); try discriminate; try (injection H as <-; auto). eapply IH; eauto. }
  intros [|f]; unfold ttsas_process; cbn [ttsas_loop]; rewrite Hz; reflexivity.
Qed.
Print Assumptions C67_ttsas_reprocess.
