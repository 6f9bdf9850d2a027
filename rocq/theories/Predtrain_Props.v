(** predict() of the data that was clustered: C226. *)
From Verif Require Import Base Kmeans_Model Kmeans_Proofs Kmedoids_Model Kmedoids_Proofs Predict_Model.
From Coq Require Import Lia Lqa Qabs.
Open Scope nat_scope.

(** the labels of [n] objects say the same as the clusters *)
Definition agree (n : nat) (clusters : list (list nat)) (labels : list nat) : Prop :=
  length labels = n /\ forall k i, k < length clusters -> (In i (nth k clusters []) <-> i < n /\ nth i labels 0 = k).

(** ** the first smallest element *)
Definition first_least (l : list Q) (j : nat) : Prop :=
  j < length l /\ (forall i, i < length l -> (nth j l 0 <= nth i l 0)%Q) /\ (forall i, i < j -> (nth j l 0 < nth i l 0)%Q).
Lemma first_least_unique l j j' : first_least l j -> first_least l j' -> j = j'.
Proof.
  intros (A1 & A2 & A3) (B1 & B2 & B3). destruct (lt_eq_lt_dec j j') as [[H|H]|H]; [exfalso| exact H |exfalso].
  - specialize (B3 j H). specialize (A2 j' B1). lra.
  - specialize (A3 j' H). specialize (B2 j A1). lra.
Qed.
Lemma argmin_from_first (all : list Q) l : forall best i, length all = i + length l -> skipn i all = l -> best < i ->
  (forall j, j < i -> (nth best all 0 <= nth j all 0)%Q) -> (forall j, j < best -> (nth best all 0 < nth j all 0)%Q) ->
  first_least all (argmin_from best (nth best all 0%Q) i l).
Proof.
  induction l as [|v l IH]; intros best i Hl Hs Hb Hle Hlt; cbn [argmin_from].
  - simpl in Hl. unfold first_least. replace (length all) with i by lia. auto.
  - cbn [length] in Hl.
    assert (Hv : v = nth i all 0%Q). { rewrite <- (firstn_skipn i all), app_nth2 by (rewrite firstn_length; lia). rewrite firstn_length, Hs. replace (i - _) with 0 by lia. reflexivity. }
    assert (Hs' : skipn (S i) all = l). { replace (S i) with (1 + i) by lia. rewrite <- (firstn_skipn i all), Hs. rewrite skipn_app. rewrite firstn_length. replace (1 + i - Nat.min i (length all)) with 1 by lia. rewrite skipn_all2 by (rewrite firstn_length; lia). reflexivity. }
    destruct (Qltb v (nth best all 0%Q)) eqn:E.
    + apply Qltb_true in E. rewrite Hv in *. apply IH; auto; [lia| |]; intros j Hj.
      * destruct (Nat.eq_dec j i) as [->|]; [lra|]. specialize (Hle j ltac:(lia)). lra.
      * specialize (Hle j Hj). lra.
    + apply Qltb_false in E. apply IH; auto; [lia|]. intros j Hj. destruct (Nat.eq_dec j i) as [->|]; [rewrite <- Hv; lra|]. apply Hle. lia.
Qed.
Lemma argmin_first l : l <> [] -> first_least l (argmin l).
Proof.
  destruct l as [|v l]; [congruence|]. intros _. cbn [argmin]. apply (argmin_from_first (v :: l) l 0 1); auto.
  - intros j Hj. replace j with 0 by lia. simpl. lra.
  - intros j Hj. lia.
Qed.
Lemma argmin_is l j : first_least l j -> argmin l = j.
Proof. intros H. apply (first_least_unique l); [apply argmin_first|exact H]. destruct H as (H & _). intros ->. simpl in H. lia. Qed.
Lemma argmin_qeq l l' : length l = length l' -> (forall i, i < length l -> (nth i l 0 == nth i l' 0)%Q) -> argmin l = argmin l'.
Proof.
  intros Hl H. destruct l as [|v l0] eqn:El; [destruct l'; [reflexivity|discriminate]|]. rewrite <- El in *. apply argmin_is. destruct (argmin_first l') as (A & B & C); [rewrite El in Hl; destruct l'; [discriminate|discriminate]|].
  split; [lia|]. split; intros i Hi; rewrite !H by lia; [apply B; lia|apply C; exact Hi].
Qed.

Lemma filter_pos {A : Type} (f : A -> bool) (l : list A) d : exists pos : nat -> nat, forall k, k < length (filter f l) ->
  pos k < length l /\ nth k (filter f l) d = nth (pos k) l d /\ forall k2, k2 < k -> pos k2 < pos k.
Proof.
  induction l as [|x l (pos & H)]; [exists (fun k => k); simpl; intros; lia|]. cbn [filter]. destruct (f x).
  - exists (fun k => match k with 0 => 0 | S k => S (pos k) end). intros [|k] Hk; cbn [length] in *; [split; [lia|]; split; [reflexivity|intros; lia]|].
    destruct (H k ltac:(lia)) as (A1 & A2 & A3). split; [lia|]. split; [exact A2|]. intros [|k2] Hk2; [lia|]. specialize (A3 k2 ltac:(lia)). lia.
  - exists (fun k => S (pos k)). intros k Hk. destruct (H k Hk) as (A1 & A2 & A3). cbn [length]. split; [lia|]. split; [exact A2|]. intros k2 Hk2. specialize (A3 k2 Hk2). lia.
Qed.

(** ** the nearest medoid of an object is found by argmin *)
Lemma scan_label D i t : forall index io first second, t_label (scan D i t index (io, first, second)) = argmin_from io first index (map (D i) t).
Proof.
  induction t as [|m t IH]; intros index io first second; [reflexivity|]. cbn [scan map argmin_from]. destruct (Qltb (D i m) first); [apply IH|].
  destruct (match second with None => true | Some s => Qltb (D i m) s end); apply IH.
Qed.
Lemma nearest2_label D M i : t_label (nearest2 D M i) = argmin (map (D i) M).
Proof. destruct M as [|m t]; [reflexivity|]. cbn [nearest2 map argmin]. apply scan_label. Qed.

Lemma nth_map_D (D : nat -> Q) M k : k < length M -> nth k (map D M) 0%Q = D (nth k M 0).
Proof. intros H. rewrite (nth_indep _ 0%Q (D 0)) by (rewrite map_length; exact H). apply map_nth. Qed.

(** clusters around [M] without the empty ones: an object is in the cluster of its nearest remaining medoid *)
Lemma erased_agree (D : nat -> nat -> Q) n M : M <> [] ->
  let r := erase_empty (med_clusters D n M) M in
  forall k i, k < length (fst r) -> (In i (nth k (fst r) []) <-> i < n /\ argmin (map (D i) (snd r)) = k).
Proof.
  intros Hne. cbn zeta. set (kept := filter (fun cm : list nat * nat => nonempty (fst cm)) (combine (med_clusters D n M) M)).
  change (fst (erase_empty (med_clusters D n M) M)) with (map fst kept). change (snd (erase_empty (med_clusters D n M) M)) with (map snd kept).
  assert (G : med_clusters D n M = groups_of (fun i => argmin (map (D i) M)) n (length M)).
  { rewrite med_clusters_groups. apply groups_of_ext. intros i _. apply nearest2_label. }
  assert (Lg : length (med_clusters D n M) = length M) by (rewrite G; unfold groups_of; rewrite map_length, seq_length; reflexivity).
  assert (Gk : forall j i, j < length M -> (In i (nth j (med_clusters D n M) []) <-> i < n /\ argmin (map (D i) M) = j)).
  { intros j i Hj. rewrite G. unfold groups_of. rewrite nth_map_seq0 by exact Hj. rewrite filter_In, in_seq, Nat.eqb_eq. intuition lia. }
  assert (Amin : forall i, first_least (map (D i) M) (argmin (map (D i) M))) by (intros i; apply argmin_first; destruct M; [congruence|discriminate]).
  destruct (filter_pos (fun cm : list nat * nat => nonempty (fst cm)) (combine (med_clusters D n M) M) ([], 0)) as (pos & Hpos). fold kept in Hpos.
  assert (Lc : length (combine (med_clusters D n M) M) = length M) by (rewrite combine_length; lia).
  assert (Pos : forall k, k < length kept -> pos k < length M /\ nth k (map fst kept) [] = nth (pos k) (med_clusters D n M) [] /\ nth k (map snd kept) 0 = nth (pos k) M 0 /\ forall k2, k2 < k -> pos k2 < pos k).
  { intros k Hk. destruct (Hpos k Hk) as (A1 & A2 & A3). rewrite Lc in A1. rewrite combine_nth in A2 by exact Lg. split; [exact A1|]. split; [|split; [|exact A3]].
    - change (@nil nat) with (fst (@nil nat, 0)) at 1. rewrite map_nth, A2. reflexivity.
    - change 0 with (snd (@nil nat, 0)) at 1. rewrite map_nth, A2. reflexivity. }
  assert (Fw : forall k i, k < length kept -> In i (nth k (map fst kept) []) -> i < n /\ argmin (map (D i) (map snd kept)) = k).
  { intros k i Hk Hi. destruct (Pos k Hk) as (A1 & A2 & A3 & A4). rewrite A2 in Hi. apply Gk in Hi as [Hi Ea]; [|exact A1]. split; [exact Hi|]. apply argmin_is.
    pose proof (Amin i) as (_ & B2 & B3). rewrite Ea in B2, B3. rewrite map_length in B2.
    unfold first_least. rewrite !map_length. split; [exact Hk|].
    assert (N : forall k2, k2 < length kept -> nth k2 (map (D i) (map snd kept)) 0%Q = nth (pos k2) (map (D i) M) 0%Q).
    { intros k2 Hk2. destruct (Pos k2 Hk2) as (C1 & _ & C3 & _). rewrite !nth_map_D by (try rewrite map_length; auto). rewrite C3. reflexivity. }
    split; intros k2 Hk2; rewrite !N by lia.
    - apply B2. apply (Pos k2 Hk2).
    - apply B3. apply A4. exact Hk2. }
  intros k i Hk. rewrite map_length in Hk. split; [apply Fw; exact Hk|]. intros (Hi & Ea).
  assert (In (nth (argmin (map (D i) M)) (combine (med_clusters D n M) M) ([], 0)) kept) as Hin.
  { pose proof (Amin i) as (B1 & _). rewrite map_length in B1. apply filter_In. split; [apply nth_In; rewrite Lc; exact B1|]. rewrite combine_nth by exact Lg. cbn [fst].
    assert (I : In i (nth (argmin (map (D i) M)) (med_clusters D n M) [])) by (apply Gk; auto). destruct (nth (argmin (map (D i) M)) (med_clusters D n M) []); [destruct I|reflexivity]. }
  apply (In_nth _ _ ([], 0)) in Hin as (k' & Hk' & E').
  assert (I : In i (nth k' (map fst kept) [])).
  { change (@nil nat) with (fst (@nil nat, 0)) at 1. rewrite map_nth, E'. pose proof (Amin i) as (B1 & _). rewrite map_length in B1. rewrite combine_nth by exact Lg. cbn [fst]. apply Gk; auto. }
  destruct (Fw k' i Hk' I) as (_ & E2). rewrite E2 in Ea. rewrite <- Ea. exact I.
Qed.

(** C226.  k-medoids of points: predict() of the data gives each point the cluster it is in, for every tolerance and limit
    (at least one iteration), also when empty clusters were left out. *)
Theorem C226_kmedoids (metric : point -> point -> Q) (data : list point) initial tol itermax r :
  (forall p, (metric p p == 0)%Q) -> (forall p q, (0 <= metric p q)%Q) -> initial <> [] -> (forall m, In m initial -> m < length data) -> 1 <= itermax ->
  kmedoids_process (fun i j => metric (nth i data []) (nth j data [])) (length data) initial tol itermax = Ok r ->
  agree (length data) (r_clusters r) (kmedoids_predict metric data (r_clusters r) (r_medoids r) data).
Proof.
  intros H1 H2 H3 H4 Hi H. set (D := fun i j => metric (nth i data []) (nth j data [])) in *.
  unfold kmedoids_process in H. destruct (length data =? 0) eqn:En; [discriminate|]. destruct initial as [|m0 mt] eqn:Einit; [congruence|]. rewrite <- Einit in *. clear Einit.
  destruct (Qltb tol 0); [discriminate|]. destruct itermax as [|it]; [lia|].
  pose proof (kmedoids_loop_spec D (length data) (fun i _ => H1 _) (fun i j _ _ => H2 _ _) tol (S it) None initial 0 (med_deviation D (length data) initial) (conj H3 H4) (med_deviation_spec D (length data) initial H3)) as Hs.
  destruct (kmedoids_loop D (length data) tol (S it) None initial 0 (med_deviation D (length data) initial)) as [[M its] total].
  assert (HM : M <> []) by (destruct Hs as ((HM & _) & _); exact HM). clear Hs.
  pose proof (erased_agree D (length data) M HM) as A. cbn zeta in A. destruct (erase_empty (med_clusters D (length data) M) M) as [cl me] eqn:Ee. cbn [fst snd] in A. apply Ok_inj in H. subst r. cbn [r_clusters r_medoids].
  assert (Hcl : cl <> []).
  { pose proof (kmedoids_loop_spec) as _. intros ->.
    assert (X : filter nonempty (med_clusters D (length data) M) = []). { rewrite <- erase_fst with (medoids := M); [rewrite Ee; reflexivity|]. rewrite med_clusters_groups. unfold groups_of. rewrite map_length, seq_length. reflexivity. }
    assert (I : In 0 (concat (filter nonempty (med_clusters D (length data) M)))).
    { rewrite concat_filter_nonempty, med_clusters_groups. apply in_concat. exists (nth (t_label (nearest2 D M 0)) (groups_of (fun i => t_label (nearest2 D M i)) (length data) (length M)) []).
      assert (L : t_label (nearest2 D M 0) < length M). { rewrite nearest2_label. destruct (argmin_first (map (D 0) M)) as (L & _); [destruct M; [congruence|discriminate]|]. rewrite map_length in L. exact L. }
      split; [apply nth_In; unfold groups_of; rewrite map_length, seq_length; exact L|]. unfold groups_of. rewrite nth_map_seq0 by exact L. apply filter_In. split; [|apply Nat.eqb_refl]. apply in_seq. apply Nat.eqb_neq in En. lia. }
    rewrite X in I. exact I. }
  unfold kmedoids_predict. destruct cl as [|c0 ct] eqn:Ec; [congruence|]. rewrite <- Ec in *. split; [now rewrite map_length|]. intros k i Hk. rewrite (A k i Hk).
  split; intros (Hn & E); (split; [exact Hn|]); rewrite <- E; clear E;
   (rewrite (nth_indep _ 0 (argmin (map (metric []) (map (fun i => nth i data []) me)))) by (rewrite map_length; exact Hn); rewrite (map_nth (fun p => argmin (map (metric p) (map (fun i => nth i data []) me)))); rewrite map_map; reflexivity).
Qed.
Print Assumptions C226_kmedoids.
(** objects 0 and 1 are the same point, so the cluster of one of the medoids is empty and left out; get_labels() then says
    otherwise (C64), predict() does not *)
Example C226_kmedoids_case : exists r, kmedoids_process (fun i j => sqdist (nth i [[0]; [0]; [5]]%Q []) (nth j [[0]; [0]; [5]]%Q [])) 3 [0; 1; 2] (1 # 1000) 200 = Ok r /\
  r_clusters r = [[0; 1]; [2]] /\ kmedoids_predict sqdist [[0]; [0]; [5]]%Q (r_clusters r) (r_medoids r) [[0]; [0]; [5]]%Q = [0; 0; 1] /\ r_labels r = [0; 0; 2].
Proof. eexists. split; [vm_compute; reflexivity|]. split; [reflexivity|]. split; vm_compute; reflexivity. Qed.

(** C226 is false of k-medoids of a distance matrix, whose rows are given to predict() for the objects: the rows are compared
    with the rows of the medoids as if they were points, rather than looked up.  The objects are 5, 8, 13, 4, 20 and 9; the
    object 13 is in the cluster of the medoid 20, and predict() gives it to the cluster of the medoid 5 *)
Definition c226_matrix : list (list Q) := map (fun a => map (fun b => Qabs (a - b)) [5; 8; 13; 4; 20; 9]%Q) [5; 8; 13; 4; 20; 9]%Q.
Theorem C226_kmedoids_matrix_refuted : exists r, kmedoids_process (fun i j => nth j (nth i c226_matrix []) 0%Q) 6 [2; 3] (1 # 1000) 200 = Ok r /\
  exists i, In i (nth 0 (r_clusters r) []) /\ (forall k, k < length (r_medoids r) -> k <> 0 -> (nth (nth 0 (r_medoids r) 0%nat) (nth i c226_matrix []) 0 < nth (nth k (r_medoids r) 0%nat) (nth i c226_matrix []) 0)%Q) /\
    nth i (kmedoids_predict sqdist c226_matrix (r_clusters r) (r_medoids r) c226_matrix) 0 = 1.
Proof.
  eexists. split; [vm_compute; reflexivity|]. exists 2. split; [vm_compute; left; reflexivity|]. split; [|vm_compute; reflexivity].
  intros [|[|k]] H1 H2; [congruence|vm_compute; reflexivity|cbn in H1; lia].
Qed.
Print Assumptions C226_kmedoids_matrix_refuted.

(** k-means that has come to rest *)
Lemma stop_agree data initial u : data <> [] -> uniform (dimension data) data -> initial <> [] -> uniform (dimension data) initial -> exceeds (chg data initial u) 0 = false ->
  agree (length data) (grp data initial u) (kmeans_predict sqdist (grp data initial u) (run data initial u) data).
Proof.
  intros data_ne data_dim init_ne Hui Hex. destruct u as [|t]; [discriminate|].
  destruct (run_ok data data_ne initial init_ne t) as (Hok & Hne & Hl).
  destruct (kmeans_ok_uniform data data_ne _ _ _ Hok) as [Hne' Hu'].
  assert (Hu : uniform (dimension data) (run data initial t)).
  { destruct t; auto. destruct (run_ok data data_ne initial init_ne t) as (Hokt & _). apply (kmeans_ok_uniform data data_ne _ _ _ Hokt). }
  unfold chg, kmeans_changes in Hex. fold (run data initial (S t)) in Hex.
  destruct (Nat.eqb_spec (length (run data initial t)) (length (run data initial (S t)))) as [El|]; [|discriminate].
  cbn [exceeds] in Hex. apply Qltb_false in Hex.
  assert (Hpe : forall k, k < length (run data initial t) -> peq (nth k (run data initial t) []) (nth k (run data initial (S t)) [])).
  { intros k Hk. apply sqdist_zero.
    - rewrite (Hu (nth k (run data initial t) [])) by (apply nth_In; auto). symmetry. apply Hu'. apply nth_In. rewrite <- El. exact Hk.
    - assert (Hin : In (sqdist (nth k (run data initial t) []) (nth k (run data initial (S t)) [])) (map (fun cu => sqdist (fst cu) (snd cu)) (combine (run data initial t) (run data initial (S t))))).
      { apply in_map_iff. exists (nth k (run data initial t) [], nth k (run data initial (S t)) []). split; auto.
        rewrite <- combine_nth by exact El. apply nth_In. rewrite combine_length, <- El, Nat.min_id. exact Hk. }
      apply maxQ_ge in Hin. pose proof (sqdist_nonneg (nth k (run data initial t) []) (nth k (run data initial (S t)) [])). lra. }
  assert (Hfull : length (assign sqdist data (run data initial t)) = length (run data initial t)).
  { change (run data initial (S t)) with (kmeans_update_centers data (kmeans_update_clusters sqdist data (run data initial t))) in El. unfold kmeans_update_centers in El.
    rewrite map_length, kmeans_assign in El. auto. }
  assert (Hg : grp data initial (S t) = groups_of (fun i => argmin (map (sqdist (nth i data [])) (run data initial t))) (length data) (length (run data initial t))).
  { change (grp data initial (S t)) with (kmeans_update_clusters sqdist data (run data initial t)). rewrite kmeans_assign. apply assign_full. exact Hfull. }
  assert (Hmin : forall p, argmin (map (sqdist p) (run data initial t)) = argmin (map (sqdist p) (run data initial (S t)))).
  { intros p. apply argmin_qeq; [rewrite !map_length; exact El|]. intros i Hi. rewrite map_length in Hi. rewrite !nth_map_metric by lia. apply sqdist_peq_r. apply Hpe. exact Hi. }
  unfold kmeans_predict. destruct (grp data initial (S t)) as [|g0 gt] eqn:Egrp.
  { exfalso. destruct (run data initial t) as [|c ct] eqn:Er; [congruence|]. unfold groups_of in Hg. cbn [length seq map] in Hg. discriminate. }
  rewrite <- Egrp in *. split; [now rewrite map_length|]. intros k i Hk. rewrite Hg in Hk |- *. unfold groups_of in Hk |- *. rewrite map_length, seq_length in Hk. rewrite nth_map_seq0 by exact Hk.
  rewrite filter_In, in_seq, Nat.eqb_eq.
  assert (L : i < length data -> nth i (map (fun p => argmin (map (sqdist p) (run data initial (S t)))) data) 0 = argmin (map (sqdist (nth i data [])) (run data initial t))).
  { intros Hi. rewrite (nth_indep _ 0 (argmin (map (sqdist []) (run data initial (S t))))) by (rewrite map_length; exact Hi). rewrite (map_nth (fun p => argmin (map (sqdist p) (run data initial (S t))))). symmetry. apply Hmin. }
  split; intros (A & B); (split; [lia|]); [rewrite L by lia; exact B|rewrite L in B by lia; exact B].
Qed.

(** k-means with zero tolerance and a limit of iterations that is large enough: predict() of the data gives each point the
    cluster it is in *)
Theorem C226_kmeans (data initial : list point) : data <> [] -> uniform (dimension data) data -> initial <> [] -> uniform (dimension data) initial ->
  exists B, forall itermax, B <= itermax -> exists clusters centers w,
    kmeans_process sqdist data initial 0 itermax = Ok (clusters, centers, w) /\ agree (length data) clusters (kmeans_predict sqdist clusters centers data).
Proof.
  intros Hd Hu Hi Hui. destruct (kmeans_stops data Hd Hu initial Hi) as (u0 & _ & Hu0). exists (S u0). intros m Hm.
  destruct (loop_run data initial 0 m 0) as [[H _]|(u & H1 & H2 & H3 & H4)].
  { rewrite H in Hu0 by lia. discriminate. }
  assert (Hl : length (nth 0 data []) = length (nth 0 initial [])). { destruct initial; [congruence|]. symmetry. apply Hui. simpl. auto. }
  exists (grp data initial u), (run data initial u), (total_wce sqdist data (grp data initial u) (run data initial u)). split; [|apply stop_agree; auto].
  change (chg data initial 0) with (@None Q) in H4. change (grp data initial 0) with (@nil (list nat)) in H4. change (run data initial 0) with initial in H4.
  unfold kmeans_process. destruct data as [|p0 pt] eqn:Ed; [congruence|]. rewrite <- Ed in *. destruct initial as [|c0 ct] eqn:Ec; [congruence|]. rewrite <- Ec in *.
  replace (Qltb 0 0) with false by reflexivity. assert (E0 : length p0 = length c0) by (rewrite Ed, Ec in Hl; exact Hl). rewrite E0, Nat.eqb_refl. rewrite H4. reflexivity.
Qed.
Print Assumptions C226_kmeans.

(** C226 is false of k-means with its default tolerance 0.001 (of the squared Euclidean distance) and its default limit of
    200 iterations: the centres still moved in the last iteration, and the point 1.84 of the second cluster is now nearest
    to the centre of the first *)
Theorem C226_kmeans_default_refuted : exists data initial clusters centers w, kmeans_process sqdist data initial (1 # 1000) 200 = Ok (clusters, centers, w) /\
  exists i, In i (nth 1 clusters []) /\ nth i (kmeans_predict sqdist clusters centers data) 1 = 0.
Proof.
  exists [[12 # 5]; [46 # 25]; [18 # 25]]%Q, [[12 # 5]; [13 # 10]]%Q. do 3 eexists. split; [vm_compute; reflexivity|]. exists 1. vm_compute. split; [left; reflexivity|reflexivity].
Qed.
Print Assumptions C226_kmeans_default_refuted.
