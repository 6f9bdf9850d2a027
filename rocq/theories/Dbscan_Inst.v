(** DBSCAN over points (kd-tree searcher) and over a distance matrix: the generic theorem instantiated. *)
From Verif Require Import Base Search_Model Kd_Model Kd_Proofs Dbscan_Model Dbscan_Proofs.

(** ** Specification *)
(** points: neighbours are the other points within the closed ball *)
Definition near (data : list point) (eps : Q) (x y : nat) : bool :=
  negb (y =? x) && Qle_bool (sqdist (nth x data []) (nth y data [])) (eps * eps).

Definition near_matrix (m : list (list Q)) (eps : Q) (x y : nat) : bool :=
  negb (y =? x) && Qle_bool (nth y (nth x m []) 0%Q) eps.

Definition same_dimension (D : nat) (data : list point) : Prop := Forall (fun p => length p = D) data.

Definition symmetric_matrix (m : list (list Q)) : Prop :=
  Forall (fun row => length row = length m) m /\
  forall i j, i < length m -> j < length m -> (nth j (nth i m []) 0 == nth i (nth j m []) 0)%Q.

(** ** Proofs *)
Lemma core_ext n nb nb' minpts : (forall x y, x < n -> y < n -> nb x y = nb' x y) ->
  forall x, core n nb minpts x <-> core n nb' minpts x.
Proof.
  intros H x. unfold core. split; intros [Hx Hc]; split; auto.
  - rewrite <- (filter_ext_in (nb x)); auto. intros y Hy. apply in_seq in Hy. apply H; lia.
  - rewrite (filter_ext_in (nb x) (nb' x)); auto. intros y Hy. apply in_seq in Hy. apply H; lia.
Qed.

Lemma linked_ext n nb nb' minpts : (forall x y, x < n -> y < n -> nb x y = nb' x y) ->
  forall x y, linked n nb minpts x y -> linked n nb' minpts x y.
Proof.
  intros H x y HL. induction HL as [x Hx|x y z HL IH Hz Hyz].
  - constructor. apply (core_ext n nb nb'); auto.
  - apply linked_step with y; auto; [apply (core_ext n nb nb'); auto|].
    assert (Hy : y < n) by (clear - HL; inversion HL as [a Ha|a b c H1 Hc Hbc]; subst; [destruct Ha|destruct Hc]; auto).
    rewrite <- H; auto. destruct Hz; auto.
Qed.

Lemma result_ext n nb nb' minpts clusters noise : (forall x y, x < n -> y < n -> nb x y = nb' x y) ->
  dbscan_result n nb minpts clusters noise -> dbscan_result n nb' minpts clusters noise.
Proof.
  intros H [Hp [Hc [Hs [Hb [Hn Hns]]]]].
  assert (Hcore := core_ext n nb nb' minpts H).
  assert (Hlk : forall x y, linked n nb minpts x y <-> linked n nb' minpts x y).
  { intros x y. split; apply linked_ext; auto. intros; symmetry; auto. }
  assert (Hin : forall x c, In c clusters -> In x c -> x < n).
  { intros x c Hcl Hx. assert (Hx' : In x (seq 0 n)).
    { eapply Permutation_in; [exact Hp|]. apply in_app_iff. left. apply in_concat. eauto. }
    apply in_seq in Hx'. lia. }
  split; auto. split; [|split; [auto|split; [|split; auto]]].
  - apply Forall_forall. intros c Hcl. rewrite Forall_forall in Hc. destruct (Hc c Hcl) as [p [t [E [H1 [H2 [H3 H4]]]]]].
    exists p, t. split; auto. split; [apply Hcore; auto|]. split; [|split].
    + intros x Hx. rewrite <- Hlk. apply H2. apply Hcore; auto.
    + intros x Hx Hxc. apply H3; auto. apply Hcore; auto.
    + intros x Hx Hnc. destruct (H4 x Hx) as [y [Hy [Hyc Hyx]]]; [rewrite Hcore; auto|].
      exists y. split; auto. split; [apply Hcore; auto|]. rewrite <- H; eauto.
  - intros pre c post x E Hx Hnc c' y Hc' Hy Hyc. rewrite <- H.
    + eapply Hb; eauto; rewrite Hcore; auto.
    + apply (Hin y c'); auto. rewrite E. apply in_app_iff; auto.
    + apply (Hin x c); auto. rewrite E. apply in_app_iff; simpl; auto.
  - intros x. rewrite Hn. split; intros [Hx [Hnc Hno]]; split; auto; split.
    + rewrite <- Hcore; auto.
    + intros y Hy. rewrite <- H; auto; [|destruct Hy; auto]. apply Hno. apply Hcore; auto.
    + rewrite Hcore; auto.
    + intros y Hy. rewrite H; auto; [|destruct Hy; auto]. apply Hno. apply Hcore; auto.
Qed.

(** *** the kd-tree searcher *)
Lemma indexed_filter (f : point -> bool) data : forall a,
  map (@pl nat) (filter (fun x => f (pt x)) (map (fun p => mkItem (snd p) (fst p)) (combine (seq a (length data)) data)))
  = filter (fun j => f (nth (j - a) data [])) (seq a (length data)).
Proof.
  induction data as [|p t IH]; intros a; [reflexivity|].
  cbn [length seq combine map filter fst snd pt]. rewrite Nat.sub_diag. change (nth 0 (p :: t) []) with p.
  assert (E : filter (fun j => f (nth (j - a) (p :: t) [])) (seq (S a) (length t)) =
              filter (fun j => f (nth (j - S a) t [])) (seq (S a) (length t))).
  { apply filter_ext_in. intros j Hj. apply in_seq in Hj. replace (j - a) with (S (j - S a)) by lia. reflexivity. }
  destruct (f p); cbn [map pl]; rewrite IH, E; reflexivity.
Qed.

Lemma indexed_dims D data : same_dimension D data -> Forall (fun x => length (pt x) = D) (indexed data).
Proof.
  intros H. unfold indexed. apply Forall_forall. intros x Hx. apply in_map_iff in Hx as [[j p] [<- Hp]].
  apply in_combine_r in Hp. unfold same_dimension in H. rewrite Forall_forall in H. simpl. auto.
Qed.

Lemma indexed_length data : length (indexed data) = length data.
Proof. unfold indexed. rewrite map_length, combine_length, seq_length. lia. Qed.

Lemma build_indexed D data : 0 < D -> data <> [] -> same_dimension D data ->
  exists k, build (indexed data) = Ok k /\ good D k (indexed data).
Proof.
  intros HD Hne Hdim.
  destruct (start_good D HD (Some (indexed data))) as [k [E G]].
  - split; [|apply indexed_dims; auto]. intro Hc. apply Hne. apply length_zero_iff_nil.
    rewrite <- indexed_length, Hc. reflexivity.
  - exists k. split; auto.
Qed.

(** indices returned by a ball query around a point *)
Lemma query_indices D data k p eps : 0 < D -> good D k (indexed data) -> length p = D -> (0 <= eps)%Q ->
  Permutation (map (fun dn => pl (snd dn)) (find_nearest_dist_nodes k p eps))
              (filter (fun j => Qle_bool (sqdist p (nth j data [])) (eps * eps)) (seq 0 (length data))).
Proof.
  intros HD G Hp He. pose proof (good_range D HD k (indexed data) p eps G Hp He) as H.
  apply (Permutation_map (fun dn => pl (snd dn))) in H. rewrite map_map in H. cbn [snd] in H.
  eapply Permutation_trans; [exact H|].
  assert (E : filter (fun j => Qle_bool (sqdist p (nth j data [])) (eps * eps)) (seq 0 (length data)) =
              map (@pl nat) (filter (within p eps) (indexed data))).
  { unfold within, indexed. rewrite (indexed_filter (fun q => Qle_bool (sqdist p q) (eps * eps)) data 0).
    apply filter_ext. intros j. rewrite Nat.sub_0_r. reflexivity. }
  rewrite E. apply Permutation_refl.
Qed.

Lemma filter_filter {A} (f g : A -> bool) l : filter f (filter g l) = filter (fun x => g x && f x) l.
Proof. induction l as [|x t IH]; simpl; auto. destruct (g x); simpl; rewrite IH; auto. Qed.

Lemma search_points_perm D data k eps i : 0 < D -> good D k (indexed data) -> same_dimension D data ->
  (0 <= eps)%Q -> i < length data ->
  Permutation (search_points k data eps i) (filter (near data eps i) (seq 0 (length data))).
Proof.
  intros HD G Hdim He Hi. unfold search_points.
  assert (Hl : length (nth i data []) = D).
  { unfold same_dimension in Hdim. rewrite Forall_forall in Hdim. apply Hdim, nth_In; auto. }
  pose proof (query_indices D data k (nth i data []) eps HD G Hl He) as H.
  apply (filter_perm (fun j => negb (j =? i))) in H. eapply Permutation_trans; [exact H|].
  rewrite filter_filter. erewrite filter_ext; [apply Permutation_refl|]. intros j. unfold near. apply andb_comm.
Qed.

Lemma near_sym data eps x y : near data eps x y = near data eps y x.
Proof.
  unfold near. rewrite (Nat.eqb_sym x y). f_equal.
  destruct (Qle_bool (sqdist (nth x data []) (nth y data [])) (eps * eps)) eqn:E1,
           (Qle_bool (sqdist (nth y data []) (nth x data [])) (eps * eps)) eqn:E2; auto.
  - apply Qle_bool_iff in E1. apply Qle_bool_false in E2. rewrite sqdist_sym in E1. lra.
  - apply Qle_bool_iff in E2. apply Qle_bool_false in E1. rewrite sqdist_sym in E2. lra.
Qed.

Lemma searcher_facts n nb (search : nat -> list nat) :
  (forall i, i < n -> Permutation (search i) (filter (nb i) (seq 0 n))) ->
  (forall i, nb i i = false) ->
  (forall i, i < n -> NoDup (search i)) /\ (forall i j, i < n -> In j (search i) -> j < n) /\
  (forall i, i < n -> ~ In i (search i)) /\
  (forall i j, i < n -> j < n -> nbr search i j = nb i j).
Proof.
  intros H Hirr.
  assert (Hin : forall i j, i < n -> In j (search i) <-> j < n /\ nb i j = true).
  { intros i j Hi. split.
    - intros Hj. apply (Permutation_in _ (H i Hi)) in Hj. apply filter_In in Hj as [Hj Hn].
      apply in_seq in Hj. split; [lia|auto].
    - intros [Hj Hn]. apply (Permutation_in _ (Permutation_sym (H i Hi))). apply filter_In. split; auto.
      apply in_seq; lia. }
  split; [|split; [|split]].
  - intros i Hi. eapply Permutation_NoDup; [apply Permutation_sym, (H i Hi)|]. apply NoDup_filter, seq_NoDup.
  - intros i j Hi Hj. apply (Hin i j Hi) in Hj. tauto.
  - intros i Hi Hc. apply (Hin i i Hi) in Hc. rewrite Hirr in Hc. destruct Hc; discriminate.
  - intros i j Hi Hj. unfold nbr. destruct (nb i j) eqn:E.
    + apply mem_true. apply Hin; auto.
    + apply mem_false. intro Hc. apply (Hin i j Hi) in Hc. destruct Hc; congruence.
Qed.

Lemma generic_result n nb minpts search clusters0 noise0 :
  (forall i, i < n -> Permutation (search i) (filter (nb i) (seq 0 n))) ->
  (forall i, nb i i = false) -> (forall i j, i < n -> j < n -> nb i j = nb j i) ->
  exists clusters noise, process search minpts n clusters0 noise0 = Ok (clusters0 ++ clusters, noise0 ++ noise) /\
    dbscan_result n nb minpts clusters noise.
Proof.
  intros H Hirr Hsym. destruct (searcher_facts n nb search H Hirr) as [F1 [F2 [F3 F4]]].
  destruct (process_spec search minpts n F1 F2 F3) with (clusters0 := clusters0) (noise0 := noise0)
    as [clusters [noise [E R]]].
  - intros i j Hi Hj Hin. apply mem_true. change (nbr search j i = true). rewrite F4, <- Hsym, <- F4 by auto.
    unfold nbr. apply mem_true; auto.
  - exists clusters, noise. split; auto. eapply result_ext; eauto.
Qed.

Lemma generic_partition n nb minpts search :
  (forall i, i < n -> Permutation (search i) (filter (nb i) (seq 0 n))) ->
  (forall i, nb i i = false) ->
  exists clusters noise, process search minpts n [] [] = Ok (clusters, noise) /\
    Permutation (concat clusters ++ noise) (seq 0 n) /\ no_empty clusters.
Proof.
  intros H Hirr. destruct (searcher_facts n nb search H Hirr) as [F1 [F2 [F3 F4]]].
  exact (process_partition search minpts n F1 F2 F3).
Qed.

Lemma near_irr data eps i : near data eps i i = false.
Proof. unfold near. rewrite Nat.eqb_refl. reflexivity. Qed.

Lemma dbscan_points_correct D data eps minpts clusters0 noise0 :
  0 < D -> data <> [] -> same_dimension D data -> (0 <= eps)%Q ->
  exists clusters noise, dbscan_points data eps minpts clusters0 noise0 = Ok (clusters0 ++ clusters, noise0 ++ noise) /\
    dbscan_result (length data) (near data eps) minpts clusters noise.
Proof.
  intros HD Hne Hdim He. unfold dbscan_points.
  destruct (Nat.eqb_spec (length data) 0) as [E|_]; [apply length_zero_iff_nil in E; contradiction|].
  replace (Qltb eps 0) with false by (symmetry; apply Qltb_false; auto).
  destruct (build_indexed D data HD Hne Hdim) as [k [E G]]. rewrite E. cbn [bind].
  apply generic_result.
  - intros i Hi. eapply search_points_perm; eauto.
  - apply near_irr.
  - intros; apply near_sym.
Qed.

(** *** the distance matrix searcher *)
Lemma search_matrix_perm m eps i : Forall (fun row => length row = length m) m -> i < length m ->
  Permutation (search_matrix m eps i) (filter (near_matrix m eps i) (seq 0 (length m))).
Proof.
  intros Hr Hi. unfold search_matrix. rewrite Forall_forall in Hr. rewrite (Hr (nth i m [])) by (apply nth_In; auto).
  erewrite filter_ext; [apply Permutation_refl|]. intros j. unfold near_matrix. apply andb_comm.
Qed.

Lemma near_matrix_irr m eps i : near_matrix m eps i i = false.
Proof. unfold near_matrix. rewrite Nat.eqb_refl. reflexivity. Qed.

Lemma dbscan_matrix_correct m eps minpts clusters0 noise0 :
  m <> [] -> symmetric_matrix m -> (0 <= eps)%Q ->
  exists clusters noise, dbscan_matrix m eps minpts clusters0 noise0 = Ok (clusters0 ++ clusters, noise0 ++ noise) /\
    dbscan_result (length m) (near_matrix m eps) minpts clusters noise.
Proof.
  intros Hne [Hr Hs] He. unfold dbscan_matrix.
  destruct (Nat.eqb_spec (length m) 0) as [E|_]; [apply length_zero_iff_nil in E; contradiction|].
  replace (Qltb eps 0) with false by (symmetry; apply Qltb_false; auto).
  apply generic_result.
  - intros i Hi. apply search_matrix_perm; auto.
  - apply near_matrix_irr.
  - intros i j Hi Hj. unfold near_matrix. rewrite (Nat.eqb_sym j i). f_equal.
    specialize (Hs i j Hi Hj).
    destruct (Qle_bool (nth j (nth i m []) 0%Q) eps) eqn:E1, (Qle_bool (nth i (nth j m []) 0%Q) eps) eqn:E2; auto.
    + apply Qle_bool_iff in E1. apply Qle_bool_false in E2. lra.
    + apply Qle_bool_iff in E2. apply Qle_bool_false in E1. lra.
Qed.

Lemma dbscan_matrix_partition m eps minpts :
  m <> [] -> Forall (fun row => length row = length m) m -> (0 <= eps)%Q ->
  exists clusters noise, dbscan_matrix m eps minpts [] [] = Ok (clusters, noise) /\
    Permutation (concat clusters ++ noise) (seq 0 (length m)) /\ no_empty clusters.
Proof.
  intros Hne Hr He. unfold dbscan_matrix.
  destruct (Nat.eqb_spec (length m) 0) as [E|_]; [apply length_zero_iff_nil in E; contradiction|].
  replace (Qltb eps 0) with false by (symmetry; apply Qltb_false; auto).
  apply generic_partition with (nb := near_matrix m eps).
  - intros i Hi. apply search_matrix_perm; auto.
  - apply near_matrix_irr.
Qed.

Lemma dbscan_points_partition D data eps minpts :
  0 < D -> data <> [] -> same_dimension D data -> (0 <= eps)%Q ->
  exists clusters noise, dbscan_points data eps minpts [] [] = Ok (clusters, noise) /\
    Permutation (concat clusters ++ noise) (seq 0 (length data)) /\ no_empty clusters.
Proof.
  intros HD Hne Hdim He. unfold dbscan_points.
  destruct (Nat.eqb_spec (length data) 0) as [E|_]; [apply length_zero_iff_nil in E; contradiction|].
  replace (Qltb eps 0) with false by (symmetry; apply Qltb_false; auto).
  destruct (build_indexed D data HD Hne Hdim) as [k [E G]]. rewrite E. cbn [bind].
  apply generic_partition with (nb := near data eps).
  - intros i Hi. eapply search_points_perm; eauto.
  - apply near_irr.
Qed.

(** reprocessing: the second call appends the same clusters and noise again *)
Lemma reprocess_appends D data eps minpts : 0 < D -> data <> [] -> same_dimension D data -> (0 <= eps)%Q ->
  exists clusters noise, dbscan_points data eps minpts [] [] = Ok (clusters, noise) /\
    dbscan_points data eps minpts clusters noise = Ok (clusters ++ clusters, noise ++ noise).
Proof.
  intros HD Hne Hdim He.
  assert (Happ : forall search n cl0 no0, process search minpts n cl0 no0 =
     do r <- process search minpts n [] []; Ok (cl0 ++ fst r, no0 ++ snd r)).
  { intros search n cl0 no0. unfold process.
    assert (Hs : forall idx f cl, scan search minpts n idx f cl =
       do r <- scan search minpts n idx f []; Ok (fst r, cl ++ snd r)).
    { induction idx as [|i t IH]; intros f cl; cbn [scan]; [simpl; rewrite app_nil_r; auto|].
      destruct (nth i (visited f) false); auto.
      destruct (expand_cluster search minpts n i f) as [[f' [c|]]|]; cbn [bind fst snd]; auto.
      rewrite IH. rewrite (IH f' ([] ++ [c])). destruct (scan search minpts n t f' []) as [r|]; cbn [bind fst snd]; auto.
      simpl. rewrite <- app_assoc. reflexivity. }
    rewrite Hs. destruct (scan search minpts n (seq 0 n) _ []) as [r|]; reflexivity. }
  destruct (dbscan_points_correct D data eps minpts [] [] HD Hne Hdim He) as [clusters [noise [E _]]].
  simpl app in E. exists clusters, noise. split; auto.
  unfold dbscan_points in *.
  destruct (length data =? 0); [discriminate|]. destruct (Qltb eps 0); [discriminate|].
  destruct (build (indexed data)) as [k|]; [|discriminate]. cbn [bind] in *.
  rewrite Happ, E. reflexivity.
Qed.
