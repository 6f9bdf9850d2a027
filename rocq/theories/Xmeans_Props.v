(** X-means and G-means: C36, C37, C95-C97. *)
From Verif Require Import Base Kmeans_Model Kmeans_Proofs Xmeans_Model Xmeans_Proofs Xcrit_Model Xcrit_Proofs.
From Coq Require Import Reals Lra Qreals.
Local Open Scope nat_scope.

(** C36.  For every metric, splitting criterion and seeds: the clusters partition the data, every centre is the mean of
    its cluster, there are at most kmax clusters if there were at most kmax initial centres, and get_total_wce() is the
    error of the result. *)
Theorem C36_xmeans_partition metric tol seeds (data : list point) kmax repeats split_require initial fuel clusters centers wce :
  xmeans_process metric tol seeds data kmax repeats split_require initial fuel = Ok (clusters, centers, wce) ->
  partitions (length data) clusters /\ no_empty clusters /\ length centers = length clusters /\
  (length initial <= kmax -> length clusters <= kmax) /\
  (forall k, k < length clusters -> is_mean (dimension data) (map (fun i => nth i data []) (nth k clusters [])) (nth k centers [])) /\
  (wce == cost metric data clusters centers)%Q.
Proof.
  intros E. destruct (xmeans_spec _ _ _ _ _ _ _ _ _ _ _ _ E) as ((P & N & L & _ & M) & B & W). split; [exact P|]. split; [exact N|]. split; [exact L|]. split; [exact B|]. split; [exact M|exact W].
Qed.
Definition xdata : list point := [[0%Q]; [1%Q]; [10%Q]; [11%Q]; [30%Q]; [31%Q]].
Definition first_seeds (pos n amount : nat) : list nat := seq 0 amount.
Definition wide (pcl : list (list nat)) (pce : list point) (ccl : list (list nat)) (cce : list point) : bool := Qltb 20 (sqdist (nth 0 cce []) (nth 1 cce [])).
Example C36_example : exists r, xmeans_process sqdist 0%Q first_seeds xdata 5 2 wide [[0%Q]; [30%Q]] 10 = Ok r /\ fst (fst r) = [[0; 1]; [2; 3]; [4; 5]].
Proof. eexists. split; [vm_compute; reflexivity|reflexivity]. Qed.

(** C37.  G-means: at most k_max clusters, a partition with the means as centres. *)
Theorem C37_gmeans_kmax tol seeds (data : list point) repeats k_max is_null k_init fuel clusters centers wce : good_seeds seeds -> uniform (dimension data) data -> (0 <= tol)%Q -> repeats <> 0 ->
  gmeans_process tol seeds data k_init repeats k_max is_null fuel = Ok (clusters, centers, wce) ->
  (forall m, k_max = Some m -> length clusters <= m) /\ partitions (length data) clusters /\ no_empty clusters /\ length centers = length clusters /\
  (forall k, k < length clusters -> is_mean (dimension data) (map (fun i => nth i data []) (nth k clusters [])) (nth k centers [])).
Proof.
  intros Hs Hu Ht Hr E. destruct (gmeans_spec tol seeds Hs data Hu Ht repeats k_max is_null k_init fuel clusters centers wce Hr E) as ((P & N & L & _ & M) & B & _). split; [exact B|]. split; [exact P|]. split; [exact N|]. split; [exact L|exact M].
Qed.
(** The reported error is the error of the result, or it is 0 and the result is the one of the first k-means search
    (the full claim, that it is always the error, is refuted below). *)
Theorem C37_wce_partial tol seeds (data : list point) repeats k_max is_null k_init fuel clusters centers wce : good_seeds seeds -> uniform (dimension data) data -> (0 <= tol)%Q -> repeats <> 0 ->
  gmeans_process tol seeds data k_init repeats k_max is_null fuel = Ok (clusters, centers, wce) ->
  (wce == cost sqdist data clusters centers)%Q \/
  (wce = 0%Q /\ exists indices w, length indices = k_init /\ kmeans_process sqdist data (map (fun i => nth i data []) indices) tol 100 = Ok (clusters, centers, w)).
Proof.
  intros Hs Hu Ht Hr E. destruct (gmeans_spec tol seeds Hs data Hu Ht repeats k_max is_null k_init fuel clusters centers wce Hr E) as (_ & _ & [W|(W & w & idx & Li & _ & F)]); [left; exact W|right]. split; [exact W|]. exists idx, w. auto.
Qed.
Theorem C37_wce_refuted : exists tol seeds data repeats k_max is_null k_init fuel clusters centers wce, good_seeds seeds /\
  gmeans_process tol seeds data k_init repeats k_max is_null fuel = Ok (clusters, centers, wce) /\ ~ (wce == cost sqdist data clusters centers)%Q.
Proof.
  exists (1 # 1000), first_seeds, [[0%Q]; [2%Q]], 3, None, (fun _ _ => true), 1, 5. eexists _, _, _. split.
  - intros pos n amount H. unfold first_seeds. split; [apply seq_length|]. intros i Hi. apply in_seq in Hi. lia.
  - split; [vm_compute; reflexivity|]. vm_compute. discriminate.
Qed.
Example C37_example : good_seeds first_seeds /\ exists r, gmeans_process (1 # 1000) first_seeds xdata 1 3 (Some 4) (fun p _ => length p =? 2) 20 = Ok r /\ fst (fst r) = [[0; 1]; [2; 3]; [4; 5]] /\ (snd r == 3 # 2)%Q.
Proof.
  split.
  - intros pos n amount H. unfold first_seeds. split; [apply seq_length|]. intros i Hi. apply in_seq in Hi. lia.
  - eexists. split; [vm_compute; reflexivity|]. split; reflexivity.
Qed.

(** C95.  process() of X-means and of G-means finishes, with a bound on the number of steps that depends on the size
    of the data and kmax only. *)
Theorem C95_xmeans_finishes (n kmax : nat) : exists bound, forall tol seeds (data : list point) repeats split_require initial fuel,
  length data = n -> good_seeds seeds -> uniform (dimension data) data -> (0 <= tol)%Q -> data <> [] -> repeats <> 0 -> initial <> [] -> uniform (dimension data) initial -> bound < fuel ->
  exists r, xmeans_process sqdist tol seeds data kmax repeats split_require initial fuel = Ok r.
Proof.
  exists (length (all_assignments n kmax) * S kmax + kmax). intros tol seeds data repeats sp initial fuel <- Hs Hu Ht Hd Hr Hi Hui Hf. apply xmeans_finishes; auto.
Qed.
Theorem C95_gmeans_finishes (n : nat) : exists bound, forall tol seeds (data : list point) repeats k_max is_null k_init fuel,
  length data = n -> good_seeds seeds -> uniform (dimension data) data -> (0 < tol)%Q -> repeats <> 0 -> 1 <= k_init <= n -> (forall m, k_max = Some m -> k_init <= m) -> bound < fuel ->
  exists r, gmeans_process tol seeds data k_init repeats k_max is_null fuel = Ok r.
Proof.
  exists (length (all_assignments n (2 * n))). intros tol seeds data repeats k_max is_null k_init fuel <- Hs Hu Ht Hr Hk Hm Hf. apply gmeans_finishes; auto; [apply Qlt_le_weak; auto|intros ->; simpl in Hk; lia].
Qed.
Example C95_example : good_seeds first_seeds /\ uniform (dimension xdata) xdata /\ uniform (dimension xdata) [[0%Q]; [30%Q]].
Proof.
  split; [|split; intros p; simpl; intuition (subst; reflexivity)].
  intros pos n amount H. unfold first_seeds. split; [apply seq_length|]. intros i Hi. apply in_seq in Hi. lia.
Qed.

(** C96.  With BIC a cluster of two different points is always split, whatever its place and size ... *)
Theorem C96_bic_splits_pairs (data : list point) i j c ca cb children : (0 < sqdist (nth i data []) c + sqdist (nth j data []) c)%Q ->
  (children = [[i]; [j]] \/ children = [[j]; [i]]) -> split_bic sqdist data [[i; j]] [c] children [ca; cb] = true.
Proof. exact (pair_bic data i j children c ca cb). Qed.
(** ... and with MNDL never. *)
Theorem C96_mndl_keeps_pairs (data : list point) alpha beta i j c ca cb children :
  (children = [[i]; [j]] \/ children = [[j]; [i]]) -> split_mndl sqdist data alpha beta [[i; j]] [c] children [ca; cb] = Ok false.
Proof. exact (pair_mndl data alpha beta i j children c ca cb). Qed.
Print Assumptions C96_mndl_keeps_pairs.
(** so two tight pairs far from each other become four clusters *)
Definition pairs4 : list point := [[0%Q]; [1 # 1000]; [1000%Q]; [1000001 # 1000]].
Definition known_pair (data : list point) (pcl : list (list nat)) (pce : list point) (ccl : list (list nat)) (cce : list point) : bool :=
  match pcl, pce, ccl, cce with
  | [[i; j]], [c], [[i']; [j']], [_; _] => (i' =? i) && (j' =? j) && Qltb 0 (sqdist (nth i data []) c + sqdist (nth j data []) c)
  | _, _, _, _ => false
  end.
Lemma known_pair_bic data pcl pce ccl cce : (if known_pair data pcl pce ccl cce then true else split_bic sqdist data pcl pce ccl cce) = split_bic sqdist data pcl pce ccl cce.
Proof.
  destruct (known_pair data pcl pce ccl cce) eqn:E; [|reflexivity]. unfold known_pair in E. destruct pcl as [|[|i [|j [|? ?]]] [|? ?]]; try discriminate. destruct pce as [|c [|? ?]]; try discriminate.
  destruct ccl as [|[|i' [|? ?]] [|[|j' [|? ?]] [|? ?]]]; try discriminate. destruct cce as [|ca [|cb [|? ?]]]; try discriminate.
  apply andb_true_iff in E as [E E3]. apply andb_true_iff in E as [E1 E2]. apply Nat.eqb_eq in E1, E2. subst. symmetry. apply pair_bic; [apply Qltb_true; exact E3|left; reflexivity].
Qed.
Theorem C96_pairs_refuted : exists r, xmeans_process sqdist (1 # 1000) first_seeds pairs4 4 1 (split_bic sqdist pairs4) [[0%Q]; [1000%Q]] 5 = Ok r /\ fst (fst r) = [[0]; [1]; [2]; [3]].
Proof.
  rewrite <- (xmeans_ext _ _ _ _ _ _ (fun a b c d => if known_pair pairs4 a b c d then true else split_bic sqdist pairs4 a b c d)) by (intros; apply known_pair_bic).
  eexists. split; [vm_compute; reflexivity|reflexivity].
Qed.

(** C97.  The MNDL score is defined and is the documented one, for every non-negative metric, ... *)
Theorem C97_mndl_documented metric (data : list point) alpha beta clusters centers : (forall a b, (0 <= metric a b)%Q) -> no_empty clusters -> length clusters < length (concat clusters) ->
  mndl metric data alpha beta clusters centers = Ok (Fin (doc_mndl metric data alpha beta clusters centers)).
Proof. intros H. exact (mndl_documented metric data H alpha beta clusters centers). Qed.
(** ... the BIC of the code subtracts the penalty of the documented BIC once for every cluster instead of once. *)
Theorem C97_bic_penalty metric (data : list point) clusters centers : length clusters < length (concat clusters) -> (0 < variance metric data clusters centers)%R ->
  bic metric data clusters centers = Fin (doc_bic metric data clusters centers - (INR (length clusters) - 1) * (1 / 2 * parameters (length clusters) (dimension data) * ln (INR (length (concat clusters))))).
Proof. exact (bic_documented metric data clusters centers). Qed.

Definition line4 : list point := [[-4 # 1]; [-2 # 1]; [2 # 1]; [4 # 1]].
Example C97_example : no_empty [[0; 1]; [2; 3]] /\ length [[0; 1]; [2; 3]] < length (concat [[0; 1]; [2; 3]]) /\ Rlt 0 (variance sqdist line4 [[0; 1]; [2; 3]] [[-3 # 1]; [3 # 1]]).
Proof.
  split; [repeat constructor; discriminate|]. split; [simpl; lia|]. unfold variance, Ncount, Rtot, W1, Rtot. cbn [concat app length combine map fold_right fst snd INR nth line4 sqdist]. unfold Q2R. simpl. lra.
Qed.
(** The decision differs: here the documented BIC prefers the two clusters and the code does not split. *)
Theorem C97_bic_refuted : exists (data : list point) pcl pce ccl cce, (doc_bic sqdist data pcl pce < doc_bic sqdist data ccl cce)%R /\ split_bic sqdist data pcl pce ccl cce = false.
Proof.
  exists line4, [[0; 1; 2; 3]], [[0%Q]], [[0; 1]; [2; 3]], [[-3 # 1]; [3 # 1]].
  assert (V1 : variance sqdist line4 [[0; 1; 2; 3]] [[0%Q]] = (40 / 3)%R).
  { unfold variance, Ncount, Rtot, W1, Rtot. cbn [concat app length combine map fold_right fst snd INR nth line4 sqdist]. unfold Q2R. simpl. lra. }
  assert (V2 : variance sqdist line4 [[0; 1]; [2; 3]] [[-3 # 1]; [3 # 1]] = 2%R).
  { unfold variance, Ncount, Rtot, W1, Rtot. cbn [concat app length combine map fold_right fst snd INR nth line4 sqdist]. unfold Q2R. simpl. lra. }
  assert (L2a : (1 / 2 < ln 2)%R) by (pose proof ln_lt_2; lra).
  assert (L2b : (ln 2 < 3 / 4)%R).
  { rewrite <- (ln_exp (3 / 4)). apply ln_increasing; [lra|]. replace (3 / 4)%R with (1 / 8 + (1 / 8 + (1 / 8 + (1 / 8 + (1 / 8 + 1 / 8)))))%R by lra. rewrite !exp_plus. pose proof (exp_ineq1 (1 / 8) ltac:(lra)) as H.
    set (e := exp (1 / 8)) in *. assert (e * e > 81 / 64)%R by nra. assert (e * (e * e) > 729 / 512)%R by nra. nra. }
  assert (L4 : ln 4 = (2 * ln 2)%R) by (replace 4%R with (2 * 2)%R by lra; rewrite ln_mult by lra; lra).
  assert (L40 : (3 * ln 2 <= ln (40 / 3) <= 4 * ln 2)%R).
  { replace (3 * ln 2)%R with (ln 8) by (replace 8%R with (2 * (2 * 2))%R by lra; rewrite !ln_mult by lra; lra). replace (4 * ln 2)%R with (ln 16) by (replace 16%R with (2 * (2 * (2 * 2)))%R by lra; rewrite !ln_mult by lra; lra). split; left; apply ln_increasing; lra. }
  assert (D1 : doc_bic sqdist line4 [[0; 1; 2; 3]] [[0%Q]] = (4 * (2 * ln 2) - 4 * (2 * ln 2) - 4 / 2 * ln (2 * PI) - 4 / 2 * ln (40 / 3) - 3 / 2 - 1 / 2 * 2 * (2 * ln 2))%R).
  { unfold doc_bic. rewrite V1. unfold Ncount, Rtot, doc_likelihood, parameters. cbn [concat app length map fold_right dimension nth line4]. replace (INR 4) with 4%R by (simpl; lra). replace (INR 1) with 1%R by reflexivity. rewrite L4. lra. }
  assert (D2 : doc_bic sqdist line4 [[0; 1]; [2; 3]] [[-3 # 1]; [3 # 1]] = (4 * ln 2 - 4 * (2 * ln 2) - 4 / 2 * ln (2 * PI) - 4 / 2 * ln 2 - 1 / 2 * 4 * (2 * ln 2))%R).
  { unfold doc_bic. rewrite V2. unfold Ncount, Rtot, doc_likelihood, parameters. cbn [concat app length map fold_right dimension nth line4]. replace (INR 4) with 4%R by (simpl; lra). replace (INR 2) with 2%R by (simpl; lra). replace (INR 1) with 1%R by reflexivity. rewrite L4. lra. }
  split; [rewrite D1, D2; lra|].
  unfold split_bic. rewrite !bic_documented; [|unfold Ncount; simpl; lia|rewrite V2; lra|unfold Ncount; simpl; lia|rewrite V1; lra]. rewrite D1, D2. unfold Ncount, parameters. cbn [concat app length dimension nth line4 slt]. replace (INR 4) with 4%R by (simpl; lra). replace (INR 2) with 2%R by (simpl; lra). replace (INR 1) with 1%R by reflexivity. rewrite L4.
  match goal with |- context [Rlt_dec ?a ?b] => destruct (Rlt_dec a b) as [H|_] end; [exfalso; lra|reflexivity].
Qed.

(** C97.  A split is accepted exactly where the score improves: with MNDL where the documented description length of the children is smaller than that
    of the parent ... *)
Theorem C97_mndl_decision metric (data : list point) alpha beta pcl pce ccl cce : (forall a b, (0 <= metric a b)%Q) ->
  no_empty pcl -> length pcl < length (concat pcl) -> no_empty ccl -> length ccl < length (concat ccl) ->
  exists r, split_mndl metric data alpha beta pcl pce ccl cce = Ok r /\ (r = true <-> (doc_mndl metric data alpha beta ccl cce < doc_mndl metric data alpha beta pcl pce)%R).
Proof.
  intros H P1 P2 C1 C2. unfold split_mndl. rewrite (mndl_documented metric data H alpha beta pcl pce P1 P2), (mndl_documented metric data H alpha beta ccl cce C1 C2). cbn [bind slt].
  eexists. split; [reflexivity|]. match goal with |- context [Rlt_dec ?a ?b] => destruct (Rlt_dec a b) end; split; intro Q; auto; try discriminate; contradiction.
Qed.
Example C97_mndl_decision_applies : exists r, split_mndl sqdist line4 (9 / 10) (9 / 10) [[0; 1; 2; 3]] [[0%Q]] [[0; 1]; [2; 3]] [[-3 # 1]; [3 # 1]] = Ok r.
Proof.
  destruct (C97_mndl_decision sqdist line4 (9 / 10) (9 / 10) [[0; 1; 2; 3]] [[0%Q]] [[0; 1]; [2; 3]] [[-3 # 1]; [3 # 1]]) as (r & E & _); [apply sqdist_nonneg|repeat constructor; discriminate|simpl; lia|repeat constructor; discriminate|simpl; lia|exists r; exact E].
Qed.
(** ... and with BIC where the documented BIC without the surplus penalties is larger. *)
Theorem C97_bic_decision metric (data : list point) pcl pce ccl cce :
  length pcl < length (concat pcl) -> (0 < variance metric data pcl pce)%R -> length ccl < length (concat ccl) -> (0 < variance metric data ccl cce)%R ->
  let value cl ce := (doc_bic metric data cl ce - (INR (length cl) - 1) * (1 / 2 * parameters (length cl) (dimension data) * ln (INR (length (concat cl)))))%R in
  split_bic metric data pcl pce ccl cce = true <-> (value pcl pce < value ccl cce)%R.
Proof.
  intros P1 P2 C1 C2 value. unfold split_bic. rewrite (bic_documented metric data pcl pce P1 P2), (bic_documented metric data ccl cce C1 C2). cbn [slt]. unfold value, Ncount.
  match goal with |- context [Rlt_dec ?a ?b] => destruct (Rlt_dec a b) end; split; intro Q; auto; try discriminate; contradiction.
Qed.
Example C97_bic_decision_applies : length [[0; 1; 2; 3]] < length (concat [[0; 1; 2; 3]]) /\ Rlt 0 (variance sqdist line4 [[0; 1; 2; 3]] [[0%Q]]).
Proof.
  split; [simpl; lia|]. unfold variance, Ncount, Rtot, W1, Rtot. cbn [concat app length combine map fold_right fst snd INR nth line4 sqdist]. unfold Q2R. simpl. lra.
Qed.

Print Assumptions C36_xmeans_partition.
Print Assumptions C37_gmeans_kmax.
Print Assumptions C37_wce_partial.
Print Assumptions C37_wce_refuted.
Print Assumptions C95_xmeans_finishes.
Print Assumptions C95_gmeans_finishes.
Print Assumptions C96_bic_splits_pairs.
Print Assumptions C96_pairs_refuted.
Print Assumptions C97_mndl_documented.
Print Assumptions C97_bic_penalty.
Print Assumptions C97_bic_refuted.
Print Assumptions C97_mndl_decision.
Print Assumptions C97_bic_decision.
