(** Silhouette score and the search of the amount of clusters by it: C30, C85-C87. *)
From Verif Require Import Base Silhouette_Model Silhouette_Proofs.

(** a square table of distances and disjoint non-empty clusters of its points *)
Definition clustering (rows : list (list Q)) (clusters : list (list nat)) : Prop :=
  rows <> [] /\ (forall r, In r rows -> length r = length rows) /\
  (forall i j, i < length rows -> j < length rows -> (0 <= dist rows i j)%Q) /\ (forall i, i < length rows -> (dist rows i i == 0)%Q) /\
  clusters <> [] /\ NoDup (concat clusters) /\ (forall c, In c clusters -> c <> []) /\ forall c i, In c clusters -> In i c -> i < length rows.
(** what the documentation calls the score of a point: [a] is the mean distance to the other points of its
    cluster, [b] the smallest mean distance to the points of another cluster *)
Definition documented (rows : list (list Q)) (clusters : list (list nat)) (i own : nat) (q : Q) : Prop :=
  exists a b m, (a == mean_distance rows i (remove Nat.eq_dec i (nth own clusters [])))%Q /\ nearest_mean rows clusters i own b /\
    (0 < m)%Q /\ (m == a \/ m == b)%Q /\ (a <= m)%Q /\ (b <= m)%Q /\ (q * m == b - a)%Q.

(** C30.  With at least two clusters every point of a cluster with a second point, that does not coincide with
    all points of its own and another cluster, gets the documented score, which is between -1 and 1. *)
Theorem C30_silhouette_score rows clusters : clustering rows clusters -> 2 <= length clusters ->
  exists score, process rows clusters = Ok score /\ length score = length rows /\
    forall c i, c < length clusters -> In i (nth c clusters []) -> 2 <= length (nth c clusters []) ->
      (~ (mean_distance rows i (remove Nat.eq_dec i (nth c clusters [])) == 0)%Q \/ (forall c', c' < length clusters -> c' <> c -> ~ (mean_distance rows i (nth c' clusters []) == 0)%Q)) ->
      exists q, nth i score NaN = Fin q /\ documented rows clusters i c q /\ (-1 <= q <= 1)%Q.
Proof.
  intros (Hr & Hs & Hp & Hz & Hc & Hd & Hn & Hv) H2. destruct (process_spec rows clusters Hs Hv Hd Hn Hp Hz Hr Hc) as (score & E & L & A & _). exists score. split; [exact E|]. split; [exact L|].
  intros c i Hcl Hi H2c Hnz. destruct (A c i Hcl Hi) as [[E1 _]|[(_ & E1 & _)|(_ & _ & a & b & Ea & Hb & [(Za & Zb & _)|(q & m & Eq & Pm & Om & La & Lb & Eqm)])]]; [lia|lia| |].
  - exfalso. destruct Hnz as [Hnz|Hnz]; [apply Hnz; unfold others in Ea; rewrite <- Ea; exact Za|]. destruct Hb as [(c' & Hc' & Hne & Eb) _]. apply (Hnz c' Hc' Hne). rewrite <- Eb. exact Zb.
  - exists q. split; [exact Eq|]. split; [exists a, b, m; split; [exact Ea|]; split; [exact Hb|]; auto|].
    assert (Pa : (0 <= a)%Q). { rewrite Ea. unfold others. apply mean_nonneg with (rows := rows); auto; [|eapply Hv; [exact (nth_In clusters [] Hcl)|auto]|intros j Hj; apply in_remove in Hj; eapply Hv; [exact (nth_In clusters [] Hcl)|tauto]].
      intros Z. pose proof (remove_length i _ (in_concat_nodup clusters Hd _ (nth_In _ [] Hcl)) Hi) as R. rewrite Z in R. simpl in R. lia. }
    assert (Pb : (0 <= b)%Q). { destruct Hb as [(c' & Hc' & Hne & Eb) _]. rewrite Eb. pose proof (nth_In clusters [] Hc') as Hin. apply mean_nonneg with (rows := rows); auto; [eapply Hv; [exact (nth_In clusters [] Hcl)|auto]|]. intros j Hj. eapply Hv; eauto. }
    split; [destruct (Qlt_le_dec q (-1)); [|auto]|destruct (Qlt_le_dec 1 q); [|auto]]; exfalso; nra.
Qed.
(** The remaining case: a point that coincides with its own and another cluster has no score. *)
Theorem C30_coincident_refuted : exists rows clusters score, clustering rows clusters /\ length clusters = 2 /\ Forall (fun c => length c = 2) clusters /\ process rows clusters = Ok score /\ nth 0 score (Fin 0) = NaN.
Proof.
  exists (point_rows [[0%Q]; [0%Q]; [0%Q]; [0%Q]]), [[0; 1]; [2; 3]]. eexists. split; [|split; [reflexivity|]; split; [repeat constructor|]; split; [vm_compute; reflexivity|reflexivity]].
  split; [discriminate|]. split; [apply point_rows_square|]. rewrite point_rows_length. split; [intros; rewrite point_rows_dist by auto; apply sqdist_nonneg|]. split; [intros; rewrite point_rows_dist by auto; apply sqdist_refl|]. split; [discriminate|]. split; [repeat constructor; simpl; intuition lia|].
  split; [intros c [<-|[<-|[]]]; discriminate|]. intros c i [<-|[<-|[]]] Hi; simpl in Hi |- *; intuition lia.
Qed.
Print Assumptions C30_coincident_refuted.

Lemma points_clustering data clusters : data <> [] -> clusters <> [] -> NoDup (concat clusters) -> (forall c, In c clusters -> c <> []) -> (forall c i, In c clusters -> In i c -> i < length data) -> clustering (point_rows data) clusters.
Proof.
  intros Hd Hc Nd Hn Hv. split; [destruct data; [congruence|discriminate]|]. split; [apply point_rows_square|]. rewrite point_rows_length. split; [intros; rewrite point_rows_dist by auto; apply sqdist_nonneg|]. split; [intros; rewrite point_rows_dist by auto; apply sqdist_refl|]. auto.
Qed.
Example C30_example : clustering (point_rows [[0%Q]; [1%Q]; [5%Q]; [7%Q]]) [[0; 1]; [2; 3]] /\ process (point_rows [[0%Q]; [1%Q]; [5%Q]; [7%Q]]) [[0; 1]; [2; 3]] = Ok [Fin (144 # 148); Fin (100 # 104); Fin (66 # 82); Fin (154 # 170)].
Proof.
  split; [|vm_compute; reflexivity]. apply points_clustering; try discriminate.
  - repeat constructor; simpl; intuition lia.
  - intros c [<-|[<-|[]]]; discriminate.
  - intros c i [<-|[<-|[]]] Hi; simpl in Hi |- *; intuition lia.
Qed.

(** C85.  Every point of any clustering gets a number between -1 and 1: false for a cluster of one point ... *)
Theorem C85_singleton_refuted : exists data clusters score, clustering (point_rows data) clusters /\ length clusters = 2 /\ process (point_rows data) clusters = Ok score /\ nth 0 score (Fin 0) = NaN /\ mean score = NaN.
Proof.
  exists [[0%Q]; [5%Q]; [7%Q]], [[0]; [1; 2]]. eexists. split; [|split; [reflexivity|]; split; [vm_compute; reflexivity|]; split; reflexivity].
  apply points_clustering; try discriminate; [repeat constructor; simpl; intuition lia|intros c [<-|[<-|[]]]; discriminate|]. intros c i [<-|[<-|[]]] Hi; simpl in Hi |- *; intuition lia.
Qed.
Print Assumptions C85_singleton_refuted.
(** ... and for a single cluster, where every score is below -1 or is minus infinity, never a number in the range *)
Theorem C85_single_cluster rows c : clustering rows [c] -> 2 <= length c ->
  exists score, process rows [c] = Ok score /\ forall i, In i c -> nth i score NaN <> NaN /\ forall q, nth i score NaN = Fin q -> ~ (-1 <= q <= 1)%Q.
Proof.
  intros (Hr & Hs & Hp & Hz & Hc & Hd & Hn & Hv) H2. destruct (process_spec rows [c] Hs Hv Hd Hn Hp Hz Hr Hc) as (score & E & L & A & _). exists score. split; [exact E|]. intros i Hi.
  destruct (A 0 i) as [[E1 _]|[(_ & _ & N & Q)|(_ & E1 & _)]]; [simpl; lia|exact Hi|simpl in E1; lia| |simpl in E1; lia]. split; [exact N|]. intros q Eq. specialize (Q q Eq). lra.
Qed.
Print Assumptions C85_single_cluster.
Example C85_example : clustering (point_rows [[0%Q]; [1%Q]; [3%Q]]) [[0; 1; 2]] /\ process (point_rows [[0%Q]; [1%Q]; [3%Q]]) [[0; 1; 2]] = Ok [Fin (-24 # 20); Fin (-14 # 10); Fin (-30 # 26)].
Proof. split; [|vm_compute; reflexivity]. apply points_clustering; try discriminate; [repeat constructor; simpl; intuition lia|intros c [<-|[]]; discriminate|]. intros c i [<-|[]] Hi; simpl in Hi |- *; intuition lia. Qed.
Theorem C85_single_cluster_refuted : exists rows clusters score i q, clustering rows clusters /\ process rows clusters = Ok score /\ i < length rows /\ nth i score NaN = Fin q /\ ~ (-1 <= q <= 1)%Q.
Proof. exists (point_rows [[0%Q]; [1%Q]; [3%Q]]), [[0; 1; 2]]. do 3 eexists. split; [apply C85_example|]. split; [apply C85_example|]. split; [|split; [instantiate (2 := 0); reflexivity|intros (H & _); revert H; vm_compute; intro H; now apply H]]. cbn. lia. Qed.
Print Assumptions C85_single_cluster_refuted.
(** what holds for every clustering: each listed point has the score of its case, the others keep zero *)
Theorem C85_silhouette_cases rows clusters : clustering rows clusters ->
  exists score, process rows clusters = Ok score /\ length score = length rows /\
    (forall c i, c < length clusters -> In i (nth c clusters []) ->
       (length (nth c clusters []) = 1 -> nth i score (Fin 0) = NaN) /\
       (2 <= length (nth c clusters []) -> 2 <= length clusters -> nth i score (Fin 0) = NaN \/ exists q, nth i score (Fin 0) = Fin q /\ documented rows clusters i c q)) /\
    (forall i, i < length rows -> ~ In i (concat clusters) -> nth i score NaN = Fin 0).
Proof.
  intros (Hr & Hs & Hp & Hz & Hc & Hd & Hn & Hv). destruct (process_spec rows clusters Hs Hv Hd Hn Hp Hz Hr Hc) as (score & E & L & A & B). exists score. split; [exact E|]. split; [exact L|]. split; [|exact B].
  intros c i Hcl Hi. specialize (A c i Hcl Hi). assert (Hir : i < length score) by (rewrite L; exact (Hv _ _ (nth_In clusters [] Hcl) Hi)). rewrite (nth_indep _ NaN (Fin 0) Hir) in A. destruct A as [[E1 ->]|[(H1 & H2 & _)|(H1 & H2 & a & b & Ea & Hb & [(_ & _ & ->)|(q & m & Eq & Pm & Om & La & Lb & Eqm)])]].
  - split; [auto|lia].
  - split; lia.
  - split; [lia|auto].
  - split; [lia|]. intros _ _. right. exists q. split; [auto|]. exists a, b, m. split; [exact Ea|]. split; [exact Hb|]. auto.
Qed.

(** C86.  The search measures exactly kmin .. kmax-1 and its first run returns the best of them. *)
Theorem C86_ksearch_best data calc kmin kmax st k : ksearch_process data calc kmin kmax ksearch_initial = Ok st -> amount st = Some k ->
  kmin <= k < kmax /\ measured data calc k (best st) /\ above (best st) (Fin (-1)) /\ forall k' m, kmin <= k' < kmax -> measured data calc k' m -> ~ above m (best st).
Proof. exact (ksearch_best data calc kmin kmax st k). Qed.
Theorem C86_ksearch_none data calc kmin kmax st : ksearch_process data calc kmin kmax ksearch_initial = Ok st -> amount st = None ->
  best st = Fin (-1) /\ forall k m, kmin <= k < kmax -> measured data calc k m -> ~ above m (Fin (-1)).
Proof. exact (ksearch_none data calc kmin kmax st). Qed.
Print Assumptions C86_ksearch_none.
Theorem C86_ksearch_scores data calc kmin kmax self st : ksearch_process data calc kmin kmax self = Ok st ->
  map fst (scores st) = seq kmin (kmax - kmin) /\ forall k m, In (k, m) (scores st) -> measured data calc k m.
Proof. exact (ksearch_scores data calc kmin kmax self st). Qed.
Print Assumptions C86_ksearch_scores.

(** C86: the measure of an amount is the arithmetic mean of the scores of all points when they are numbers, and is no number when one is not *)
Lemma fadd_fin qs : forall a, exists s, fold_left fadd (map Fin qs) (Fin a) = Fin s /\ (s == a + fold_right Qplus 0 qs)%Q.
Proof.
  induction qs as [|q qs IH]; intros a; cbn [map fold_left fold_right]; [exists a; split; auto; ring|]. cbn [fadd]. destruct (IH (a + q)%Q) as (s & E & H). exists s. split; auto. rewrite H. ring.
Qed.
Lemma fadd_nan l : fold_left fadd l NaN = NaN.
Proof. induction l; auto. Qed.
Lemma fadd_in_nan l : forall a, In NaN l -> fold_left fadd l a = NaN.
Proof. induction l as [|x l IH]; intros a H; [destruct H|]. cbn [fold_left]. destruct H as [->|H]; [|apply IH; auto]. destruct a; apply fadd_nan. Qed.
Theorem C86_score_is_mean data calc k m : measured data calc k m -> length (calc k) = k ->
  exists sc, process (point_rows data) (calc k) = Ok sc /\
    (forall qs, sc = map Fin qs -> qs <> [] -> exists q, m = Fin q /\ (q * inject_Z (Z.of_nat (length qs)) == fold_right Qplus 0 qs)%Q) /\
    (In NaN sc -> m = NaN).
Proof.
  intros [(H & _)|(_ & sc & E & ->)] L; [contradiction|]. exists sc. split; [exact E|]. split.
  - intros qs -> Hne. unfold mean. destruct (fadd_fin qs 0) as (s & Es & Hs). rewrite Es. eexists. split; [reflexivity|]. rewrite map_length. rewrite Hs. field.
    intros Z. destruct qs; [congruence|]. cbn [length] in Z. unfold Qeq in Z. cbn in Z. lia.
  - intros Hn. unfold mean. rewrite fadd_in_nan; auto.
Qed.
Print Assumptions C86_score_is_mean.

Definition six : list point := [[0%Q]; [1%Q]; [10%Q]; [11%Q]; [100%Q]; [101%Q]].
Definition by_k (k : nat) : list (list nat) := match k with 2 => [[0; 1; 2; 3]; [4; 5]] | 3 => [[0; 1]; [2; 3]; [4; 5]] | _ => [[0]; [1]; [2; 3]; [4; 5]] end.
(** non-trivial case *)
Example C86_example : exists st, ksearch_process six by_k 2 4 ksearch_initial = Ok st /\ amount st = Some 2.
Proof. eexists. split; [vm_compute; reflexivity|reflexivity]. Qed.
Definition five : list point := [[0%Q]; [1%Q]; [10%Q]; [11%Q]; [20%Q]; [21%Q]].
(** C86: the documented maximum kmax is never tried: the best amount is 3 = kmax, the search answers 2 *)
Theorem C86_kmax_refuted : exists data calc kmin kmax st s2 s3, ksearch_process data calc kmin kmax ksearch_initial = Ok st /\ amount st = Some 2 /\ kmin = 2 /\ kmax = 3 /\
  (forall k, kmin <= k <= kmax -> length (calc k) = k /\ partitions (length data) (calc k) /\ no_empty (calc k)) /\
  measured data calc 2 (Fin s2) /\ measured data calc 3 (Fin s3) /\ (s2 < s3)%Q.
Proof.
  exists five, by_k, 2, 3. eexists _, _, _. split; [vm_compute; reflexivity|]. split; [reflexivity|]. split; [reflexivity|]. split; [reflexivity|]. split.
  - intros k Hk. assert (K : k = 2 \/ k = 3) by lia. destruct K as [-> | ->]; (split; [reflexivity|]); split; try (repeat constructor; discriminate); apply Permutation_refl.
  - split; [right; split; [reflexivity|]; eexists; split; vm_compute; reflexivity|]. split; [right; split; [reflexivity|]; eexists; split; vm_compute; reflexivity|]. reflexivity.
Qed.
Print Assumptions C86_kmax_refuted.

(** C87.  After another process() the amount agrees with the scores of that run: false, the best score of the
    previous run is kept, and get_amount names an amount for which get_scores holds a lower score. *)
Definition first_run (k : nat) : list (list nat) := [[0; 1]; [2; 3; 4; 5]].
Definition second_run (k : nat) : list (list nat) := [[0; 1; 2]; [3; 4; 5]].
Theorem C87_reprocess_refuted : exists data calc1 calc2 kmin kmax st1 st2 k m, ksearch_process data calc1 kmin kmax ksearch_initial = Ok st1 /\ ksearch_process data calc2 kmin kmax st1 = Ok st2 /\
  amount st2 = Some k /\ In (k, m) (scores st2) /\ above (best st2) m /\ (forall k, length (calc2 k) = 2).
Proof. exists five, first_run, second_run, 2, 3. eexists _, _, _, _. split; [vm_compute; reflexivity|]. split; [vm_compute; reflexivity|]. split; [reflexivity|]. split; [left; reflexivity|]. split; [vm_compute; reflexivity|reflexivity]. Qed.

Print Assumptions C30_silhouette_score.
Print Assumptions C85_silhouette_cases.
Print Assumptions C86_ksearch_best.
Print Assumptions C87_reprocess_refuted.
