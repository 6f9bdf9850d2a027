(** Properties of the start of the EM algorithm. *)
From Verif Require Import Base Kmeans_Model Kmeans_Proofs Emainit_Model.
From Coq Require Import Lqa Qabs.
Open Scope nat_scope.

(** * Specification *)
(** [m] is [p] up to a tenth of every coordinate. *)
Definition close (m p : point) : Prop :=
  length m = length p /\ forall d, d < length p -> (Qabs (coord m d - coord p d) <= Qabs (coord p d) * (1 # 10))%Q.
(** The variance in the direction [v] of a covariance matrix. *)
Definition form (m : matrix) (n : nat) (v : nat -> Q) : Q :=
  qsum (map (fun a => qsum (map (fun b => (v a * nth b (nth a m []) 0 * v b)%Q) (seq 0 n))) (seq 0 n)).
Definition entry (m : matrix) (a b : nat) : Q := nth b (nth a m []) 0%Q.

(** * Random means *)
Section Random.
Variables (sample : list point) (ri : nat -> nat) (ru : nat -> Q).
Hypothesis nonempty : sample <> [].
Hypothesis draws : forall n, ri n <= length sample.
Hypothesis unit_draws : forall n, (0 <= ru n < 1)%Q.

Lemma take_in d : d <= length sample -> exists p, take sample d = Ok p /\ In p sample.
Proof.
  intros Hd. unfold take. destruct (length sample) as [|l] eqn:E; [destruct sample; [congruence|discriminate]|].
  destruct (Nat.eqb_spec d 0); [exists (nth l sample []); split; [reflexivity|apply nth_In; lia]|].
  destruct (Nat.leb_spec (d - 1) l); [|lia]. exists (nth (d - 1) sample []). split; [reflexivity|apply nth_In; lia].
Qed.

Lemma retry_ok means : forall left m pos, In m sample ->
  exists m' left' pos', retry sample ri left m means pos = Ok (m', left', pos') /\ In m' sample /\
    (left' <> 0 -> member m' means = false).
Proof.
  induction left as [|left IH]; intros m pos Hm; cbn [retry].
  - exists m, 0, pos. repeat split; auto. congruence.
  - destruct (member m means) eqn:E.
    + destruct (take_in (ri pos) (draws pos)) as (p & -> & Hp). cbn [bind]. apply IH. exact Hp.
    + exists m, (S left), pos. repeat split; auto.
Qed.

Lemma perturb_close p posu : close (perturb ru p posu) p.
Proof.
  unfold perturb. split; [now rewrite map_length, seq_length|]. intros d Hd. unfold coord at 1.
  rewrite nth_map_seq0 by exact Hd. set (x := coord p d). pose proof (unit_draws (posu + d)) as [U1 U2].
  setoid_replace (x + (ru (posu + d)%nat - (1 # 2)) * x * (2 # 10) - x)%Q with (((ru (posu + d)%nat - (1 # 2)) * (2 # 10)) * x)%Q by ring.
  rewrite Qabs_Qmult, Qmult_comm. 
  assert (H : (Qabs ((ru (posu + d)%nat - (1 # 2)) * (2 # 10)) <= 1 # 10)%Q) by (apply Qabs_Qle_condition; split; lra).
  rewrite (Qmult_comm (Qabs x)), (Qmult_comm (Qabs x)). apply Qmult_le_compat_r; [exact H|apply Qabs_nonneg].
Qed.

Lemma close_refl p : close p p.
Proof.
  split; [reflexivity|]. intros d _. setoid_replace (coord p d - coord p d)%Q with 0%Q by ring. cbn [Qabs].
  change (Qabs 0) with 0%Q. apply Qmult_le_0_compat; [apply Qabs_nonneg|discriminate].
Qed.

(** every new mean: from the sample and new, or perturbed *)
Lemma means_ok : forall amount means pos posu,
  exists added posu', random_means sample ri ru amount means pos posu = Ok (means ++ added, posu') /\ length added = amount /\
    forall i, i < amount -> (exists p, In p sample /\ close (nth i added []) p) /\
      ((In (nth i added []) sample /\ forall q, In q (means ++ firstn i added) -> ~ peq (nth i added []) q) \/
       exists p u, In p sample /\ nth i added [] = perturb ru p u).
Proof.
  induction amount as [|amount IH]; intros means pos posu; cbn [random_means].
  - exists [], posu. rewrite app_nil_r. repeat split; auto; intros; lia.
  - destruct (take_in (ri pos) (draws pos)) as (p & -> & Hp). cbn [bind].
    destruct (retry_ok means 10 p (S pos) Hp) as (m & lft & pos' & -> & Hm & Hn). cbn [bind].
    assert (G : forall new posu1, (exists p, In p sample /\ close new p) ->
      ((In new sample /\ forall q, In q means -> ~ peq new q) \/ exists p u, In p sample /\ new = perturb ru p u) ->
      exists added posu', random_means sample ri ru amount (means ++ [new]) pos' posu1 = Ok (means ++ added, posu') /\ length added = S amount /\
      forall i, i < S amount -> (exists p, In p sample /\ close (nth i added []) p) /\
      ((In (nth i added []) sample /\ forall q, In q (means ++ firstn i added) -> ~ peq (nth i added []) q) \/
       exists p u, In p sample /\ nth i added [] = perturb ru p u)).
    { intros new posu1 C D. destruct (IH (means ++ [new]) pos' posu1) as (added & posu' & E & L & H).
      exists (new :: added), posu'. rewrite E, <- app_assoc. split; [reflexivity|]. split; [cbn; lia|].
      intros [|i] Hi.
      - cbn [nth firstn]. rewrite app_nil_r. auto.
      - cbn [nth firstn]. destruct (H i ltac:(lia)) as [H1 H2]. split; [exact H1|]. rewrite <- app_assoc in H2. exact H2. }
    destruct (Nat.eqb_spec lft 0) as [->|Hl].
    + apply G; [exists m; split; [exact Hm|apply perturb_close]|]. right. eauto.
    + apply G; [exists m; split; [exact Hm|apply close_refl]|]. left. split; [exact Hm|]. intros q Hq Hpq.
      specialize (Hn Hl). unfold member in Hn. assert (X : existsb (peqb m) means = true) by (apply existsb_exists; exists q; split; [exact Hq|apply peqb_true; exact Hpq]).
      congruence.
Qed.
End Random.

(** C182.  Random initialisation of non-empty data: exactly [amount] means;
    each is a data point up to a tenth of its coordinates, and a mean that is
    not such a perturbation differs from all means before it. *)
Theorem C182_means : forall sample ri ru amount pos posu, sample <> [] ->
  (forall n, ri n <= length sample) -> (forall n, (0 <= ru n < 1)%Q) ->
  exists means posu', random_means sample ri ru amount [] pos posu = Ok (means, posu') /\ length means = amount /\
    forall i, i < amount -> (exists p, In p sample /\ close (nth i means []) p) /\
      (In (nth i means []) sample /\ (forall j, j < i -> ~ peq (nth i means []) (nth j means [])) \/
       exists p u, In p sample /\ nth i means [] = perturb ru p u).
Proof.
  intros sample ri ru amount pos posu Hs Hr Hu. destruct (means_ok sample ri ru Hs Hr Hu amount [] pos posu) as (added & posu' & E & L & H).
  exists added, posu'. split; [exact E|]. split; [exact L|]. intros i Hi. destruct (H i Hi) as [H1 H2]. split; [exact H1|].
  destruct H2 as [[A B]|D]; [left|right; exact D]. split; [exact A|]. intros j Hj. apply B. cbn [app].
  assert (F : nth j added [] = nth j (firstn i added) []).
  { rewrite <- (firstn_skipn i added) at 1. apply app_nth1. rewrite firstn_length. lia. }
  rewrite F. apply nth_In. rewrite firstn_length. lia.
Qed.
Print Assumptions C182_means.

(** C182.  A draw that repeats a mean is replaced by the next draw, up to ten
    times: the new mean is the first new draw. *)
Theorem C182_redrawn : forall sample ri ru (means : list point) pos posu (draws : nat -> point) j, j < 10 ->
  (forall i, i <= j -> take sample (ri (pos + i)) = Ok (draws i)) ->
  (forall i, i < j -> exists m, In m means /\ peq (draws i) m) ->
  (forall m, In m means -> ~ peq (draws j) m) ->
  random_means sample ri ru 1 means pos posu = Ok (means ++ [draws j], posu).
Proof.
  intros sample ri ru means pos posu draws j Hj Hd Hrep Hnew.
  assert (Hm : forall p, member p means = true <-> exists m, In m means /\ peq p m).
  { intro p. unfold member. rewrite existsb_exists. split; intros (m & H1 & H2); exists m; (split; [exact H1|]); now apply peqb_true. }
  assert (R : forall k left i, i + k = j -> k < left ->
    retry sample ri left (draws i) means (pos + S i) = Ok (draws j, left - k, pos + S j)).
  { induction k as [|k IH]; intros left i Hi Hl; (destruct left as [|left]; [lia|]); cbn [retry].
    - assert (i = j) by lia. subst i. destruct (member (draws j) means) eqn:E.
      + apply Hm in E. destruct E as (m & H1 & H2). exfalso. exact (Hnew m H1 H2).
      + now rewrite Nat.sub_0_r.
    - rewrite (proj2 (Hm (draws i))) by (apply Hrep; lia). rewrite Hd by lia. cbn [bind].
      replace (S (pos + S i)) with (pos + S (S i)) by lia. rewrite IH by lia. reflexivity. }
  unfold random_means. fold random_means. pose proof (Hd 0 ltac:(lia)) as H0. rewrite Nat.add_0_r in H0. rewrite H0. cbn [bind].
  pose proof (R j 10 0 eq_refl Hj) as E. replace (pos + 1) with (S pos) in E by lia. rewrite E. cbn [bind].
  destruct (Nat.eqb_spec (10 - j) 0); [lia|]. reflexivity.
Qed.
Print Assumptions C182_redrawn.

Example C182_redrawn_example :
  random_means [[1%Q]; [2%Q]] (fun n => if n =? 0 then 1 else 2) (fun _ => 0%Q) 1 [[1%Q]] 0 0 = Ok ([[1%Q]; [2%Q]], 0).
Proof. reflexivity. Qed.

(** C182.  When the first draws already are different points, the means are
    just these points. *)
Theorem C182_fresh : forall sample ri ru amount pos posu (points : list point), sample <> [] ->
  length points = amount -> (forall i, i < amount -> take sample (ri (pos + i)) = Ok (nth i points [])) ->
  (forall i j, j < i < amount -> ~ peq (nth i points []) (nth j points [])) ->
  random_means sample ri ru amount [] pos posu = Ok (points, posu).
Proof.
  intros sample ri ru amount pos posu points Hs HL HT HD.
  assert (G : forall k (means : list point) pos0, length means + k = amount -> pos0 = pos + length means -> means = firstn (length means) points ->
    random_means sample ri ru k means pos0 posu = Ok (points, posu)).
  { induction k as [|k IH]; intros means pos0 Hk -> Hm; cbn [random_means].
    - rewrite Hm, firstn_all2 by lia. reflexivity.
    - rewrite HT by lia. cbn [bind]. set (m := nth (length means) points []).
      assert (Hn : member m means = false).
      { destruct (member m means) eqn:E; [|reflexivity]. unfold member in E. apply existsb_exists in E as (q & Hq & E). apply peqb_true in E.
        apply (In_nth means q ([] : point)) in Hq as (j & Hj & <-). exfalso. apply (HD (length means) j); [lia|].
        replace (nth j points []) with (nth j means []); [exact E|]. rewrite Hm at 1. rewrite <- (firstn_skipn (length means) points) at 2.
        rewrite app_nth1 by (rewrite firstn_length; lia). reflexivity. }
      cbn [retry]. rewrite Hn. cbn [bind Nat.eqb]. apply IH.
      + rewrite app_length. cbn [length]. lia.
      + rewrite app_length. cbn [length]. lia.
      + rewrite app_length. cbn [length]. rewrite Nat.add_1_r.
        assert (S1 : forall (l : list point) n, n < length l -> firstn (S n) l = firstn n l ++ [nth n l []]).
        { clear. induction l as [|x l IH]; intros n Hn; [cbn in Hn; lia|]. destruct n; [reflexivity|]. cbn [firstn nth app]. rewrite <- IH by (cbn in Hn; lia). reflexivity. }
        rewrite S1 by lia. unfold m. f_equal. exact Hm. }
  apply (G amount [] pos); cbn [length]; auto.
Qed.
Print Assumptions C182_fresh.
Example C182_fresh_case : random_means [[1]; [2]; [3]]%Q (fun n => n) (fun _ => 0%Q) 3 [] 0 0 = Ok ([[3]; [1]; [2]]%Q, 0).
Proof. reflexivity. Qed.

(** C182.  But the means need not be different, although the data have enough
    different points: ten unlucky draws are enough when the coordinates are 0. *)
Theorem C182_distinct_refuted : exists sample ri ru amount means posu,
  (forall n, ri n <= length sample) /\ (forall n, (0 <= ru n < 1)%Q) /\
  amount <= length sample /\ (forall i j, i < j < length sample -> ~ peq (nth i sample []) (nth j sample [])) /\
  random_means sample ri ru amount [] 0 0 = Ok (means, posu) /\
  exists i j, i < j < amount /\ peq (nth i means []) (nth j means []).
Proof.
  exists [[0]; [5]]%Q, (fun _ => 1), (fun _ => 0%Q), 2, [[0]; [0 + (0 - (1 # 2)) * 0 * (2 # 10)]]%Q, 1.
  split; [intros; cbn; lia|]. split; [intros; lra|]. split; [cbn; lia|]. split.
  - intros i j Hij. cbn [length] in Hij. assert (i = 0) by lia. assert (j = 1) by lia. subst. cbn [nth]. intro H. inversion H; subst. vm_compute in H3. discriminate.
  - split; [reflexivity|]. exists 0, 1. split; [lia|]. repeat constructor.
Qed.
Print Assumptions C182_distinct_refuted.

(** * Clusters and covariances *)
(** C183.  The initial clusters partition the data, one for each mean (empty
    ones are kept), and every point is with a nearest mean. *)
Theorem C183_clusters : forall sample centers, centers <> [] ->
  exists cl, initial_clusters sample centers = Ok cl /\ length cl = length centers /\
    Permutation (concat cl) (seq 0 (length sample)) /\
    forall k i, k < length centers -> In i (nth k cl []) -> nearest sqdist centers (nth i sample []) k.
Proof.
  intros sample centers Hc. set (label i := argmin (map (sqdist (nth i sample [])) centers)).
  assert (E : fold_left (fun cl i => push cl (kmedians_nearest sqdist (nth i sample []) centers 0 0 0%Q) i) (seq 0 (length sample)) (repeat [] (length centers)) = groups_of label (length sample) (length centers)).
  { rewrite <- push_groups. generalize (repeat (@nil nat) (length centers)). generalize (seq 0 (length sample)). induction l as [|x t IH]; intros cl; cbn [fold_left]; auto.
    rewrite kmedians_nearest_eq by auto. apply IH. }
  exists (groups_of label (length sample) (length centers)). split.
  - unfold initial_clusters. rewrite E. destruct centers; [congruence|]. reflexivity.
  - split; [unfold groups_of; now rewrite map_length, seq_length|]. split.
    + apply filter_label_perm. intros i Hi. apply argmin_nearest. exact Hc.
    + intros k i Hk Hi. unfold groups_of in Hi. rewrite nth_map_seq0 in Hi by exact Hk. apply filter_In in Hi as [_ Hi]. apply Nat.eqb_eq in Hi.
      rewrite <- Hi. apply argmin_nearest. exact Hc.
Qed.
Print Assumptions C183_clusters.
Example C183_clusters_case : initial_clusters [[0]; [1]; [9]; [8]]%Q [[0]; [10]]%Q = Ok [[0; 1]; [2; 3]].
Proof. reflexivity. Qed.

Lemma qtotal_qsum l : (qtotal l == qsum l)%Q.
Proof. unfold qtotal. rewrite sumQ_from. ring. Qed.

Definition meanq sample cluster d := (qtotal (map (fun i => coord (nth i sample []) d) cluster) / countq (length cluster))%Q.
Lemma cov_entry sample cluster a b : a < dim sample -> b < dim sample ->
  (entry (sample_cov sample cluster) a b ==
   qsum (map (fun i => (coord (nth i sample []) a - meanq sample cluster a) * (coord (nth i sample []) b - meanq sample cluster b)) cluster) / countq (length cluster - 1))%Q.
Proof.
  intros Ha Hb. unfold entry, sample_cov. rewrite nth_map_seq0 by exact Ha. rewrite nth_map_seq0 by exact Hb. rewrite qtotal_qsum. reflexivity.
Qed.

Lemma qsum_sq_nonneg {A} (f : A -> Q) l : (0 <= qsum (map (fun x => f x * f x) l))%Q.
Proof.
  induction l as [|x l IH]; cbn [map qsum]; [discriminate|]. assert (0 <= f x * f x)%Q by (destruct (Qlt_le_dec (f x) 0); nra). lra.
Qed.

Lemma repeat_entry (c : Q) n a b : a < n -> b < n -> entry (repeat (repeat c n) n) a b = c.
Proof.
  intros Ha Hb. unfold entry. rewrite (nth_indep _ [] (repeat c n)) by (rewrite repeat_length; exact Ha). rewrite nth_repeat.
  rewrite (nth_indep _ 0%Q c) by (rewrite repeat_length; exact Hb). apply nth_repeat.
Qed.

Lemma form_ext m n v g : (forall a b, a < n -> b < n -> (entry m a b == g a b)%Q) ->
  (form m n v == qsum (map (fun a => qsum (map (fun b => (v a * g a b * v b)%Q) (seq 0 n))) (seq 0 n)))%Q.
Proof.
  intros H. unfold form. apply qsum_ext. intros a Ha. apply in_seq in Ha. apply qsum_ext. intros b Hb. apply in_seq in Hb.
  specialize (H a b ltac:(lia) ltac:(lia)). unfold entry in H. rewrite H. reflexivity.
Qed.

Lemma square_sum (w : nat -> Q) l : (qsum (map (fun a => qsum (map (fun b => (w a * w b)%Q) l)) l) == qsum (map w l) * qsum (map w l))%Q.
Proof.
  transitivity (qsum (map (fun a => (qsum (map w l) * w a)%Q) l)).
  2: { rewrite qsum_scale. reflexivity. }
  - apply qsum_ext. intros a _. etransitivity; [apply (qsum_scale w (w a) l)|ring].
Qed.

(** the form of the sample covariance is a mean of squares *)
Lemma cov_form sample cluster v : (1 < length cluster) -> 
  (form (sample_cov sample cluster) (dim sample) v ==
   qsum (map (fun i => let s := qsum (map (fun a => v a * (coord (nth i sample []) a - meanq sample cluster a)) (seq 0 (dim sample))) in s * s) cluster) / countq (length cluster - 1))%Q.
Proof.
  intros Hn. set (u i a := (coord (nth i sample []) a - meanq sample cluster a)%Q).
  assert (C : ~ (countq (length cluster - 1) == 0)%Q).
  { unfold countq. change 0%Q with (inject_Z 0). rewrite inject_Z_injective. lia. }
  rewrite (form_ext _ _ _ (fun a b => (qsum (map (fun i => u i a * u i b) cluster) / countq (length cluster - 1))%Q)) by (intros; apply cov_entry; auto).
  set (N := countq (length cluster - 1)) in *.
  transitivity ((1 / N) * qsum (map (fun a => qsum (map (fun b => qsum (map (fun i => (v a * u i a) * (v b * u i b)) cluster)) (seq 0 (dim sample)))) (seq 0 (dim sample))))%Q.
  - rewrite <- qsum_scale. apply qsum_ext. intros a _. rewrite <- qsum_scale. apply qsum_ext. intros b _.
    rewrite (qsum_ext (fun i => (v a * u i a) * (v b * u i b))%Q (fun i => (v a * v b) * (u i a * u i b))%Q) by (intros; ring). rewrite qsum_scale. field. exact C.
  - transitivity ((1 / N) * qsum (map (fun i => qsum (map (fun a => qsum (map (fun b => (v a * u i a) * (v b * u i b)) (seq 0 (dim sample)))) (seq 0 (dim sample)))) cluster))%Q.
    + apply Qmult_comp; [reflexivity|]. rewrite (qsum_ext _ (fun a => qsum (map (fun i => qsum (map (fun b => (v a * u i a) * (v b * u i b))%Q (seq 0 (dim sample)))) cluster))) by (intros; apply (qsum_swap (fun b i => (v a0 * u i a0) * (v b * u i b))%Q) || apply qsum_swap).
      apply qsum_swap.
    + rewrite (qsum_ext (fun i => qsum (map (fun a => qsum (map (fun b => (v a * u i a) * (v b * u i b))%Q (seq 0 (dim sample)))) (seq 0 (dim sample)))) (fun i => qsum (map (fun a => (v a * u i a)%Q) (seq 0 (dim sample))) * qsum (map (fun a => (v a * u i a)%Q) (seq 0 (dim sample))))%Q).
      * unfold u. field. exact C.
      * intros i _. apply square_sum.
Qed.

Lemma dim_first sample : dim sample = length (hd [] sample).
Proof. unfold dim. destruct sample; reflexivity. Qed.
Lemma covariances_dim : forall sample ru clusters posu, (forall n, (0 <= ru n < 1)%Q) ->
  length (initial_covariances sample ru clusters posu) = length clusters /\
  forall m, In m (initial_covariances sample ru clusters posu) ->
    (forall a b, a < dim sample -> b < dim sample -> (entry m a b == entry m b a)%Q) /\
    forall v, (0 <= form m (dim sample) v)%Q.
Proof.
  intros sample ru clusters posu Hu. revert posu. induction clusters as [|c rest IH]; intros posu; cbn [initial_covariances]; [split; [reflexivity|intros m []]|].
  destruct (Nat.ltb_spec 1 (length c)) as [Hc|Hc].
  - destruct (IH posu) as [L H]. split; [cbn [length]; now rewrite L|]. intros m [<-|Hm]; [|apply H; exact Hm]. split.
    + intros a b Ha Hb. rewrite !cov_entry by auto. apply Qmult_comp; [|reflexivity]. apply qsum_ext. intros i _. ring.
    + intros v. rewrite cov_form by exact Hc. apply Qle_shift_div_l; [unfold countq; change 0%Q with (inject_Z 0); rewrite <- Zlt_Qlt; lia|].
      rewrite Qmult_0_l. apply (qsum_sq_nonneg (fun i => qsum (map (fun a => v a * (coord (nth i sample []) a - meanq sample c a))%Q (seq 0 (dim sample))))).
  - destruct (IH (S posu)) as [L H]. split; [cbn [length]; now rewrite L|]. intros m [<-|Hm]; [|apply H; exact Hm]. set (r := (0 + ru posu / 10)%Q). split.
    + intros a b Ha Hb. rewrite !repeat_entry by auto. reflexivity.
    + intros v. rewrite (form_ext _ _ _ (fun _ _ => r)) by (intros; rewrite repeat_entry by auto; reflexivity).
      apply Qle_trans with (r * (qsum (map v (seq 0 (dim sample))) * qsum (map v (seq 0 (dim sample)))))%Q.
      * apply Qmult_le_0_compat; [unfold r; destruct (Hu posu); apply Qle_trans with (ru posu / 10)%Q; [apply Qle_shift_div_l; lra|lra]|].
        set (s := qsum _). destruct (Qlt_le_dec s 0); nra.
      * rewrite <- square_sum, <- qsum_scale. apply Qle_lteq. right. apply qsum_ext. intros a _. rewrite <- qsum_scale. apply qsum_ext. intros b _. ring.
Qed.
(** C183.  One covariance for every cluster; all are symmetric, and no
    direction has a negative variance. *)
Theorem C183_covariances : forall sample ru clusters posu, (forall n, (0 <= ru n < 1)%Q) ->
  length (initial_covariances sample ru clusters posu) = length clusters /\
  forall m, In m (initial_covariances sample ru clusters posu) ->
    (forall a b, a < length (hd [] sample) -> b < length (hd [] sample) -> (entry m a b == entry m b a)%Q) /\
    forall v, (0 <= form m (length (hd [] sample)) v)%Q.
Proof. intros sample. rewrite <- dim_first. exact (covariances_dim sample). Qed.
Print Assumptions C183_covariances.

(** C183.  The covariance of a cluster of several points is the unbiased
    sample covariance, given here by the differences of all pairs of points. *)
Theorem C183_unbiased : forall sample cluster a b, 1 < length cluster -> a < length (hd [] sample) -> b < length (hd [] sample) ->
  let x i := coord (nth i sample []) a in
  let y i := coord (nth i sample []) b in
  (2 * countq (length cluster) * countq (length cluster - 1) * entry (sample_cov sample cluster) a b ==
   qsum (map (fun i => qsum (map (fun j => (x i - x j) * (y i - y j)) cluster)) cluster))%Q.
Proof.
  intros sample cluster a b Hn Ha Hb x y. rewrite <- dim_first in Ha, Hb.
  set (N := countq (length cluster)). set (N1 := countq (length cluster - 1)).
  assert (C1 : ~ (N1 == 0)%Q) by (unfold N1, countq; change 0%Q with (inject_Z 0); rewrite inject_Z_injective; lia).
  assert (C : ~ (N == 0)%Q) by (unfold N, countq; change 0%Q with (inject_Z 0); rewrite inject_Z_injective; lia).
  set (X := qsum (map x cluster)). set (Y := qsum (map y cluster)). set (P := qsum (map (fun i => x i * y i)%Q cluster)).
  assert (Mx : (meanq sample cluster a == X / N)%Q) by (unfold meanq; rewrite qtotal_qsum; reflexivity).
  assert (My : (meanq sample cluster b == Y / N)%Q) by (unfold meanq; rewrite qtotal_qsum; reflexivity).
  assert (K : forall c : Q, (qsum (map (fun _ : nat => c) cluster) == c * N)%Q) by (intros c; apply qsum_const).
  assert (E1 : (qsum (map (fun i => (x i - meanq sample cluster a) * (y i - meanq sample cluster b)) cluster) == P - X * Y / N)%Q).
  { transitivity (qsum (map (fun i => x i * y i + ((- (Y / N)) * x i + ((- (X / N)) * y i + (X / N) * (Y / N)))) cluster))%Q.
    - apply qsum_ext. intros i _. rewrite Mx, My. ring.
    - rewrite !qsum_plus, !qsum_scale, K. fold X Y P. field. exact C. }
  assert (E0 : (entry (sample_cov sample cluster) a b == (P - X * Y / N) / N1)%Q) by (rewrite cov_entry by auto; apply Qmult_comp; [exact E1|reflexivity]).
  rewrite E0.
  transitivity (qsum (map (fun i => N * (x i * y i) + ((- Y) * x i + ((- X) * y i + P))) cluster))%Q.
  - rewrite !qsum_plus, !qsum_scale, K. fold X Y P. field. split; assumption.
  - apply qsum_ext. intros i _.
    transitivity (qsum (map (fun j => x i * y i + ((- x i) * y j + ((- y i) * x j + x j * y j))) cluster))%Q.
    + rewrite !qsum_plus, !qsum_scale, K. fold X Y P. ring.
    + apply qsum_ext. intros j _. ring.
Qed.
Print Assumptions C183_unbiased.
Example C183_unbiased_case : (entry (sample_cov [[0; 0]; [2; 2]; [1; 4]]%Q [0; 1; 2]%nat) 0%nat 1%nat == 1)%Q.
Proof. reflexivity. Qed.

(** C183.  A mean that attracts only one point starts with a matrix of equal
    entries, which has a direction without any variance (in two or more
    dimensions): the covariances need not be positive definite. *)
Theorem C183_definite_refuted : exists sample ri ru means covs,
  (forall n, ri n <= length sample) /\ (forall n, (0 <= ru n < 1)%Q) /\
  initialize_random sample ri ru 2 0 0 = Ok (means, covs) /\
  exists m v, In m covs /\ (form m (length (hd [] sample)) v == 0)%Q /\ exists a, a < length (hd [] sample) /\ ~ (v a == 0)%Q.
Proof.
  exists [[0; 0]; [1; 2]; [2; 1]; [9; 9]]%Q, (fun n => if n =? 0 then 1 else 4), (fun _ => (1 # 2)%Q).
  destruct (initialize_random _ _ _ _ _ _) as [[means covs]|e] eqn:E; [|vm_compute in E; discriminate].
  exists means, covs. split; [|split; [intros; lra|split; [reflexivity|]]].
  - intros n. cbn [length]. destruct (Nat.eqb_spec n 0); lia.
  - vm_compute in E. injection E as <- <-. eexists. exists (fun a => if a =? 0 then 1%Q else (-1)%Q). split; [right; left; reflexivity|].
    split; [reflexivity|]. exists 0. split; [cbn; lia|]. discriminate.
Qed.
Print Assumptions C183_definite_refuted.

(** * The constructor *)
(** C184.  Means and covariances that are both given are used as they are. *)
Theorem C184_given : forall data amount means variances init, data <> [] -> 1 <= amount ->
  ema_start data amount (Some means) (Some variances) init = Ok (amount, means, variances, amount).
Proof.
  intros data amount means variances init Hd Ha. unfold ema_start. destruct data; [congruence|]. cbn [length Nat.eqb].
  destruct (Nat.ltb_spec amount 1); [lia|reflexivity].
Qed.
Print Assumptions C184_given.

(** C184.  Empty data and an amount of no clusters are refused. *)
Theorem C184_refused : forall data amount means variances init, data = [] \/ amount = 0 ->
  ema_start data amount means variances init = Raise ValueError.
Proof.
  intros data amount means variances init [-> | ->]; [reflexivity|]. unfold ema_start.
  destruct (length data =? 0); reflexivity.
Qed.
Print Assumptions C184_refused.

(** C184.  Means given without covariances (or the other way round) are
    ignored: the process starts with those of the initialiser. *)
Theorem C184_means_alone_refuted : exists data amount means init start,
  data <> [] /\ length means = amount /\ ema_start data amount (Some means) None init = Ok start /\
  forall n ms vs k, start = (n, ms, vs, k) -> ~ Forall2 peq ms means.
Proof.
  exists [[0]; [1]; [5]; [6]]%Q, 2, [[1]; [5]]%Q, (initialize_kmeans [[0]; [1]; [5]; [6]]%Q (fun _ => 0%Q) [[1 # 2]; [11 # 2]]%Q [[0; 1]; [2; 3]] 0).
  eexists. split; [discriminate|]. split; [reflexivity|]. split; [reflexivity|]. intros n ms vs k E H. injection E as <- <- <- <-.
  inversion H as [|? ? ? ? A]; subst. apply peqb_true in A. vm_compute in A. discriminate.
Qed.
Print Assumptions C184_means_alone_refuted.

(** C184.  With an initialiser the numbers agree, also when k-means ended with
    fewer clusters than asked for: as many means and covariances as clusters. *)
Theorem C184_random : forall sample ri ru amount pos posu, sample <> [] -> 1 <= amount ->
  (forall n, ri n <= length sample) -> (forall n, (0 <= ru n < 1)%Q) ->
  exists init means covs, initialize_random sample ri ru amount pos posu = Ok init /\
    ema_start sample amount None None init = Ok (amount, means, covs, amount) /\ length means = amount /\ length covs = amount.
Proof.
  intros sample ri ru amount pos posu Hs Ha Hr Hu. destruct (C182_means sample ri ru amount pos posu Hs Hr Hu) as (means & posu' & E & L & _).
  assert (Hne : means <> []) by (destruct means; [cbn in L; lia|discriminate]).
  destruct (C183_clusters sample means Hne) as (cl & Ec & Lc & _). destruct (C183_covariances sample ru cl posu' Hu) as [Lv _].
  exists (means, initial_covariances sample ru cl posu'), means, (initial_covariances sample ru cl posu').
  split; [unfold initialize_random; rewrite E; cbn [bind fst snd]; rewrite Ec; reflexivity|].
  split; [|split; [exact L|congruence]]. unfold ema_start. destruct sample; [congruence|]. cbn [length Nat.eqb fst snd].
  destruct (Nat.ltb_spec amount 1); [lia|]. rewrite L, Nat.eqb_refl. reflexivity.
Qed.
Print Assumptions C184_random.
Theorem C184_kmeans : forall sample ru amount centers clusters posu, sample <> [] -> 1 <= amount ->
  (forall n, (0 <= ru n < 1)%Q) -> length clusters = length centers ->
  exists covs k, ema_start sample amount None None (initialize_kmeans sample ru centers clusters posu) = Ok (length centers, centers, covs, k) /\
    length covs = length centers.
Proof.
  intros sample ru amount centers clusters posu Hs Ha Hu Hl. destruct (C183_covariances sample ru clusters posu Hu) as [Lv _].
  exists (initial_covariances sample ru clusters posu), amount. split; [|congruence]. unfold ema_start, initialize_kmeans. destruct sample; [congruence|]. cbn [length Nat.eqb fst snd].
  destruct (Nat.ltb_spec amount 1); [lia|]. destruct (Nat.eqb_spec (length centers) amount) as [->|]; reflexivity.
Qed.
Print Assumptions C184_kmeans.
Example C184_kmeans_case : exists covs, ema_start [[0]; [1]; [5]; [6]]%Q 3 None None (initialize_kmeans [[0]; [1]; [5]; [6]]%Q (fun _ => 0%Q) [[1 # 2]; [11 # 2]]%Q [[0; 1]; [2; 3]] 0)
  = Ok (2, [[1 # 2]; [11 # 2]]%Q, covs, 3) /\ length covs = 2.
Proof. eexists. split; reflexivity. Qed.
