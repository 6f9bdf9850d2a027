(** Insertion of points into a CF-tree and BIRCH do not fail when the threshold is not tiny. *)
From Verif Require Import Base Kmeans_Model Kmeans_Proofs Aggl_Model Aggl_Proofs Cure_Model Cftree_Model Cftree_Proofs Birch_Model Birch_Proofs.

(** * Norms *)
Lemma coord_nil d : coord [] d = 0%Q. Proof. destruct d; reflexivity. Qed.

Lemma manhattan_nonneg a : forall b, (0 <= manhattan a b)%Q.
Proof.
  induction a as [|x a IH]; intros [|y b]; cbn [manhattan]; try apply Qle_refl. specialize (IH b). pose proof (Qabs_nonneg (x - y)). lra.
Qed.

Lemma sqdist_coords a : forall b, length a = length b -> (sqdist a b <= 0)%Q -> forall d, (coord a d == coord b d)%Q.
Proof.
  induction a as [|x a IH]; intros [|y b] Hl H d; simpl in Hl; try lia; [reflexivity|]. simpl in H. pose proof (sqdist_nonneg a b).
  assert (0 <= (x - y) * (x - y))%Q by (destruct (Qlt_le_dec (x - y) 0); nra).
  destruct d as [|d]; unfold coord; simpl; [|apply (IH b); [lia|lra]].
  assert (E : ((x - y) * (x - y) == 0)%Q) by lra. apply Qmult_integral in E. lra.
Qed.
Lemma manhattan_zero a : forall b, length a = length b -> (manhattan a b <= 0)%Q -> forall d, (coord a d == coord b d)%Q.
Proof.
  induction a as [|x a IH]; intros [|y b] Hl H d; simpl in Hl; try lia; [reflexivity|]. cbn [manhattan] in H. pose proof (manhattan_nonneg a b). pose proof (Qabs_nonneg (x - y)).
  destruct d as [|d]; unfold coord; simpl; [|apply (IH b); [lia|lra]].
  assert (Hz : (Qabs (x - y) <= 0)%Q) by lra. apply Qabs_Qle_condition in Hz. lra.
Qed.
Lemma sqdist_eq0 a : forall b, length a = length b -> (forall d, d < length a -> (coord a d == coord b d)%Q) -> (sqdist a b == 0)%Q.
Proof.
  induction a as [|x a IH]; intros [|y b] Hl H; simpl in *; try lia; try reflexivity. rewrite (IH b); [|lia|intros d Hd; apply (H (S d)); lia].
  pose proof (H 0 ltac:(lia)) as H0. unfold coord in H0. simpl in H0. rewrite H0. ring.
Qed.
Lemma manhattan_eq0 a : forall b, length a = length b -> (forall d, d < length a -> (coord a d == coord b d)%Q) -> (manhattan a b == 0)%Q.
Proof.
  induction a as [|x a IH]; intros [|y b] Hl H; simpl in *; try lia; try reflexivity. rewrite (IH b); [|lia|intros d Hd; apply (H (S d)); lia].
  pose proof (H 0 ltac:(lia)) as H0. unfold coord in H0. simpl in H0. assert (E : (x - y == 0)%Q) by lra. setoid_replace (Qabs (x - y)) with 0%Q; [reflexivity|]. rewrite (Qabs_wd _ _ E). reflexivity.
Qed.

(** [b] lies on the segment from [a] to [x] *)
Definition on_segment (k : Q) (x a b : point) : Prop := forall d, d < length x -> (coord x d - coord b d == k * (coord x d - coord a d))%Q.
Lemma segment_sqdist k x : forall a b, length a = length x -> length b = length x -> on_segment k x a b -> (sqdist x b == k * k * sqdist x a)%Q.
Proof.
  induction x as [|u x IH]; intros [|v a] [|w b] Ha Hb H; simpl in *; try lia; try ring.
  rewrite (IH a b) by (try lia; intros d Hd; apply (H (S d)); simpl; lia). pose proof (H 0 ltac:(simpl; lia)) as H0. unfold coord in H0. simpl in H0. rewrite H0. ring.
Qed.
Lemma segment_manhattan k x : (0 <= k)%Q -> forall a b, length a = length x -> length b = length x -> on_segment k x a b -> (manhattan x b == k * manhattan x a)%Q.
Proof.
  intros Hk. induction x as [|u x IH]; intros [|v a] [|w b] Ha Hb H; cbn [manhattan length] in *; try lia; try ring.
  rewrite (IH a b) by (try lia; intros d Hd; apply (H (S d)); simpl; lia). pose proof (H 0 ltac:(simpl; lia)) as H0. unfold coord in H0. cbn [nth] in H0. rewrite (Qabs_wd _ _ H0), Qabs_Qmult, (Qabs_pos k) by auto. ring.
Qed.

(** * Distances of features *)
Section Total.
Variable D : nat.
Variable m : measure.
Variable branch maxe : nat.
Variable thr : Q.
Hypothesis Hmax : 1 <= maxe.
Hypothesis Hthr : (0 <= thr)%Q.
Hypothesis Hthr2 : ((1 # 1000000000) <= thr * thr)%Q.

Definition pt (x : entry) : Prop := exists ps, ps <> [] /\ uniform D ps /\ describes D x ps.

Lemma pt_num x : pt x -> (1 <= numq x)%Q.
Proof.
  intros (ps & Hn & _ & (H & _)). unfold numq. rewrite H. change 1%Q with (inject_Z 1). rewrite <- Zle_Qle. destruct ps; [congruence|simpl; lia].
Qed.
Lemma pt_len x : pt x -> length (centroid x) = D.
Proof. intros (ps & _ & _ & H). eapply centroid_length; eauto. Qed.
Lemma pt_lsum x : pt x -> length (lsum x) = D.
Proof. intros (ps & _ & _ & H). apply H. Qed.
Lemma pt_fadd a b : pt a -> pt b -> pt (fadd a b).
Proof.
  intros (ps & N1 & U1 & H1) (qs & N2 & U2 & H2). exists (ps ++ qs). split; [intros H; apply app_eq_nil in H; tauto|]. split; [|apply describes_fadd; auto].
  intros p Hp. apply in_app_iff in Hp as [Hp|Hp]; auto.
Qed.
Lemma pt_copy a : pt a -> pt (copy a).
Proof. intros (ps & N1 & U1 & H1). exists ps. split; auto. Qed.
Lemma pt_point p : length p = D -> pt (point_entry p).
Proof. intros H. exists [p]. split; [discriminate|]. split; [intros q [<-|[]]; auto|apply point_describes; auto]. Qed.

Lemma centroid_coord x d : d < length (lsum x) -> (coord (centroid x) d == coord (lsum x) d / numq x)%Q.
Proof.
  intros H. unfold centroid, coord. rewrite (nth_indep _ 0%Q (0 / numq x)%Q) by (rewrite map_length; auto). rewrite (map_nth (fun y => y / numq x)%Q). reflexivity.
Qed.
Lemma fadd_coord a b d : pt a -> pt b -> d < D -> (coord (centroid (fadd a b)) d == (numq a * coord (centroid a) d + numq b * coord (centroid b) d) / (numq a + numq b))%Q.
Proof.
  intros Ha Hb Hd. pose proof (pt_num _ Ha). pose proof (pt_num _ Hb).
  rewrite !centroid_coord by (rewrite pt_lsum; auto; apply pt_fadd; auto). rewrite numq_fadd. cbn [fadd lsum]. rewrite (padd_coord D) by (auto using pt_lsum). field. repeat split; lra.
Qed.

(** centroid of the sum lies on the segment *)
Lemma fadd_segment f x g : pt f -> pt x -> pt g -> (forall d, d < D -> (coord (centroid (fadd f x)) d == coord (centroid g) d)%Q) ->
  on_segment (numq f / (numq f + numq x)) (centroid x) (centroid f) (centroid g).
Proof.
  intros Hf Hx Hg H d Hd. rewrite pt_len in Hd by auto. rewrite <- H by auto. rewrite fadd_coord by auto. pose proof (pt_num _ Hf). pose proof (pt_num _ Hx). field. lra.
Qed.
Lemma kappa f x : pt f -> pt x -> (0 < numq f / (numq f + numq x) < 1)%Q.
Proof.
  intros Hf Hx. pose proof (pt_num _ Hf). pose proof (pt_num _ Hx). split.
  - apply Qlt_shift_div_l; lra.
  - apply Qlt_shift_div_r; lra.
Qed.

Lemma dot_padd_self a b : length a = length b -> (dot (padd a b) (padd a b) == dot a a + 2 * dot a b + dot b b)%Q.
Proof. intros H. rewrite (dot_padd _ a b) by auto. rewrite (dot_comm (padd a b) a), (dot_comm (padd a b) b). rewrite !dot_padd by auto. rewrite (dot_comm b a). ring. Qed.

Lemma sqdist_centroid a b : pt a -> pt b -> (sqdist (centroid a) (centroid b) == dot (lsum a) (lsum a) / (numq a * numq a) - 2 * dot (lsum a) (lsum b) / (numq a * numq b) + dot (lsum b) (lsum b) / (numq b * numq b))%Q.
Proof.
  intros Ha Hb. pose proof (pt_num _ Ha). pose proof (pt_num _ Hb). rewrite sqdist_dot by (rewrite !pt_len; auto). unfold centroid. rewrite !dot_scale.
  rewrite (dot_comm (map (fun x => (x / numq a)%Q) (lsum a)) (lsum a)), (dot_comm (map (fun x => (x / numq a)%Q) (lsum a)) (lsum b)), (dot_comm (map (fun x => (x / numq b)%Q) (lsum b)) (lsum b)).
  rewrite !dot_scale. rewrite (dot_comm (lsum b) (lsum a)). field. split; lra.
Qed.
Lemma variance_centroid a b : pt a -> pt b -> (variance_increase a b == numq a * numq b / (numq a + numq b) * sqdist (centroid b) (centroid a))%Q.
Proof.
  intros Ha Hb. pose proof (pt_num _ Ha). pose proof (pt_num _ Hb). rewrite sqdist_centroid by auto. unfold variance_increase. rewrite dot_padd_self by (rewrite !pt_lsum; auto).
  rewrite (dot_comm (lsum b) (lsum a)). field. repeat split; lra.
Qed.

Lemma pos_iff c x : (0 < c)%Q -> ((0 < x)%Q <-> (0 < c * x)%Q).
Proof. intros Hc. split; intros H; [apply Qmult_lt_0_compat; auto|]. destruct (Qlt_le_dec 0 x) as [|Hx]; auto. exfalso. nra. Qed.

Lemma inter_cross a b : pt a -> pt b -> exists ps qs, describes D a ps /\ describes D b qs /\ uniform D ps /\ uniform D qs /\ ps <> [] /\ qs <> [] /\
  ((0 < inter_sq a b)%Q <-> (0 < cross ps qs)%Q).
Proof.
  intros Ha Hb. pose proof (pt_num _ Ha). pose proof (pt_num _ Hb). destruct Ha as (ps & N1 & U1 & H1). destruct Hb as (qs & N2 & U2 & H2). exists ps, qs. do 6 (split; [auto|]).
  rewrite <- (inter_spec D a ps b qs) by auto. apply pos_iff. nra.
Qed.

Lemma intra_cross a b : pt a -> pt b -> exists ps qs, describes D a ps /\ describes D b qs /\ uniform D ps /\ uniform D qs /\ ps <> [] /\ qs <> [] /\
  ((0 < intra_sq a b)%Q <-> (0 < cross (ps ++ qs) (ps ++ qs))%Q).
Proof.
  intros Ha Hb. pose proof (pt_num _ Ha). pose proof (pt_num _ Hb). destruct Ha as (ps & N1 & U1 & H1). destruct Hb as (qs & N2 & U2 & H2). exists ps, qs. do 6 (split; [auto|]).
  rewrite <- (intra_spec D a ps b qs) by auto. apply pos_iff. apply Qmult_lt_0_compat; lra.
Qed.
Lemma qsum_nonneg {A} (f : A -> Q) l : (forall x, In x l -> (0 <= f x)%Q) -> (0 <= qsum (map f l))%Q.
Proof. induction l as [|x l IH]; intros H; simpl; [lra|]. pose proof (H x ltac:(left; auto)). specialize (IH ltac:(intros; apply H; right; auto)). lra. Qed.
Lemma cross_nonneg ps qs : (0 <= cross ps qs)%Q.
Proof. unfold cross. apply qsum_nonneg. intros p _. apply qsum_nonneg. intros q _. apply sqdist_nonneg. Qed.
Lemma cross_app_l ps xs qs : (cross (ps ++ xs) qs == cross ps qs + cross xs qs)%Q.
Proof. unfold cross. rewrite map_app, qsum_app. reflexivity. Qed.
Lemma cross_app_r ps xs qs : (cross ps (qs ++ xs) == cross ps qs + cross ps xs)%Q.
Proof. unfold cross. rewrite <- (qsum_plus (fun p => qsum (map (fun q => sqdist p q) qs)) (fun p => qsum (map (fun q => sqdist p q) xs))). apply qsum_ext. intros p _. rewrite map_app, qsum_app. reflexivity. Qed.

(** distance zero of two features, by measure *)
Lemma apart_step f1 f2 x : pt f1 -> pt f2 -> pt x -> (0 < dist m f1 f2)%Q -> (dist m f1 x < dist m f2 x)%Q -> (0 < dist m (fadd f1 x) f2)%Q.
Proof.
  intros H1 H2 Hx H0 H. pose proof (pt_fadd _ _ H1 Hx) as H1x. pose proof (kappa f1 x H1 Hx) as [K1 K2]. set (k := (numq f1 / (numq f1 + numq x))%Q) in *.
  pose proof (pt_num _ H1). pose proof (pt_num _ H2). pose proof (pt_num _ Hx).
  destruct m; cbn [dist] in *.
  - destruct (Qlt_le_dec 0 (sqdist (centroid f2) (centroid (fadd f1 x)))) as [|Hz]; auto. exfalso.
    assert (S : on_segment k (centroid x) (centroid f1) (centroid f2)) by (apply fadd_segment; auto; intros d Hd; symmetry; apply sqdist_coords; auto; rewrite !pt_len; auto).
    apply segment_sqdist in S; [|rewrite !pt_len; auto|rewrite !pt_len; auto]. pose proof (sqdist_nonneg (centroid x) (centroid f1)). rewrite S in H. assert (k * k <= 1)%Q by nra. nra.
  - destruct (Qlt_le_dec 0 (manhattan (centroid f2) (centroid (fadd f1 x)))) as [|Hz]; auto. exfalso.
    assert (S : on_segment k (centroid x) (centroid f1) (centroid f2)) by (apply fadd_segment; auto; intros d Hd; symmetry; apply manhattan_zero; auto; rewrite !pt_len; auto).
    apply segment_manhattan in S; [|lra|rewrite !pt_len; auto|rewrite !pt_len; auto]. pose proof (manhattan_nonneg (centroid x) (centroid f1)). rewrite S in H. nra.
  - destruct (inter_cross f1 f2 H1 H2) as (ps & qs & A & B & Up & Uq & Np & Nq & E). apply E in H0. clear H.
    destruct Hx as (xs & Nx & Ux & Hx). pose proof (describes_fadd D _ _ _ _ A Hx) as Hs. pose proof (pt_num _ H1x).
    assert (U : uniform D (ps ++ xs)) by (intros p Hp; apply in_app_iff in Hp as [Hp|Hp]; auto).
    assert (Nn : ps ++ xs <> []) by (intros Hnil; apply app_eq_nil in Hnil; tauto).
    pose proof (inter_spec D _ _ _ _ Hs B U Uq Nn Nq) as E'. rewrite cross_app_l in E'. pose proof (cross_nonneg xs qs).
    apply (pos_iff (numq (fadd f1 x) * numq f2)%Q); [nra|]. rewrite E'. lra.
  - destruct (intra_cross f1 f2 H1 H2) as (ps & qs & A & B & Up & Uq & Np & Nq & E). apply E in H0. clear H.
    destruct Hx as (xs & Nx & Ux & Hx). pose proof (describes_fadd D _ _ _ _ A Hx) as Hs. pose proof (pt_num _ H1x).
    assert (U : uniform D (ps ++ xs)) by (intros p Hp; apply in_app_iff in Hp as [Hp|Hp]; auto).
    assert (Nn : ps ++ xs <> []) by (intros Hnil; apply app_eq_nil in Hnil; tauto).
    pose proof (intra_spec D _ _ _ _ Hs B U Uq Nn Nq) as E'. apply (pos_iff ((numq (fadd f1 x) + numq f2) * (numq (fadd f1 x) + numq f2 - 1))%Q); [nra|]. rewrite E'.
    revert H0. rewrite !cross_app_l, !cross_app_r. pose proof (cross_nonneg xs ps). pose proof (cross_nonneg xs xs). pose proof (cross_nonneg xs qs). pose proof (cross_nonneg ps xs). pose proof (cross_nonneg qs xs). lra.
  - rewrite !variance_centroid in * by auto.
    destruct (Qlt_le_dec 0 (sqdist (centroid f2) (centroid (fadd f1 x)))) as [Hz|Hz].
    + apply Qmult_lt_0_compat; auto. rewrite numq_fadd. apply Qlt_shift_div_l; [lra|]. nra.
    + exfalso.
      assert (S : on_segment k (centroid x) (centroid f1) (centroid f2)) by (apply fadd_segment; auto; intros d Hd; symmetry; apply sqdist_coords; auto; rewrite !pt_len; auto).
      apply segment_sqdist in S; [|rewrite !pt_len; auto|rewrite !pt_len; auto]. pose proof (sqdist_nonneg (centroid x) (centroid f1)). rewrite S in H.
      pose proof (kappa f2 x H2 Hx) as [K3 K4]. set (k2 := (numq f2 / (numq f2 + numq x))%Q) in *.
      assert (E1 : (numq f1 * numq x / (numq f1 + numq x) == numq x * k)%Q) by (unfold k; field; lra).
      assert (E2 : (numq f2 * numq x / (numq f2 + numq x) == numq x * k2)%Q) by (unfold k2; field; lra).
      rewrite E1, E2 in H. set (N := sqdist (centroid x) (centroid f1)) in *.
      assert (A : (0 <= numq x * k * N)%Q) by (apply Qmult_le_0_compat; auto; apply Qmult_le_0_compat; lra).
      assert (B : (k2 * k <= 1)%Q) by nra.
      assert (C : (numq x * k2 * (k * k * N) == (k2 * k) * (numq x * k * N))%Q) by ring. rewrite C in H. nra.
Qed.

Lemma same_len a b : pt a -> pt b -> length (centroid a) = length (centroid b).
Proof. intros; rewrite !pt_len; auto. Qed.
Lemma sq_case f1 f2 x : pt f1 -> pt f2 -> pt x -> (0 < sqdist (centroid f2) (centroid f1))%Q ->
  (forall d, d < D -> (coord (centroid (fadd f2 x)) d == coord (centroid f1) d)%Q) -> exists k,
  (0 < k < 1)%Q /\ k == numq f2 / (numq f2 + numq x) /\ (sqdist (centroid x) (centroid f1) == k * k * sqdist (centroid x) (centroid f2))%Q /\ (0 < sqdist (centroid x) (centroid f2))%Q.
Proof.
  intros H1 H2 Hx H0 H. exists (numq f2 / (numq f2 + numq x))%Q. pose proof (kappa f2 x H2 Hx) as K. split; [auto|]. split; [reflexivity|].
  pose proof (fadd_segment f2 x f1 H2 Hx H1 H) as S. apply segment_sqdist in S; [|rewrite !pt_len; auto|rewrite !pt_len; auto]. split; [auto|].
  destruct (Qlt_le_dec 0 (sqdist (centroid x) (centroid f2))) as [|Hz]; auto. exfalso.
  assert (Hz' : (sqdist (centroid x) (centroid f1) <= 0)%Q) by (rewrite S; pose proof (sqdist_nonneg (centroid x) (centroid f2)); assert (E : (sqdist (centroid x) (centroid f2) == 0)%Q) by lra; rewrite E; lra).
  assert (E : (sqdist (centroid f2) (centroid f1) == 0)%Q); [|lra]. apply sqdist_eq0; [rewrite !pt_len; auto|]. intros d Hd.
  rewrite <- (sqdist_coords _ _ (same_len x f2 Hx H2) Hz d). rewrite <- (sqdist_coords _ _ (same_len x f1 Hx H1) Hz' d). reflexivity.
Qed.

Lemma apart_step2 f1 f2 x : pt f1 -> pt f2 -> pt x -> (0 < dist m f1 f2)%Q -> (dist m f2 x <= dist m f1 x)%Q -> (0 < dist m f1 (fadd f2 x))%Q.
Proof.
  intros H1 H2 Hx H0 H. pose proof (pt_fadd _ _ H2 Hx) as H2x.
  pose proof (pt_num _ H1). pose proof (pt_num _ H2). pose proof (pt_num _ Hx). pose proof (pt_num _ H2x).
  destruct m; cbn [dist] in *.
  - destruct (Qlt_le_dec 0 (sqdist (centroid (fadd f2 x)) (centroid f1))) as [|Hz]; auto. exfalso.
    destruct (sq_case f1 f2 x H1 H2 Hx H0) as (k & [K1 K2] & _ & S & P); [intros d Hd; apply sqdist_coords; auto; rewrite !pt_len; auto|].
    rewrite S in H. assert (k * k < 1)%Q by nra. nra.
  - destruct (Qlt_le_dec 0 (manhattan (centroid (fadd f2 x)) (centroid f1))) as [|Hz]; auto. exfalso.
    assert (S : on_segment (numq f2 / (numq f2 + numq x)) (centroid x) (centroid f2) (centroid f1)) by (apply fadd_segment; auto; intros d Hd; apply manhattan_zero; auto; rewrite !pt_len; auto).
    pose proof (kappa f2 x H2 Hx) as [K1 K2]. set (k := (numq f2 / (numq f2 + numq x))%Q) in *.
    apply segment_manhattan in S; [|lra|rewrite !pt_len; auto|rewrite !pt_len; auto]. pose proof (manhattan_nonneg (centroid x) (centroid f2)). rewrite S in H.
    assert (Hz2 : (manhattan (centroid x) (centroid f2) <= 0)%Q) by nra.
    assert (Hz1 : (manhattan (centroid x) (centroid f1) <= 0)%Q) by (rewrite S; nra).
    assert (E : (manhattan (centroid f2) (centroid f1) == 0)%Q); [|lra]. apply manhattan_eq0; [rewrite !pt_len; auto|]. intros d Hd.
    rewrite <- (manhattan_zero _ _ (same_len x f2 Hx H2) Hz2 d). rewrite <- (manhattan_zero _ _ (same_len x f1 Hx H1) Hz1 d). reflexivity.
  - destruct (inter_cross f1 f2 H1 H2) as (ps & qs & A & B & Up & Uq & Np & Nq & E). apply E in H0. clear H.
    destruct Hx as (xs & Nx & Ux & Hx). pose proof (describes_fadd D _ _ _ _ B Hx) as Hs.
    assert (U : uniform D (qs ++ xs)) by (intros p Hp; apply in_app_iff in Hp as [Hp|Hp]; auto).
    assert (Nn : qs ++ xs <> []) by (intros Hnil; apply app_eq_nil in Hnil; tauto).
    pose proof (inter_spec D _ _ _ _ A Hs Up U Np Nn) as E'. rewrite cross_app_r in E'. pose proof (cross_nonneg ps xs).
    apply (pos_iff (numq f1 * numq (fadd f2 x))%Q); [nra|]. rewrite E'. lra.
  - destruct (intra_cross f1 f2 H1 H2) as (ps & qs & A & B & Up & Uq & Np & Nq & E). apply E in H0. clear H.
    destruct Hx as (xs & Nx & Ux & Hx). pose proof (describes_fadd D _ _ _ _ B Hx) as Hs.
    assert (U : uniform D (qs ++ xs)) by (intros p Hp; apply in_app_iff in Hp as [Hp|Hp]; auto).
    assert (Nn : qs ++ xs <> []) by (intros Hnil; apply app_eq_nil in Hnil; tauto).
    pose proof (intra_spec D _ _ _ _ A Hs Up U Np Nn) as E'. apply (pos_iff ((numq f1 + numq (fadd f2 x)) * (numq f1 + numq (fadd f2 x) - 1))%Q); [apply Qmult_lt_0_compat; lra|]. rewrite E'.
    revert H0. rewrite !cross_app_l, !cross_app_r. pose proof (cross_nonneg xs ps). pose proof (cross_nonneg xs xs). pose proof (cross_nonneg xs qs). pose proof (cross_nonneg ps xs). pose proof (cross_nonneg qs xs). lra.
  - rewrite !variance_centroid in * by auto.
    destruct (Qlt_le_dec 0 (sqdist (centroid (fadd f2 x)) (centroid f1))) as [Hz|Hz].
    + apply Qmult_lt_0_compat; auto. apply Qlt_shift_div_l; [lra|]. nra.
    + exfalso.
      assert (H0' : (0 < sqdist (centroid f2) (centroid f1))%Q).
      { apply (pos_iff (numq f1 * numq f2 / (numq f1 + numq f2))%Q); auto. apply Qlt_shift_div_l; [lra|]. nra. }
      destruct (sq_case f1 f2 x H1 H2 Hx H0') as (k & [K1 K2] & Ek & S & P); [intros d Hd; apply sqdist_coords; auto; rewrite !pt_len; auto|].
      rewrite S in H. pose proof (kappa f1 x H1 Hx) as [K3 K4]. set (k1 := (numq f1 / (numq f1 + numq x))%Q) in *.
      assert (E1 : (numq f1 * numq x / (numq f1 + numq x) == numq x * k1)%Q) by (unfold k1; field; lra).
      assert (E2 : (numq f2 * numq x / (numq f2 + numq x) == numq x * k)%Q) by (rewrite Ek; field; lra).
      rewrite E1, E2 in H. set (N := sqdist (centroid x) (centroid f2)) in *.
      assert (A : (0 < numq x * k * N)%Q) by (apply Qmult_lt_0_compat; auto; apply Qmult_lt_0_compat; lra).
      assert (B : (k1 * k < 1)%Q) by nra.
      assert (C : (numq x * k1 * (k * k * N) == (k1 * k) * (numq x * k * N))%Q) by ring. rewrite C in H. nra.
Qed.

(** * Splitting *)
Lemma farthest_pos {A} (key : A -> entry) d l i j : farthest m key d l = Some (i, j) -> (0 < dist m (key (nth i l d)) (key (nth j l d)))%Q.
Proof.
  unfold farthest. set (step := fun best ij => _).
  assert (G : forall ps best, (0 <= snd best)%Q -> (forall ij, fst best = Some ij -> (0 < dist m (key (nth (fst ij) l d)) (key (nth (snd ij) l d)))%Q) ->
    forall ij, fst (fold_left step ps best) = Some ij -> (0 < dist m (key (nth (fst ij) l d)) (key (nth (snd ij) l d)))%Q).
  { induction ps as [|p ps IH]; intros best H0 Hb ij; cbn [fold_left]; auto. apply IH.
    - unfold step. destruct (Qltb (snd best) _) eqn:E; cbn [snd]; auto. apply Qltb_true in E. lra.
    - intros q. unfold step. destruct (Qltb (snd best) _) eqn:E; cbn [fst]; auto. intros [= <-]. apply Qltb_true in E. lra. }
  intros H. apply (G (pairs (length l)) (None, 0%Q) (Qle_refl 0) ltac:(cbn; discriminate) (i, j) H).
Qed.
Lemma farthest_some {A} (key : A -> entry) d l i j : i < j -> j < length l -> (0 < dist m (key (nth i l d)) (key (nth j l d)))%Q -> farthest m key d l <> None.
Proof.
  intros Hi Hj Hpos. unfold farthest. set (step := fun best ij => _).
  assert (G : forall ps best, (0 <= snd best)%Q -> fst best = None -> (snd best == 0)%Q -> In (i, j) ps -> fst (fold_left step ps best) <> None).
  { assert (G1 : forall ps best, fst best <> None -> fst (fold_left step ps best) <> None).
    { induction ps as [|p ps IH]; intros best Hb; cbn [fold_left]; auto. apply IH. unfold step. destruct (Qltb _ _); cbn [fst]; [discriminate|auto]. }
    induction ps as [|p ps IH]; intros best H0 Hb Hs Hin; [destruct Hin|]. cbn [fold_left]. destruct Hin as [->|Hin].
    - apply G1. unfold step. cbn [fst snd]. destruct (Qltb (snd best) _) eqn:E; cbn [fst]; [discriminate|]. apply Qltb_false in E. lra.
    - unfold step at 2. destruct (Qltb (snd best) _) eqn:E; [apply G1; cbn [fst]; discriminate|apply IH; auto]. }
  apply G; cbn; try lra; auto. apply pairs_in. auto.
Qed.

Lemma distribute_apart {A} (key : A -> entry) skip l : forall k n1 n2 r1 r2, distribute m key skip k l n1 n2 = (r1, r2) ->
  (forall x, In x l -> pt (key x)) -> pt (fst n1) -> pt (fst n2) -> (0 < dist m (fst n1) (fst n2))%Q -> (0 < dist m (fst r1) (fst r2))%Q.
Proof.
  induction l as [|x t IH]; intros k n1 n2 r1 r2 E Hp P1 P2 H; cbn [distribute] in E; [injection E as <- <-; auto|].
  assert (Ht : forall y, In y t -> pt (key y)) by (intros; apply Hp; right; auto). pose proof (Hp x ltac:(left; auto)) as Hx.
  destruct (skip k x); [eapply IH; eauto|]. destruct (Qltb _ _) eqn:El.
  - apply Qltb_true in El. eapply IH; [exact E|auto| | |]; cbn [fst]; auto; [apply pt_fadd; auto|apply apart_step; auto].
  - apply Qltb_false in El. eapply IH; [exact E|auto| | |]; cbn [fst]; auto; [apply pt_fadd; auto|apply apart_step2; auto].
Qed.
Lemma dist_copy a b : dist m (copy a) (copy b) = dist m a b.
Proof. destruct m; reflexivity. Qed.

Lemma split_leaf_ok es i j : i < j -> j < length es -> (forall x, In x es -> pt x) -> (0 < dist m (nth i es e0) (nth j es e0))%Q ->
  exists r1 r2, split_leaf m es = Ok (r1, r2) /\ (0 < dist m (fst r1) (fst r2))%Q.
Proof.
  intros Hi Hj Hp H. unfold split_leaf. destruct (farthest m (fun e => e) e0 es) as [[a b]|] eqn:E; [|exfalso; apply (farthest_some (fun e => e) e0 es i j Hi Hj H E)].
  pose proof (farthest_pos _ _ _ _ _ E) as Hpos. cbv beta in Hpos. apply farthest_spec in E as [Ha Hb].
  destruct (distribute _ _ _ _ _ _ _) as [r1 r2] eqn:Ed. exists r1, r2. split; [reflexivity|]. eapply distribute_apart; [exact Ed|auto| | |]; cbn [fst].
  - apply pt_copy, Hp, nth_In. lia.
  - apply pt_copy, Hp, nth_In. lia.
  - rewrite dist_copy. auto.
Qed.
Lemma split_nonleaf_ok kids i j : i < j -> j < length kids -> (forall x, In x kids -> pt (feat x)) -> (0 < dist m (feat (nth i kids t0)) (feat (nth j kids t0)))%Q ->
  exists r1 r2, split_nonleaf m kids = Ok (r1, r2) /\ (0 < dist m (feat r1) (feat r2))%Q.
Proof.
  intros Hi Hj Hp H. unfold split_nonleaf. destruct (farthest m feat t0 kids) as [[a b]|] eqn:E; [|exfalso; apply (farthest_some feat t0 kids i j Hi Hj H E)].
  pose proof (farthest_pos _ _ _ _ _ E) as Hpos. apply farthest_spec in E as [Ha Hb].
  destruct (distribute _ _ _ _ _ _ _) as [[f1 l1] [f2 l2]] eqn:Ed. exists (Node f1 l1), (Node f2 l2). split; [reflexivity|]. cbn [feat].
  apply (distribute_apart _ _ _ _ _ _ _ _ Ed Hp); cbn [fst].
  - apply pt_copy, Hp, nth_In. lia.
  - apply pt_copy, Hp, nth_In. lia.
  - rewrite dist_copy. auto.
Qed.

(** * Leaves *)
Lemma not_wider x : (2 <= numq x)%Q -> (diameter_part x <= thr * thr * (numq x * (numq x - 1)))%Q -> wider x thr = false.
Proof.
  intros Hn H. unfold wider, lt_root. apply orb_false_iff. split; [apply Qltb_false; auto|]. apply Qltb_false. unfold diameter_sq. destruct (Qltb _ _); [lra|].
  apply Qle_shift_div_r; [apply Qmult_lt_0_compat; lra|auto].
Qed.
Lemma wider_part x ps : describes D x ps -> uniform D ps -> ps <> [] -> wider x thr = false -> (diameter_part x <= thr * thr * (numq x * numq x))%Q.
Proof.
  intros Hx Hu Hne H. assert (P : pt x) by (exists ps; auto). apply pt_num in P. unfold wider, lt_root in H. apply orb_false_iff in H as [_ H]. apply Qltb_false in H. unfold diameter_sq in H.
  assert (N1 : (1 <= numq x * numq x)%Q) by nra.
  destruct (Qltb (diameter_part x) (1 # 1000000000)) eqn:E.
  - apply Qltb_true in E. set (n2 := (numq x * numq x)%Q) in *. set (t2 := (thr * thr)%Q) in *. nra.
  - destruct (Qlt_le_dec 1 (numq x)) as [Hn|Hn].
    + assert (Hp : (0 < numq x * (numq x - 1))%Q) by (apply Qmult_lt_0_compat; lra). set (q := (numq x * (numq x - 1))%Q) in *.
      assert (E2 : (diameter_part x == diameter_part x / q * q)%Q) by (field; lra). rewrite E2. set (v := (diameter_part x / q)%Q) in *.
      assert (v * q <= thr * thr * q)%Q by (apply Qmult_le_compat_r; lra). assert (q <= numq x * numq x)%Q by (unfold q; lra).
      assert (0 <= thr * thr)%Q by (apply Qmult_le_0_compat; auto). assert (thr * thr * q <= thr * thr * (numq x * numq x))%Q; [|lra].
      rewrite (Qmult_comm (thr * thr) q), (Qmult_comm (thr * thr)). apply Qmult_le_compat_r; auto.
    + exfalso. apply Qltb_false in E. assert (E1 : (numq x == 1)%Q) by lra. rewrite (diameter_spec D x ps) in E by auto.
      destruct Hx as (Hx & _). unfold numq in E1. rewrite Hx in E1. destruct ps as [|p [|q ps]]; [congruence| |].
      * unfold cross in E. cbn [map qsum fold_right] in E. pose proof (sqdist_eq0 p p eq_refl (fun d _ => Qeq_refl _)). lra.
      * exfalso. change 1%Q with (inject_Z 1) in E1. unfold Qeq, inject_Z in E1. cbn [Qnum Qden length] in E1. lia.
Qed.

Definition pointlike (l : list entry) : Prop := forall x, In x l -> exists p, length p = D /\ x = point_entry p.
Definition plain (x : entry) : Prop := exists g, stands_for D thr x g /\ pointlike g.

Lemma pointlike_map l : pointlike l -> exists ps, uniform D ps /\ l = map point_entry ps.
Proof.
  induction l as [|x l IH]; intros H; [exists []; split; [intros p []|auto]|]. destruct IH as (ps & Hu & ->); [intros y Hy; apply H; right; auto|].
  destruct (H x ltac:(left; auto)) as (p & Hp & ->). exists (p :: ps). split; auto. intros q [<-|Hq]; auto.
Qed.
Lemma plain_pt x : plain x -> pt x.
Proof.
  intros (g & (Hne & Hs & _) & Hp). destruct (pointlike_map g Hp) as (ps & Hu & ->). exists ps. split; [intros ->; apply Hne; auto|]. split; auto. apply sums_describes; auto.
Qed.
Lemma plain_part x : plain x -> (0 <= diameter_part x <= thr * thr * (numq x * numq x))%Q.
Proof.
  intros (g & (Hne & Hs & Hor) & Hp). destruct (pointlike_map g Hp) as (ps & Hu & ->). assert (Hn : ps <> []) by (intros ->; apply Hne; auto).
  pose proof (sums_describes D x ps Hu Hs) as Hd. split; [rewrite (diameter_spec D x ps) by auto; apply cross_nonneg|].
  destruct Hor as [Hor|Hor]; [|apply (wider_part x ps); auto].
  destruct ps as [|p [|q ps]]; [congruence| |discriminate]. rewrite (diameter_spec D x [p]) by auto. unfold cross. cbn [map qsum fold_right]. pose proof (sqdist_eq0 p p eq_refl (fun d _ => Qeq_refl _)).
  assert (0 <= thr * thr * (numq x * numq x))%Q; [|lra]. assert (P : pt x) by (exists [p]; auto). apply pt_num in P. apply Qmult_le_0_compat; apply Qmult_le_0_compat; lra.
Qed.

Lemma numq_point p : (numq (point_entry p) == 1)%Q. Proof. reflexivity. Qed.

(** a point at distance zero of an entry is absorbed *)
Lemma absorbs y p : plain y -> length p = D -> (dist m y (point_entry p) <= 0)%Q -> wider (fadd y (point_entry p)) thr = false.
Proof.
  intros Hy Hp H. pose proof (plain_pt y Hy) as Py. pose proof (plain_part y Hy) as [Q0 Q1]. pose proof (pt_point p Hp) as Pe. pose proof (pt_num _ Py) as N.
  set (e := point_entry p) in *. assert (Ne : (numq e == 1)%Q) by apply numq_point. pose proof (pt_fadd _ _ Py Pe) as Ps.
  assert (Nf : (numq (fadd y e) == numq y + 1)%Q) by (rewrite numq_fadd, Ne; reflexivity).
  assert (T0 : (0 <= thr * thr)%Q) by (apply Qmult_le_0_compat; auto).
  assert (Ess : (ssum e == dot (lsum e) (lsum e))%Q).
  { destruct (point_describes D p Hp) as (_ & Hl & _). pose proof (diameter_spec D e [p] (point_describes D p Hp) ltac:(intros q [<-|[]]; auto)) as Ed. unfold diameter_part in Ed. rewrite Ne in Ed.
    unfold cross in Ed. cbn [map qsum fold_right] in Ed. rewrite (sqdist_eq0 p p eq_refl (fun d _ => Qeq_refl _)) in Ed. lra. }
  assert (E1 : (diameter_part (fadd y e) == diameter_part y + 2 * (numq y * inter_sq y e))%Q).
  { unfold diameter_part, inter_sq. rewrite Nf. cbn [fadd ssum lsum]. rewrite dot_padd_self by (rewrite !pt_lsum; auto). rewrite Ne, Ess. field. lra. }
  assert (E2 : (2 * (numq y * inter_sq y e) == diameter_part y / numq y + 2 * numq y * sqdist (centroid e) (centroid y))%Q).
  { rewrite sqdist_centroid by auto. unfold diameter_part, inter_sq. rewrite Ne, Ess, (dot_comm (lsum e) (lsum y)). field. lra. }
  apply not_wider; [rewrite Nf; lra|]. rewrite Nf. setoid_replace ((numq y + 1) * (numq y + 1 - 1))%Q with (numq y * numq y + numq y)%Q by ring.
  assert (T1 : (0 <= thr * thr * numq y)%Q) by (apply Qmult_le_0_compat; lra).
  assert (C : (sqdist (centroid e) (centroid y) <= 0)%Q -> (diameter_part (fadd y e) <= thr * thr * (numq y * numq y + numq y))%Q).
  { intros Hz. assert (Hd : (diameter_part y / numq y <= thr * thr * numq y)%Q) by (apply Qle_shift_div_r; [lra|]; lra).
    assert (Hm : (2 * numq y * sqdist (centroid e) (centroid y) <= 0)%Q) by nra. rewrite E1, E2. lra. }
  destruct m; cbn [dist] in H.
  - apply C. auto.
  - apply C. assert (E : (sqdist (centroid e) (centroid y) == 0)%Q); [|lra]. apply sqdist_eq0; [apply same_len; auto|]. intros d _. apply manhattan_zero; auto. apply same_len; auto.
  - rewrite E1. assert (numq y * inter_sq y e <= 0)%Q by nra. lra.
  - assert (E : (diameter_part (fadd y e) == (numq y + 1) * numq y * intra_sq y e)%Q).
    { unfold diameter_part, intra_sq. rewrite Nf. cbn [fadd ssum lsum]. rewrite Ne. field. lra. }
    rewrite E. assert (0 <= (numq y + 1) * numq y)%Q by (apply Qmult_le_0_compat; lra). assert ((numq y + 1) * numq y * intra_sq y e <= 0)%Q by nra.
    assert (0 <= thr * thr * (numq y * numq y + numq y))%Q by (apply Qmult_le_0_compat; [auto|nra]). lra.
  - apply C. rewrite variance_centroid in H by auto. destruct (Qlt_le_dec 0 (sqdist (centroid e) (centroid y))) as [Hz|]; auto. exfalso.
    assert (0 < numq y * numq e / (numq y + numq e) * sqdist (centroid e) (centroid y))%Q; [|lra]. apply Qmult_lt_0_compat; auto. apply Qlt_shift_div_l; rewrite Ne; lra.
Qed.

Lemma Forall_groups l : Forall plain l -> exists gs, Forall2 (stands_for D thr) l gs /\ pointlike (concat gs).
Proof.
  induction 1 as [|x l (g & Hg & Hp) F (gs & F' & Hp')]; [exists []; split; [constructor|intros x []]|]. exists (g :: gs). split; [constructor; auto|].
  intros y Hy. simpl in Hy. apply in_app_iff in Hy as [Hy|Hy]; auto.
Qed.
Lemma groups_Forall l gs : Forall2 (stands_for D thr) l gs -> pointlike (concat gs) -> Forall plain l.
Proof.
  induction 1 as [|x g l gs Hs F IH]; intros Hp; constructor.
  - exists g. split; auto. intros y Hy. apply Hp. simpl. apply in_app_iff. auto.
  - apply IH. intros y Hy. apply Hp. simpl. apply in_app_iff. auto.
Qed.

Lemma pt_sums f l : l <> [] -> Forall pt l -> sums D f l -> pt f.
Proof.
  intros Hne F (H1 & H2 & H3 & H4).
  assert (G : exists ps, (l <> [] -> ps <> []) /\ uniform D ps /\ length ps = list_sum (map num l) /\ (forall d, d < D -> (qsum (map (fun p => coord p d) ps) == qsum (map (fun e => coord (lsum e) d) l))%Q) /\
    (qsum (map (fun p => sqdist p (repeat 0%Q D)) ps) == qsum (map ssum l))%Q).
  { clear - F. induction F as [|x l (qs & N & U & (D1 & D2 & D3 & D4)) F (ps & P0 & P1 & P2 & P3 & P4)].
    - exists []. split; [auto|]. split; [intros p []|]. split; auto. split; [intros; reflexivity|reflexivity].
    - exists (qs ++ ps). split; [intros _ Hnil; apply app_eq_nil in Hnil; tauto|]. split; [intros p Hp; apply in_app_iff in Hp as [Hp|Hp]; auto|].
      split; [rewrite app_length; cbn [map]; rewrite list_sum_cons; lia|]. split; [intros d Hd|]; rewrite map_app, qsum_app; cbn [map qsum fold_right].
      + rewrite D3, P3 by auto. reflexivity.
      + rewrite D4, P4. reflexivity. }
  destruct G as (ps & P0 & P1 & P2 & P3 & P4). exists ps. split; [auto|]. split; [auto|]. split; [lia|]. split; [auto|]. split; [intros d Hd; rewrite H3, P3 by auto; reflexivity|rewrite H4, P4; reflexivity].
Qed.
Lemma good_pt h : forall t, good D branch maxe h t -> Forall plain (leaf_entries t) -> pt (feat t).
Proof.
  induction h as [|h IH]; intros t G F; [apply good_pos in G; lia|]. destruct t as [id f es|f kids].
  - inversion G; subst. cbn [feat leaf_entries] in *. apply (pt_sums f es); auto; [destruct es; simpl in *; [lia|discriminate]|]. eapply Forall_impl; [|exact F]. apply plain_pt.
  - apply good_node_inv in G as (h' & E & L & Hall & S). injection E as <-. cbn [feat leaf_entries] in *. apply (pt_sums f (map feat kids)); auto; [destruct kids; simpl in *; [lia|discriminate]|].
    apply Forall_forall. intros x Hx. apply in_map_iff in Hx as (c & <- & Hc). apply IH; [rewrite Forall_forall in Hall; auto|]. apply Forall_forall. intros e He. rewrite Forall_forall in F. apply F. apply in_flat_map. eauto.
Qed.

Definition apart (l : list tree) : Prop := match l with [a; b] => (0 < dist m (feat a) (feat b))%Q | _ => True end.

Lemma insert_rec_total h : forall t p s, good D branch maxe h t -> length p = D -> Forall plain (leaf_entries t) -> NoDup (tags t) ->
  exists r, insert_rec m branch maxe thr (point_entry p) t s = Ok r /\ apart (news r).
Proof.
  induction h as [|h IH]; intros t p s G Hp F Ht; [apply good_pos in G; lia|]. set (e := point_entry p) in *.
  assert (He : length (lsum e) = D) by (apply pt_lsum, pt_point; auto).
  destruct t as [id f es|f kids].
  - inversion G as [? ? ? Hlen Hdim Hs|]; subst. cbn [insert_rec leaf_entries] in *. unfold insert_leaf.
    destruct (min_by _ _) as [i|] eqn:Em; [|apply min_by_none in Em; destruct es; simpl in *; [lia|discriminate]].
    apply min_by_spec in Em as [Hi _]. apply in_seq in Hi. simpl in Hi. destruct Hi as [_ Hi].
    destruct (wider (fadd (nth i es e0) e) thr) eqn:Ew; [|eexists; split; [reflexivity|exact I]].
    destruct (Nat.ltb_spec maxe (length (es ++ [e]))) as [Hov|Hov]; [|eexists; split; [reflexivity|exact I]].
    rewrite Forall_forall in F.
    destruct (split_leaf_ok (es ++ [e]) i (length es)) as ([f1 l1] & [f2 l2] & Esp & Hap); [auto|rewrite app_length; simpl; lia| | |].
    + intros x Hx. apply in_app_iff in Hx as [Hx|[<-|[]]]; [apply plain_pt; auto|apply pt_point; auto].
    + rewrite app_nth1 by auto. rewrite app_nth2, Nat.sub_diag by lia. cbn [nth]. destruct (Qlt_le_dec 0 (dist m (nth i es e0) e)) as [|Hz]; auto. exfalso.
      unfold e in Ew. rewrite absorbs in Ew; [discriminate| |auto|auto]. apply F. apply nth_In. auto.
    + rewrite Esp. cbn [bind]. eexists. split; [reflexivity|]. exact Hap.
  - pose proof G as G0. apply good_node_inv in G as (h' & E & Hlen & Hall & Hs). injection E as <-. rewrite insert_rec_node by exact Hmax.
    destruct (min_by _ _) as [i|] eqn:Em; [|apply min_by_none in Em; destruct kids; simpl in *; [lia|discriminate]].
    apply min_by_spec in Em as [Hi _]. apply in_seq in Hi. simpl in Hi. destruct Hi as [_ Hi].
    pose proof (pop_perm kids i t0 Hi) as Hpk. set (c := nth i kids t0) in *. set (others := pop kids i) in *.
    assert (Hc : In c kids) by (apply nth_In; auto). cbn [leaf_entries] in F.
    assert (Fk : forall x, In x kids -> Forall plain (leaf_entries x)) by (intros x Hx; rewrite Forall_forall in *; intros y Hy; apply F; apply in_flat_map; eauto).
    assert (Gc : good D branch maxe h c) by (rewrite Forall_forall in Hall; auto).
    assert (Go : Forall (good D branch maxe h) others). { apply (Permutation_Forall Hpk) in Hall. inversion Hall; auto. }
    assert (Htc : NoDup (tags c)).
    { unfold tags in *. cbn [leaf_entries] in Ht. rewrite (Permutation_flat_map tagl (Permutation_flat_map leaf_entries Hpk)) in Ht. cbn [flat_map] in Ht. rewrite flat_map_app in Ht. apply NoDup_app_inv in Ht. tauto. }
    destruct (IH c p s Gc Hp (Fk c Hc) Htc) as (r & Er & Hap). fold e in Er.
    pose proof (insert_rec_spec D m branch maxe thr Hmax h c e s Gc He) as R. unfold e in R at 1. cbn [point_entry tagl tag] in R. rewrite app_nil_r in R. specialize (R Htc). rewrite Er in R. rewrite Er. cbn [bind].
    assert (Fn : Forall plain (flat_map leaf_entries (news r))).
    { destruct (Forall_groups _ (Fk c Hc)) as (gs & Fg & Pg). destruct (r_groups _ _ _ _ _ _ _ _ _ R gs Fg) as (gs' & F' & P'). apply (groups_Forall _ gs'); auto.
      intros x Hx. eapply Permutation_in in Hx; [|exact P']. apply in_app_iff in Hx as [Hx|[<-|[]]]; [auto|]. exists p. auto. }
    assert (Pn : forall x, In x (news r) -> pt (feat x)).
    { intros x Hx. apply (good_pt h); [pose proof (r_good _ _ _ _ _ _ _ _ _ R) as HG; rewrite Forall_forall in HG; auto|]. rewrite Forall_forall in *. intros y Hy. apply Fn. apply in_flat_map. eauto. }
    assert (Po : forall x, In x others -> pt (feat x)).
    { intros x Hx. apply (good_pt h); [rewrite Forall_forall in Go; auto|]. apply Fk. eapply Permutation_in; [symmetry; exact Hpk|right; auto]. }
    pose proof (r_len _ _ _ _ _ _ _ _ _ R) as Hl. pose proof (r_good _ _ _ _ _ _ _ _ _ R) as HG. pose proof bf_ge branch as HB.
    destruct (news r) as [|a [|b [|z q]]] eqn:En; simpl in Hl; try lia.
    + destruct (Nat.ltb_spec (bf branch) (length (upd kids i a))) as [Hov|Hov]; [rewrite upd_length in Hov; lia|]. eexists. split; [reflexivity|exact I].
    + destruct (Nat.ltb_spec (bf branch) (length (others ++ [a; b]))) as [Hov|Hov].
      * destruct (split_nonleaf_ok (others ++ [a; b]) (length others) (S (length others))) as (r1 & r2 & Esp & Hap2); [lia|rewrite app_length; simpl; lia| | |].
        -- intros x Hx. apply in_app_iff in Hx as [Hx|Hx]; auto.
        -- rewrite !app_nth2 by lia. rewrite Nat.sub_diag. replace (S (length others) - length others) with 1 by lia. cbn [nth]. exact Hap.
        -- rewrite Esp. cbn [bind fst snd]. eexists. split; [reflexivity|]. exact Hap2.
      * destruct (merge_nearest_spec D branch maxe Hmax h (others ++ [a; b]) (stat r)) as (K & s' & Emg & _); [apply Forall_app; split; auto|rewrite app_length; simpl; lia|].
        rewrite Emg. cbn [bind]. eexists. split; [reflexivity|exact I].
Qed.

Lemma insert_point_total ps p t : tinv D branch maxe thr (map point_entry ps) t -> uniform D ps -> length p = D -> exists t', insert_point m branch maxe thr p t = Ok t'.
Proof.
  intros I Hu Hp. unfold insert_point, insert. destruct (root t) as [r|] eqn:Er; [|eexists; reflexivity].
  destruct (t_tree _ _ _ _ _ _ I r Er) as (G & Hs & En & Ee & Pl & Nl & Fl & (d & Hd) & (gs & Fg & Pg)).
  rewrite point_tags in Hd. apply Permutation_nil in Hd. apply app_eq_nil in Hd as [_ Hd].
  assert (Ht : NoDup (tags r)) by (rewrite Hd; constructor).
  assert (F : Forall plain (leaf_entries r)).
  { apply (groups_Forall _ gs); auto. intros x Hx. eapply Permutation_in in Hx; [|exact Pg]. apply in_map_iff in Hx as (q & <- & Hq). exists q. auto. }
  destruct (insert_rec_total _ r p (stats t) G Hp F Ht) as (q & Eq & _). rewrite Eq. cbn [bind].
  pose proof (insert_rec_spec D m branch maxe thr Hmax _ r (point_entry p) (stats t) G ltac:(apply pt_lsum, pt_point; auto)) as R. cbn [point_entry tagl tag] in R. rewrite app_nil_r in R. specialize (R Ht).
  fold (point_entry p) in R. rewrite Eq in R. pose proof (r_len _ _ _ _ _ _ _ _ _ R) as Hl. pose proof (r_good _ _ _ _ _ _ _ _ _ R) as HG.
  destruct (news q) as [|a [|b [|z l]]] eqn:Enw; simpl in Hl; try lia; [eexists; reflexivity|].
  match goal with |- context [merge_nearest branch [a; b] ?s] => destruct (merge_nearest_spec D branch maxe Hmax _ [a; b] s HG) as (K & s' & Emg & _); [simpl; lia|] end. rewrite Emg. cbn [bind]. eexists. reflexivity.
Qed.

Lemma insert_points_total qs : forall ps t, tinv D branch maxe thr (map point_entry ps) t -> uniform D ps -> uniform D qs -> exists t', insert_all m branch maxe thr (map point_entry qs) t = Ok t'.
Proof.
  induction qs as [|p qs IH]; intros ps t I Hu Hq; cbn [map insert_all]; [eexists; reflexivity|].
  assert (Hp : length p = D) by (apply Hq; left; auto). destruct (insert_point_total ps p t I Hu Hp) as (t' & Et). unfold insert_point in Et. rewrite Et. cbn [bind].
  assert (Hps : uniform D (ps ++ [p])) by (intros q Hin; apply in_app_iff in Hin as [Hin|[<-|[]]]; auto).
  apply (IH (ps ++ [p])); [|auto|intros q Hin; apply Hq; right; auto].
  pose proof (insert_spec D m branch maxe thr Hmax (point_entry p) t _ I ltac:(apply pt_lsum, pt_point; auto)) as S. change [point_entry p] with (map point_entry [p]) in S. rewrite <- map_app, point_tags in S. specialize (S ltac:(constructor)).
  rewrite Et in S. exact S.
Qed.
End Total.

(** * BIRCH *)
Section BirchTotal.
Variable data : list point.
Variable D number : nat.
Variable m : measure.
Variable branch maxe limit : nat.
Variable mult : Q.
Hypothesis Hdim : uniform D data.
Hypothesis Hmax : 1 <= maxe.
Hypothesis Hmult : (1 <= mult)%Q.
Definition fine (thr : Q) : Prop := (0 <= thr)%Q /\ ((1 # 1000000000) <= thr * thr)%Q.

Lemma fine_mult thr : fine thr -> fine (thr * mult) /\ Qeq_bool (thr * mult) 0 = false.
Proof.
  intros [H1 H2]. assert (H3 : (thr <= thr * mult)%Q) by nra. assert (H4 : (thr * thr <= (thr * mult) * (thr * mult))%Q) by (set (u := (thr * mult)%Q) in *; nra).
  split; [split; lra|]. destruct (Qeq_bool _ 0) eqn:E; auto. apply Qeq_bool_eq in E. rewrite E in H4. lra.
Qed.
Lemma rebuild_total index thr : fine thr -> exists b, rebuild_tree data m branch maxe mult index thr = Ok b /\ fine (fst b).
Proof.
  intros H. destruct (fine_mult thr H) as [[F1 F2] E]. unfold rebuild_tree. rewrite E.
  destruct (insert_points_total D m branch maxe (thr * mult) Hmax F1 F2 (firstn (S index) data) [] empty_tree (tinv_empty _ _ _ _)) as (t & Et); [intros p []| |].
  - intros p Hp. apply Hdim. rewrite <- (firstn_skipn (S index) data). apply in_app_iff. auto.
  - rewrite Et. cbn [bind]. eexists. split; [reflexivity|]. split; auto.
Qed.
Lemma insert_data_total rest : forall index b, skipn index data = rest -> tinv D branch maxe (fst b) (map point_entry (firstn index data)) (snd b) -> fine (fst b) ->
  exists b', insert_data data m branch maxe limit mult index rest b = Ok b'.
Proof.
  induction rest as [|p rest IH]; intros index b E I H; cbn [insert_data]; [eexists; reflexivity|].
  assert (Es : skipn (S index) data = rest) by (clear - E; revert E; generalize data; induction index; intros [|x l] E; simpl in *; try congruence; auto).
  assert (Ef : firstn (S index) data = firstn index data ++ [p]) by (clear - E; revert E; generalize data; induction index; intros [|x l] E; simpl in *; try congruence; f_equal; auto).
  assert (Hp : length p = D) by (apply Hdim; rewrite <- (firstn_skipn index data), E; apply in_app_iff; right; left; auto).
  assert (Hu : uniform D (firstn index data)) by (intros q Hq; apply Hdim; rewrite <- (firstn_skipn index data); apply in_app_iff; auto).
  destruct H as [H1 H2]. destruct (insert_point_total D m branch maxe (fst b) Hmax H1 H2 _ p _ I Hu Hp) as (t & Et). rewrite Et. cbn [bind].
  pose proof (insert_spec D m branch maxe (fst b) Hmax (point_entry p) (snd b) _ I) as S.
  specialize (S ltac:(unfold point_entry; cbn [lsum]; rewrite map_length; auto)). change [point_entry p] with (map point_entry [p]) in S. rewrite <- map_app, <- Ef in S. rewrite point_tags in S. specialize (S ltac:(constructor)).
  unfold insert_point in Et. rewrite Et in S. destruct (limit <? _); [|apply IH; auto; split; auto].
  destruct (rebuild_total index (fst b) ltac:(split; auto)) as (b' & Eb & Fb). pose proof (rebuild_spec data D m branch maxe mult Hdim Hmax index (fst b)) as R. rewrite Eb in *. cbn [bind]. apply IH; auto.
Qed.
Theorem birch_total diameter : data <> [] -> 1 <= number -> 1 <= limit -> fine diameter -> exists b, birch data number m branch maxe limit mult diameter = Ok b.
Proof.
  intros Hne Hn Hl Hf. pose proof (birch_spec data D number m branch maxe limit mult Hdim Hmax diameter Hne Hn Hl) as S.
  destruct (insert_data_total data 0 (diameter, empty_tree) eq_refl (tinv_empty _ _ _ _) Hf) as (b & Eb).
  destruct (birch data number m branch maxe limit mult diameter) as [r|x] eqn:E; [eauto|]. destruct S as [_ S]. rewrite Eb in S. discriminate.
Qed.
End BirchTotal.
