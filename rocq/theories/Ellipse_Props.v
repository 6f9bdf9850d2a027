(** Properties of calculate_ellipse_description. *)
From Verif Require Import Base Ellipse_Model Ellipse_Proofs.
From Coq Require Import Reals Lra Psatz.
Open Scope R_scope.

(** The matrix (2 1; 1 2): data along the diagonal. *)
Definition cov_ex : cov2 := mkCov 2 1 2.
Definition eigh_ex : eigh2 :=
  mkEigh [1; 3] [[/ sqrt 2; / sqrt 2]; [- / sqrt 2; / sqrt 2]].
Lemma half : / sqrt 2 * / sqrt 2 = / 2.
Proof. rewrite <- Rinv_mult_distr by (apply Rgt_not_eq; apply sqrt_lt_R0; lra). rewrite sqrt_sqrt by lra. reflexivity. Qed.
Example eigh_ex_ok : eigh_of cov_ex eigh_ex.
Proof.
  pose proof half. exists 1, 3, (/ sqrt 2), (- / sqrt 2), (/ sqrt 2), (/ sqrt 2). cbn [cxx cxy cyy cov_ex].
  repeat split; try reflexivity; lra.
Qed.
Example spread_ex : spread cov_ex.
Proof.
  intros [x y] U. unfold unit_vector, variance in *. cbn [fst snd cxx cxy cyy cov_ex] in *.
  assert (0 <= (x + y) * (x + y)) by apply Rle_0_sqr. nra.
Qed.

Lemma shape c e : eigh_of c e -> exists l0 l1 a b a' b',
  e = mkEigh [l0; l1] [[a; a']; [b; b']] /\ l0 <= l1 /\ a * a + b * b = 1 /\ a' * a' + b' * b' = 1 /\ a * a' + b * b' = 0 /\
  variance c (a, b) = l0 /\ variance c (a', b') = l1 /\ (forall v, unit_vector v -> l0 <= variance c v <= l1) /\
  (forall scale, ellipse_description e scale =
     if (if Req_EM_T l1 0 then true else false) || ((if Req_EM_T l0 0 then true else false) || false) then (0, 0, 0)
     else (degrees (arctan2 a b), 2 * scale * sqrt l1, 2 * scale * sqrt l0)).
Proof.
  intros (l0 & l1 & a & b & a' & b' & -> & Le & U & U' & O & E1 & E2 & E3 & E4).
  destruct (variance_bounds c l0 l1 a b a' b' Le U U' O E1 E2 E3 E4) as (V0 & V1 & B).
  exists l0, l1, a, b, a', b'. repeat (split; [assumption || reflexivity|]).
  intros scale. unfold ellipse_description, argsort2. cbn [e_values e_rows nth].
  destruct (Rle_dec l0 l1); [|contradiction]. reflexivity.
Qed.

(** C178.  The width and the height of the ellipse are [2 * scale] times the
    largest and the smallest deviation over all directions. *)
Theorem C178_axes : forall c e scale, eigh_of c e -> spread c ->
  exists angle m M, ellipse_description e scale = (angle, 2 * scale * sqrt M, 2 * scale * sqrt m) /\
    largest_variance c M /\ smallest_variance c m.
Proof.
  intros c e scale E P. destruct (shape c e E) as (l0 & l1 & a & b & a' & b' & _ & Le & U & U' & _ & V0 & V1 & B & F).
  assert (L0 : 0 < l0) by (rewrite <- V0; apply P; exact U).
  exists (degrees (arctan2 a b)), l0, l1. split.
  - rewrite F. destruct (Req_EM_T l1 0); [lra|]. destruct (Req_EM_T l0 0); [lra|]. reflexivity.
  - split; (split; [|intros v Uv; apply (B v Uv)]).
    + exists (a', b'). split; [exact U'|exact V1].
    + exists (a, b). split; [exact U|exact V0].
Qed.
Print Assumptions C178_axes.
Example C178_ex : exists angle m M, ellipse_description eigh_ex 1 = (angle, 2 * 1 * sqrt M, 2 * 1 * sqrt m) /\
    largest_variance cov_ex M /\ smallest_variance cov_ex m.
Proof. apply C178_axes; [apply eigh_ex_ok|apply spread_ex]. Qed.

(** C178.  Data without variance in some direction (a line or a point) have
    no ellipse: the description is three zeros, whatever the variance along
    the line. *)
Theorem C178_flat : forall c e scale, eigh_of c e -> (forall v, unit_vector v -> 0 <= variance c v) ->
  (exists v, unit_vector v /\ variance c v = 0) -> ellipse_description e scale = (0, 0, 0).
Proof.
  intros c e scale E P (v & Uv & Z). destruct (shape c e E) as (l0 & l1 & a & b & a' & b' & _ & Le & U & U' & _ & V0 & V1 & B & F).
  assert (l0 = 0). { pose proof (P (a, b) U). pose proof (B v Uv). lra. }
  rewrite F. destruct (Req_EM_T l0 0); [|contradiction]. destruct (Req_EM_T l1 0); reflexivity.
Qed.
Print Assumptions C178_flat.
Example C178_flat_ex : ellipse_description (mkEigh [0; 5] [[0; 1]; [1; 0]]) 2 = (0, 0, 0).
Proof.
  apply (C178_flat (mkCov 5 0 0)).
  - exists 0, 5, 0, 1, 1, 0. cbn [cxx cxy cyy]. repeat split; try reflexivity; lra.
  - intros [x y] _. unfold variance. cbn [fst snd cxx cxy cyy]. assert (0 <= x * x) by apply Rle_0_sqr. nra.
  - exists (0, 1). unfold unit_vector, variance. cbn [fst snd cxx cxy cyy]. split; ring.
Qed.

(** C179.  The angle is expected to be the direction of the largest variance,
    in which the width is drawn.  For data along the diagonal it is the
    direction of the smallest variance, whichever eigenvectors are found. *)
Theorem C179_angle_refuted : exists c, spread c /\ (exists e, eigh_of c e) /\
  forall e scale, eigh_of c e ->
    let '(angle, _, _) := ellipse_description e scale in
    smallest_variance c (variance c (direction angle)) /\ ~ largest_variance c (variance c (direction angle)).
Proof.
  exists cov_ex. split; [exact spread_ex|]. split; [exists eigh_ex; exact eigh_ex_ok|].
  intros e scale E. pose proof E as E0. destruct E0 as (l0 & l1 & a & b & a' & b' & Ee & Le & U & U' & O & E1 & E2 & E3 & E4).
  destruct (variance_bounds cov_ex l0 l1 a b a' b' Le U U' O E1 E2 E3 E4) as (V0 & V1 & B).
  cbn [cxx cxy cyy cov_ex] in *. rewrite Ee. unfold ellipse_description, argsort2. cbn [e_values e_rows nth].
  destruct (Rle_dec l0 l1); [|contradiction]. cbn [rev app map nth existsb].
  assert (L0 : 0 < l0) by (rewrite <- V0; apply spread_ex; exact U).
  destruct (Req_EM_T l1 0); [lra|]. destruct (Req_EM_T l0 0); [lra|]. cbn [orb].
  rewrite direction_degrees. destruct (atan2_unit b a ltac:(lra)) as [-> ->].
  assert (Same : variance cov_ex (b, a) = l0).
  { rewrite <- V0. unfold variance. cbn [fst snd cxx cxy cyy cov_ex]. ring. }
  rewrite Same. split.
  - split; [exists (a, b); split; [exact U|exact V0]|]. intros v Uv. apply (B v Uv).
  - intros [_ H]. pose proof (B (/ sqrt 2, / sqrt 2)) as B1. pose proof (B (/ sqrt 2, - / sqrt 2)) as B2.
    pose proof (H (/ sqrt 2, / sqrt 2)) as H1.
    unfold unit_vector, variance in *. cbn [fst snd cxx cxy cyy cov_ex] in *.
    pose proof half. set (h := / sqrt 2) in *.
    assert (h * h + h * h = 1) by lra. assert (h * h + - h * - h = 1) by lra.
    specialize (B1 H2). specialize (B2 H3). specialize (H1 H2). nra.
Qed.
Print Assumptions C179_angle_refuted.

(** C179.  What the angle is: the mirror image of the direction of the largest
    variance; so the ellipse is drawn for the matrix with the other sign of the
    correlation ... *)
Theorem C179_mirrored : forall c e scale, eigh_of c e -> spread c ->
  let '(angle, _, _) := ellipse_description e scale in
  largest_variance c (variance c (direction (- angle))) /\
  variance c (direction (- angle)) = variance (mkCov (cxx c) (- cxy c) (cyy c)) (direction angle).
Proof.
  intros c e scale E P. destruct (shape c e E) as (l0 & l1 & a & b & a' & b' & _ & Le & U & U' & O & V0 & V1 & B & F).
  rewrite F. assert (L0 : 0 < l0) by (rewrite <- V0; apply P; exact U).
  destruct (Req_EM_T l1 0); [lra|]. destruct (Req_EM_T l0 0); [lra|]. cbn [orb].
  replace (- degrees (arctan2 a b)) with (degrees (- arctan2 a b)) by (unfold degrees; field; apply PI_neq0).
  rewrite !direction_degrees, cos_neg, sin_neg. destruct (atan2_unit b a ltac:(lra)) as [-> ->].
  assert (M : variance c (b, - a) = l1).
  { rewrite <- V1. unfold variance. cbn [fst snd].
    set (s := a * b' - b * a').
    assert (A' : a' = - s * b).
    { unfold s. assert (H : a' * (a * a + b * b) = a * (a * a' + b * b') + b * (b * a' - a * b')) by ring.
      rewrite U, O in H. lra. }
    assert (B' : b' = s * a).
    { unfold s. assert (H : b' * (a * a + b * b) = b * (a * a' + b * b') + a * (a * b' - b * a')) by ring.
      rewrite U, O in H. lra. }
    assert (S1 : s * s = 1).
    { clearbody s. subst a' b'. assert (H : - s * b * (- s * b) + s * a * (s * a) = s * s * (a * a + b * b)) by ring.
      rewrite U', U in H. lra. }
    clearbody s. subst a' b'. clear - S1.
    transitivity ((s * s) * (cxx c * b * b + 2 * cxy c * b * - a + cyy c * - a * - a)); [rewrite S1; ring|ring]. }
  split.
  - rewrite M. split; [|intros v Uv; apply (B v Uv)]. exists (a', b'). split; [exact U'|exact V1].
  - unfold variance. cbn [fst snd cxx cxy cyy]. ring.
Qed.
Print Assumptions C179_mirrored.

(** C179 ... and is right when the coordinates are not correlated. *)
Theorem C179_uncorrelated : forall c e scale, eigh_of c e -> spread c -> cxy c = 0 ->
  let '(angle, _, _) := ellipse_description e scale in
  largest_variance c (variance c (direction angle)).
Proof.
  intros c e scale E P Z. pose proof (C179_mirrored c e scale E P) as H.
  destruct (ellipse_description e scale) as [[angle w] h]. destruct H as [H E2]. rewrite E2 in H.
  unfold largest_variance in *. replace (variance c (direction angle)) with (variance (mkCov (cxx c) (- cxy c) (cyy c)) (direction angle)); [exact H|].
  unfold variance. cbn [cxx cxy cyy]. rewrite Z. ring.
Qed.
Print Assumptions C179_uncorrelated.
Example C179_ex : largest_variance (mkCov 4 0 1) (variance (mkCov 4 0 1)
   (direction (fst (fst (ellipse_description (mkEigh [1; 4] [[0; 1]; [1; 0]]) 1))))).
Proof.
  assert (E : eigh_of (mkCov 4 0 1) (mkEigh [1; 4] [[0; 1]; [1; 0]])).
  { exists 1, 4, 0, 1, 1, 0. cbn [cxx cxy cyy]. repeat split; try reflexivity; lra. }
  assert (P : spread (mkCov 4 0 1)).
  { intros [x y] U. unfold unit_vector, variance in *. cbn [fst snd cxx cxy cyy] in *. assert (0 <= x * x) by apply Rle_0_sqr. nra. }
  pose proof (C179_uncorrelated _ _ 1 E P eq_refl) as H.
  destruct (ellipse_description _ 1) as [[angle w] h]. exact H.
Qed.
