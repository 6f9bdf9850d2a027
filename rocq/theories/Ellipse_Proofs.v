(** Ellipses of covariance matrices: specification and proofs. *)
From Verif Require Import Base Ellipse_Model.
From Coq Require Import Reals Lra Psatz.
Open Scope R_scope.

(** * Specification *)
(** The variance of the data along the direction (x, y). *)
Definition variance (c : cov2) (v : R * R) : R :=
  cxx c * fst v * fst v + 2 * cxy c * fst v * snd v + cyy c * snd v * snd v.
Definition unit_vector (v : R * R) : Prop := fst v * fst v + snd v * snd v = 1.
(** The direction of an angle given in degrees. *)
Definition direction (deg : R) : R * R := (cos (deg * PI / 180), sin (deg * PI / 180)).
Definition largest_variance (c : cov2) (m : R) : Prop :=
  (exists v, unit_vector v /\ variance c v = m) /\ forall v, unit_vector v -> variance c v <= m.
Definition smallest_variance (c : cov2) (m : R) : Prop :=
  (exists v, unit_vector v /\ variance c v = m) /\ forall v, unit_vector v -> m <= variance c v.
(** No direction without variance. *)
Definition spread (c : cov2) : Prop := forall v, unit_vector v -> 0 < variance c v.

(** What the documentation of numpy.linalg.eigh promises: the values
    ascending, each with an eigenvector of norm 1 in its column, the
    columns orthogonal. *)
Definition eigh_of (c : cov2) (e : eigh2) : Prop :=
  exists l0 l1 a b a' b',
    e = mkEigh [l0; l1] [[a; a']; [b; b']] /\ l0 <= l1 /\
    a * a + b * b = 1 /\ a' * a' + b' * b' = 1 /\ a * a' + b * b' = 0 /\
    cxx c * a + cxy c * b = l0 * a /\ cxy c * a + cyy c * b = l0 * b /\
    cxx c * a' + cxy c * b' = l1 * a' /\ cxy c * a' + cyy c * b' = l1 * b'.

(** * Proofs *)
Lemma atan2_unit x y : x * x + y * y = 1 -> cos (arctan2 y x) = x /\ sin (arctan2 y x) = y.
Proof.
  intros U. unfold arctan2.
  assert (P : x <> 0 -> 1 + (y / x) * (y / x) = / (x * x)).
  { intros N. apply (Rmult_eq_reg_r (x * x)); [|nra]. rewrite Rinv_l by nra.
    replace ((1 + y / x * (y / x)) * (x * x)) with (x * x + y * y) by (field; exact N). exact U. }
  destruct (Rlt_dec 0 x) as [X|X].
  - assert (S : sqrt (1 + (y / x)²) = / x).
    { unfold Rsqr. rewrite P by lra. rewrite <- (sqrt_square (/ x)) by (left; apply Rinv_0_lt_compat; lra).
      f_equal. field. lra. }
    rewrite cos_atan, sin_atan, S. split; field; lra.
  - destruct (Rlt_dec x 0) as [X'|X'].
    + assert (S : sqrt (1 + (y / x)²) = / (- x)).
      { unfold Rsqr. rewrite P by lra. rewrite <- (sqrt_square (/ (- x))) by (left; apply Rinv_0_lt_compat; lra).
        f_equal. field. lra. }
      destruct (Rle_dec 0 y).
      * rewrite neg_cos, neg_sin, cos_atan, sin_atan, S. split; field; lra.
      * unfold Rminus. rewrite cos_plus, sin_plus, cos_neg, sin_neg, cos_PI, sin_PI, cos_atan, sin_atan, S.
        split; field; lra.
    + assert (x = 0) by lra. subst x.
      destruct (Rlt_dec 0 y); [|destruct (Rlt_dec y 0)].
      * rewrite cos_PI2, sin_PI2. split; nra.
      * rewrite cos_neg, sin_neg, cos_PI2, sin_PI2. split; nra.
      * exfalso. assert (y = 0) by lra. subst. lra.
Qed.

Lemma direction_degrees x : direction (degrees x) = (cos x, sin x).
Proof.
  unfold direction, degrees. pose proof PI_neq0.
  replace (x * 180 / PI * PI / 180) with x by (field; assumption). reflexivity.
Qed.

(** Any unit vector in the basis of the eigenvectors. *)
Lemma variance_bounds c l0 l1 a b a' b' : l0 <= l1 ->
  a * a + b * b = 1 -> a' * a' + b' * b' = 1 -> a * a' + b * b' = 0 ->
  cxx c * a + cxy c * b = l0 * a -> cxy c * a + cyy c * b = l0 * b ->
  cxx c * a' + cxy c * b' = l1 * a' -> cxy c * a' + cyy c * b' = l1 * b' ->
  variance c (a, b) = l0 /\ variance c (a', b') = l1 /\
  forall v, unit_vector v -> l0 <= variance c v <= l1.
Proof.
  intros Le U U' O E1 E2 E3 E4. unfold variance, unit_vector. cbn [fst snd].
  assert (V0 : cxx c * a * a + 2 * cxy c * a * b + cyy c * b * b = l0).
  { replace (cxx c * a * a + 2 * cxy c * a * b + cyy c * b * b)
      with (a * (cxx c * a + cxy c * b) + b * (cxy c * a + cyy c * b)) by ring.
    rewrite E1, E2. replace (a * (l0 * a) + b * (l0 * b)) with (l0 * (a * a + b * b)) by ring.
    rewrite U. ring. }
  assert (V1 : cxx c * a' * a' + 2 * cxy c * a' * b' + cyy c * b' * b' = l1).
  { replace (cxx c * a' * a' + 2 * cxy c * a' * b' + cyy c * b' * b')
      with (a' * (cxx c * a' + cxy c * b') + b' * (cxy c * a' + cyy c * b')) by ring.
    rewrite E3, E4. replace (a' * (l1 * a') + b' * (l1 * b')) with (l1 * (a' * a' + b' * b')) by ring.
    rewrite U'. ring. }
  split; [exact V0|]. split; [exact V1|].
  (* (a', b') = s (- b, a) with s^2 = 1 *)
  set (s := a * b' - b * a').
  assert (A' : a' = - s * b).
  { unfold s. assert (a' * (a * a + b * b) = a * (a * a' + b * b') + b * (b * a' - a * b')) by ring.
    rewrite U, O in H. lra. }
  assert (B' : b' = s * a).
  { unfold s. assert (b' * (a * a + b * b) = b * (a * a' + b * b') + a * (a * b' - b * a')) by ring.
    rewrite U, O in H. lra. }
  assert (S1 : s * s = 1).
  { clearbody s. subst a' b'.
    assert (H : - s * b * (- s * b) + s * a * (s * a) = s * s * (a * a + b * b)) by ring.
    rewrite U', U in H. lra. }
  intros [x y] Uv. cbn [fst snd] in *.
  set (u := x * a + y * b). set (w := x * a' + y * b').
  assert (Uw : u * u + w * w = 1).
  { unfold u, w. rewrite A', B'.
    replace ((x * a + y * b) * (x * a + y * b) + (x * (- s * b) + y * (s * a)) * (x * (- s * b) + y * (s * a)))
      with ((x * a + y * b) * (x * a + y * b) + (s * s) * ((y * a - x * b) * (y * a - x * b))) by ring.
    rewrite S1. transitivity ((a * a + b * b) * (x * x + y * y)); [ring|rewrite U, Uv; ring]. }
  assert (X : x = u * a + w * a').
  { unfold u, w. rewrite A', B'.
    replace ((x * a + y * b) * a + (x * (- s * b) + y * (s * a)) * (- s * b))
      with (x * a * a + y * a * b + (s * s) * (x * b * b - y * a * b)) by ring.
    rewrite S1. replace (x * a * a + y * a * b + 1 * (x * b * b - y * a * b)) with (x * (a * a + b * b)) by ring.
    rewrite U. ring. }
  assert (Y : y = u * b + w * b').
  { unfold u, w. rewrite A', B'.
    replace ((x * a + y * b) * b + (x * (- s * b) + y * (s * a)) * (s * a))
      with (x * a * b + y * b * b + (s * s) * (y * a * a - x * a * b)) by ring.
    rewrite S1. replace (x * a * b + y * b * b + 1 * (y * a * a - x * a * b)) with (y * (a * a + b * b)) by ring.
    rewrite U. ring. }
  assert (V : cxx c * x * x + 2 * cxy c * x * y + cyy c * y * y = l0 * (u * u) + l1 * (w * w)).
  { rewrite X, Y.
    replace (cxx c * (u * a + w * a') * (u * a + w * a') + 2 * cxy c * (u * a + w * a') * (u * b + w * b') +
             cyy c * (u * b + w * b') * (u * b + w * b'))
      with (u * u * (cxx c * a * a + 2 * cxy c * a * b + cyy c * b * b)
            + w * w * (cxx c * a' * a' + 2 * cxy c * a' * b' + cyy c * b' * b')
            + 2 * u * w * (a' * (cxx c * a + cxy c * b) + b' * (cxy c * a + cyy c * b))) by ring.
    rewrite V0, V1, E1, E2.
    replace (a' * (l0 * a) + b' * (l0 * b)) with (l0 * (a * a' + b * b')) by ring.
    rewrite O. ring. }
  rewrite V. pose proof (Rle_0_sqr u). pose proof (Rle_0_sqr w). unfold Rsqr in *.
  clear - Le Uw H H0. assert (Eu : u * u = 1 - w * w) by lra.
  pose proof (Rmult_le_pos (l1 - l0) (w * w) ltac:(lra) H0).
  pose proof (Rmult_le_pos (l1 - l0) (u * u) ltac:(lra) H).
  rewrite Eu in *. split; lra.
Qed.
