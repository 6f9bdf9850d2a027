(** the splitting criteria of X-means: documented formulas and proofs *)
From Verif Require Import Base Kmeans_Model Kmeans_Proofs Xmeans_Model Xmeans_Proofs Xcrit_Model.
From Coq Require Import Reals Lra Qreals.
Local Open Scope nat_scope.

(** * The documented formulas (xmeans.py:37-60) *)
Section Documented.
Variable metric : point -> point -> Q.
Variable data : list point.

Definition Rtot {A} (f : A -> R) (l : list A) : R := fold_right Rplus 0%R (map f l).
(** sum over the points of one cluster of the distance to its centre *)
Definition W1 (gc : list nat * point) : R := Rtot (fun i => Q2R (metric (nth i data []) (snd gc))) (fst gc).
Definition Ncount (clusters : list (list nat)) : nat := length (concat clusters).
(** the maximum likelihood estimate of the variance *)
Definition variance (clusters : list (list nat)) (centers : list point) : R :=
  (1 / (INR (Ncount clusters) - INR (length clusters)) * Rtot W1 (combine clusters centers))%R.
(** number of free parameters *)
Definition parameters (K M : nat) : R := ((INR K - 1) + INR M * INR K + 1)%R.
Definition doc_likelihood (K N M : nat) (s2 : R) (n : nat) : R :=
  (INR n * ln (INR n) - INR n * ln (INR N) - INR n / 2 * ln (2 * PI) - INR n * INR M / 2 * ln s2 - (INR n - INR K) / 2)%R.
Definition doc_bic (clusters : list (list nat)) (centers : list point) : R :=
  let K := length clusters in let N := Ncount clusters in
  (Rtot (fun g => doc_likelihood K N (dimension data) (variance clusters centers) (length g)) clusters - 1 / 2 * parameters K (dimension data) * ln (INR N))%R.

Definition mean_error (clusters : list (list nat)) (centers : list point) : R := Rtot (fun gc => (1 / INR (length (fst gc)) * W1 gc)%R) (combine clusters centers).
Definition doc_mndl (alpha beta : R) (clusters : list (list nat)) (centers : list point) : R :=
  let K := INR (length clusters) in let N := INR (Ncount clusters) in
  let s2 := variance clusters centers in let s := sqrt s2 in let W := mean_error clusters centers in
  (s2 * sqrt (2 * K) / N * (sqrt (2 * K) + beta) + W - s2 + 2 * alpha * s / sqrt N * sqrt (alpha ^ 2 * s2 / N + W - (1 - K / N) * (s2 / 2)) + 2 * alpha ^ 2 * s2 / N)%R.

(** * Proofs *)
Lemma Q2R_sumQ l : Q2R (sumQ l) = fold_right Rplus 0%R (map Q2R l).
Proof.
  rewrite (Qeq_eqR _ _ (sumQ_qsum l)). induction l as [|x l IH]; simpl; [unfold Q2R; simpl; lra|]. rewrite Q2R_plus, IH. reflexivity.
Qed.

Lemma amount_count cl : amount cl = Ncount cl.
Proof.
  unfold amount, Ncount. assert (H : forall l a, fold_left Nat.add (map (@length nat) l) a = a + length (concat l)); [|apply (H cl 0)].
  induction l as [|g l IH]; intros a; simpl; [lia|]. rewrite IH, app_length. lia.
Qed.

Lemma wsum_R g c : Q2R (wsum metric data g c) = W1 (g, c).
Proof. unfold wsum, W1, Rtot. rewrite Q2R_sumQ, map_map. reflexivity. Qed.

Lemma wsums_R cl ce : Q2R (sumQ (wsums metric data cl ce)) = Rtot W1 (combine cl ce).
Proof. unfold wsums. rewrite Q2R_sumQ, map_map. unfold Rtot. f_equal. apply map_ext. intros [g c]. apply wsum_R. Qed.

Lemma variance_R cl ce : length cl < Ncount cl -> (Q2R (sumQ (wsums metric data cl ce)) / INR (Ncount cl - length cl))%R = variance cl ce.
Proof. intros H. unfold variance. rewrite wsums_R, minus_INR by lia. unfold Rdiv. ring. Qed.

Lemma sadd_total {A} (f : A -> R) l : forall a, fold_left sadd (map (fun x => Fin (f x)) l) (Fin a) = Fin (a + Rtot f l).
Proof. induction l as [|x l IH]; intros a; simpl; unfold Rtot; simpl; [f_equal; ring|]. rewrite IH. unfold Rtot. f_equal. ring. Qed.
Lemma sadd_inf {A} (f : A -> score) l : forall a, (a = Inf \/ (l <> [] /\ forall x, In x l -> f x = Inf)) -> fold_left sadd (map f l) a = Inf.
Proof.
  induction l as [|x l IH]; intros a [->|[H H']]; simpl; auto; try congruence.
  - apply IH. left. rewrite H' by (left; auto). destruct a; reflexivity.
Qed.

Lemma Rtot_minus {A} (f : A -> R) c l : Rtot (fun x => f x - c)%R l = (Rtot f l - INR (length l) * c)%R.
Proof. induction l as [|x l IH]; unfold Rtot in *; cbn [map fold_right length]; [simpl; ring|]. rewrite IH, S_INR. ring. Qed.
Lemma Rtot_ext {A} (f g : A -> R) l : (forall x, In x l -> f x = g x) -> Rtot f l = Rtot g l.
Proof. intros H. unfold Rtot. f_equal. apply map_ext_in. exact H. Qed.
Lemma Rtot_le {A} (f g : A -> R) l : (forall x, In x l -> (f x <= g x)%R) -> (Rtot f l <= Rtot g l)%R.
Proof. induction l as [|x l IH]; intros H; unfold Rtot in *; cbn [map fold_right]; [lra|]. pose proof (H x (or_introl eq_refl)). assert (forall x, In x l -> (f x <= g x)%R) by (intros; apply H; right; auto). specialize (IH H1). lra. Qed.
Lemma Rtot_scale {A} (f : A -> R) c l : Rtot (fun x => c * f x)%R l = (c * Rtot f l)%R.
Proof. induction l as [|x l IH]; unfold Rtot in *; cbn [map fold_right]; [ring|]. rewrite IH. ring. Qed.

(** the score of the code: the penalty is subtracted once for every cluster *)
Lemma bic_documented cl ce : length cl < Ncount cl -> (0 < variance cl ce)%R ->
  bic metric data cl ce = Fin (doc_bic cl ce - (INR (length cl) - 1) * (1 / 2 * parameters (length cl) (dimension data) * ln (INR (Ncount cl)))).
Proof.
  intros HN Hs. unfold bic. rewrite amount_count. destruct (Nat.ltb_spec (length cl) (Ncount cl)); [|lia]. rewrite variance_R by auto.
  unfold bic_score. destruct (Rle_dec (variance cl ce) 0); [lra|]. rewrite (sadd_total (fun g : list nat => _)). f_equal. rewrite Rplus_0_l.
  rewrite Rtot_minus. unfold doc_bic. cbv zeta. unfold parameters. rewrite (Rtot_ext _ (fun g => doc_likelihood (length cl) (Ncount cl) (dimension data) (variance cl ce) (length g)) cl); [field|].
  intros g _. unfold doc_likelihood. field.
Qed.

Hypothesis metric_nonneg : forall a b, (0 <= metric a b)%Q.

Lemma W1_nonneg gc : (0 <= W1 gc)%R.
Proof. unfold W1, Rtot. induction (fst gc) as [|x l IH]; simpl; [lra|]. pose proof (Qle_Rle _ _ (metric_nonneg (nth x data []) (snd gc))). replace (Q2R 0) with 0%R in H by (unfold Q2R; simpl; lra). lra. Qed.

Lemma Rtot_W1_nonneg l : (0 <= Rtot W1 l)%R.
Proof. unfold Rtot. induction l as [|x l IH]; simpl; [lra|]. pose proof (W1_nonneg x). lra. Qed.

Lemma variance_nonneg cl ce : length cl < Ncount cl -> (0 <= variance cl ce)%R.
Proof.
  intros H. unfold variance. apply Rmult_le_pos; [|apply Rtot_W1_nonneg]. apply lt_INR in H. unfold Rdiv. rewrite Rmult_1_l. left. apply Rinv_0_lt_compat. lra.
Qed.

(** mean errors are at least the error over all points *)
Lemma mean_error_ge cl ce : no_empty cl -> (Rtot W1 (combine cl ce) / INR (Ncount cl) <= mean_error cl ce)%R.
Proof.
  intros Hn. unfold mean_error. unfold Rdiv. rewrite Rmult_comm, <- Rtot_scale. apply Rtot_le. intros [g c] Hi. cbn [fst]. apply in_combine_l in Hi. apply Rmult_le_compat_r; [apply W1_nonneg|]. rewrite Rmult_1_l.
  pose proof (proj1 (Forall_forall _ _) Hn g Hi) as Hg. apply Rinv_le_contravar; [apply lt_0_INR; destruct g; [congruence|simpl; lia]|]. apply le_INR. unfold Ncount. apply in_split in Hi as (l1 & l2 & ->). rewrite concat_app, app_length. simpl. rewrite app_length. lia.
Qed.

Lemma W_R cl ce : no_empty cl -> Q2R (sumQ (map (fun gc => (wsum metric data (fst gc) (snd gc) / inject_Z (Z.of_nat (length (fst gc))))%Q) (combine cl ce))) = mean_error cl ce.
Proof.
  intros Hn. rewrite Q2R_sumQ, map_map. unfold mean_error, Rtot. f_equal. apply map_ext_in. intros [g c] Hi. apply in_combine_l in Hi. pose proof (proj1 (Forall_forall _ _) Hn g Hi) as Hg. cbn [fst snd].
  assert (Hq : ~ (inject_Z (Z.of_nat (length g)) == 0)%Q) by (unfold Qeq; simpl; destruct g; [congruence|simpl; lia]). rewrite Q2R_div by exact Hq. rewrite wsum_R.
  replace (Q2R (inject_Z (Z.of_nat (length g)))) with (INR (length g)); [unfold Rdiv; ring|]. unfold Q2R. simpl. rewrite INR_IZR_INZ. field.
Qed.

(** the score exists and is the documented one *)
Lemma mndl_documented alpha beta cl ce : no_empty cl -> length cl < Ncount cl -> mndl metric data alpha beta cl ce = Ok (Fin (doc_mndl alpha beta cl ce)).
Proof.
  intros Hn HN. unfold mndl. rewrite amount_count.
  assert (Ee : existsb (fun g : list nat => length g =? 0) cl = false).
  { apply not_true_is_false. intros H. apply existsb_exists in H as (g & Hg & E). apply Nat.eqb_eq in E. apply (proj1 (Forall_forall _ _) Hn g Hg). destruct g; [auto|discriminate]. }
  rewrite Ee. destruct (Nat.ltb_spec (length cl) (Ncount cl)); [|lia]. rewrite variance_R by auto. rewrite W_R by auto.
  pose proof (variance_nonneg cl ce HN) as V0. unfold half_power at 1. destruct (Rle_dec 0 (variance cl ce)); [|lra]. cbn [bind].
  assert (N0 : (0 < INR (Ncount cl))%R) by (apply lt_0_INR; lia).
  assert (KN : (INR (length cl) < INR (Ncount cl))%R) by (apply lt_INR; auto).
  assert (Kw : ((1 - INR (length cl) / INR (Ncount cl)) * variance cl ce = Rtot W1 (combine cl ce) / INR (Ncount cl))%R) by (unfold variance; field; lra).
  pose proof (mean_error_ge cl ce Hn) as Wg. pose proof (Rtot_W1_nonneg (combine cl ce)) as S0.
  assert (Q0 : (0 <= Rtot W1 (combine cl ce) / INR (Ncount cl))%R) by (apply Rmult_le_pos; [auto|left; apply Rinv_0_lt_compat; auto]).
  assert (A0 : (0 <= alpha * alpha * variance cl ce / INR (Ncount cl))%R) by (apply Rmult_le_pos; [apply Rmult_le_pos; [nra|auto]|left; apply Rinv_0_lt_compat; auto]).
  unfold half_power. match goal with |- context [Rle_dec 0 ?x] => destruct (Rle_dec 0 x) as [|Hx] end; [|exfalso; apply Hx; rewrite Kw; lra]. cbn [bind]. do 2 f_equal.
  unfold doc_mndl. cbv zeta.
  assert (S2 : (sqrt (2 * INR (length cl)) * sqrt (2 * INR (length cl)) = 2 * INR (length cl))%R) by (apply sqrt_sqrt; pose proof (pos_INR (length cl)); lra).
  assert (SN : (0 < sqrt (INR (Ncount cl)))%R) by (apply sqrt_lt_R0; auto).
  replace (alpha ^ 2 * variance cl ce / INR (Ncount cl) + mean_error cl ce - (1 - INR (length cl) / INR (Ncount cl)) * (variance cl ce / 2))%R with (alpha * alpha * variance cl ce / INR (Ncount cl) + mean_error cl ce - (1 - INR (length cl) / INR (Ncount cl)) * variance cl ce / 2)%R by (field; lra).
  set (root := sqrt (_ - _)). set (q := sqrt (2 * INR (length cl))) in *. set (sg := sqrt (variance cl ce)). set (sn := sqrt (INR (Ncount cl))) in *.
  replace (variance cl ce * q / INR (Ncount cl) * (q + beta))%R with (variance cl ce * (q * q) / INR (Ncount cl) + variance cl ce * beta * q / INR (Ncount cl))%R by (field; lra).
  rewrite S2. field. lra.
Qed.
End Documented.

(** * clusters of two points *)
Section Pairs.
Variable data : list point.
Lemma pair_bic i j a c ca cb : (0 < sqdist (nth i data []) c + sqdist (nth j data []) c)%Q -> (a = [[i]; [j]] \/ a = [[j]; [i]]) -> split_bic sqdist data [[i; j]] [c] a [ca; cb] = true.
Proof.
  intros H Ha. unfold split_bic.
  assert (Ei : bic sqdist data a [ca; cb] = Inf) by (destruct Ha as [->| ->]; reflexivity). rewrite Ei.
  assert (V : (0 < variance sqdist data [[i; j]] [c])%R).
  { unfold variance, Ncount, Rtot, W1, Rtot. cbn [concat app length combine map fold_right fst snd INR]. pose proof (Qlt_Rlt _ _ H) as P. rewrite Q2R_plus in P. replace (Q2R 0) with 0%R in P by (unfold Q2R; simpl; lra). lra. }
  rewrite bic_documented; [reflexivity|unfold Ncount; simpl; lia|exact V].
Qed.

Lemma pair_mndl alpha beta i j a c ca cb : (a = [[i]; [j]] \/ a = [[j]; [i]]) -> split_mndl sqdist data alpha beta [[i; j]] [c] a [ca; cb] = Ok false.
Proof.
  intros Ha. unfold split_mndl. rewrite mndl_documented; [|apply sqdist_nonneg|repeat constructor; discriminate|unfold Ncount; simpl; lia]. cbn [bind].
  assert (Ei : mndl sqdist data alpha beta a [ca; cb] = Ok Inf) by (destruct Ha as [->| ->]; reflexivity). rewrite Ei. reflexivity.
Qed.
End Pairs.
