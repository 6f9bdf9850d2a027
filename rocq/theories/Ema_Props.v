(** Expectation-maximization: C44, C100-C102. *)
From Verif Require Import Base Kmeans_Model Kmeans_Proofs Metric_Model Fcm_Model Fcm_Proofs Ema_Model Ema_Proofs.
From Coq Require Import Reals Lra.
Local Open Scope R_scope.

(** C44: after the expectation step the responsibilities of every point are in (0, 1] and add up to one *)
Theorem C44_responsibilities_sum data density s : regular density -> (0 < length data)%nat -> well_formed s -> nonzero_variances s ->
  exists e, expectation data density s = Ok e /\ amount e = amount s /\
    forall i, (i < length data)%nat -> sum_over (amount e) (fun c => resp e c i) = 1 /\ forall c, (c < amount e)%nat -> 0 < resp e c i <= 1.
Proof.
  intros Hd Hn W V. destruct (expectation_spec data density Hd Hn s W V) as (e & E & A & _). exists e. split; [exact E|]. split; [exact A|].
  apply (expectation_sum data density Hd Hn s e); auto.
Qed.
Print Assumptions C44_responsibilities_sum.

(** C44: after the maximization step the weights of the clusters are positive and add up to one *)
Theorem C44_weights_sum data density s e : regular density -> (0 < length data)%nat -> well_formed s -> nonzero_variances s ->
  expectation data density s = Ok e ->
  amount (maximization data e) = amount s /\ well_formed (maximization data e) /\
  sum_over (amount s) (fun c => nth c (pic (maximization data e)) 0) = 1.
Proof.
  intros Hd Hn W V E. destruct (expectation_spec data density Hd Hn s W V) as (e' & E' & A & _ & _ & _ & G & L & R). rewrite E in E'. apply Ok_inj in E'. subst e'.
  assert (GR : good_rows data e).
  { unfold good_rows. rewrite A. split; [apply W|]. split; [auto|]. split; [auto|]. intros c Hc. destruct (R c Hc) as (Lc & _). split; auto. intros i Hi.
    destruct (expectation_sum data density Hd Hn s e W V E i Hi) as (_ & P). apply P. lia. }
  destruct (maximization_spec data Hn e GR) as (A' & W' & _). rewrite A in A'. split; [auto|]. split; [auto|]. rewrite <- A'. apply weights_sum; auto.
  intros i Hi. apply (expectation_sum data density Hd Hn s e W V E i Hi).
Qed.
Print Assumptions C44_weights_sum.

(** C44: a run returns as many centres, covariances and rows of probabilities as clusters; the clusters partition the data,
    none is empty, every point is in a cluster of its largest probability, and the probabilities of a point are positive
    and add up to one (up to 0.000001) *)
Theorem C44_clusters data density k means0 variances0 tolerance iterations : regular density -> (0 < length data)%nat -> (0 < k)%nat ->
  length means0 = k -> length variances0 = k -> (forall v, In v variances0 -> norm v <> 0) -> (0 < iterations)%nat -> tolerance < 100000 ->
  exists r, ema_process data density k means0 variances0 tolerance iterations = Ok r /\
    length (means r) = length (clusters r) /\ length (variances r) = length (clusters r) /\ length (rc r) = length (clusters r) /\
    partitions (length data) (clusters r) /\ no_empty (clusters r) /\
    (forall c i, (c < length (clusters r))%nat -> In i (nth c (clusters r) []) -> forall c', (c' < length (clusters r))%nat -> resp r c' i <= resp r c i) /\
    forall i, (i < length data)%nat -> Rabs (sum_over (length (clusters r)) (fun c => resp r c i) - 1) <= 1 / 1000000 /\
      forall c, (c < length (clusters r))%nat -> 0 < resp r c i.
Proof.
  intros Hd Hn Hk Lm Lv V Hi Ht. destruct (ema_spec data density Hd Hn k means0 variances0 tolerance iterations Hk Lm Lv V Hi Ht) as (s & E & S).
  exists (normalize data s). split; [exact E|]. destruct (normalize_spec data Hn s S) as (N1 & N2 & N3 & N4 & N5 & N6 & N7).
  destruct S as (((_ & A1 & A2 & _) & A4 & _) & P & NE & _). cbn zeta in *. rewrite N2, N3. rewrite N1 in *. split; [lia|]. split; [unfold matrix in *; lia|]. split; [exact N4|].
  split; [exact P|]. split; [exact NE|]. split; [unfold maximal in N6; rewrite N1 in N6; exact N6|]. exact N7.
Qed.
Print Assumptions C44_clusters.

(** * C101: centres and covariances *)

(** mean and covariance of the data under some positive weights of the points *)
Definition moments (data : list rpoint) (mean : rpoint) (covariance : matrix) : Prop :=
  let D := length (nth 0 data []) in
  let x i d := nth d (nth i data []) 0 in
  exists w, (forall i, (i < length data)%nat -> 0 < w i) /\
    (forall d, (d < D)%nat -> nth d mean 0 * sum_over (length data) w = sum_over (length data) (fun i => w i * x i d)) /\
    (forall a b, (a < D)%nat -> (b < D)%nat -> nth b (nth a covariance []) 0 * sum_over (length data) w =
       sum_over (length data) (fun i => w i * ((x i a - nth a mean 0) * (x i b - nth b mean 0)))).

Lemma div_times x t : t <> 0 -> x / t * t = x.
Proof. intros H. field. exact H. Qed.

Theorem C101_moments data density k means0 variances0 tolerance iterations : regular density -> (0 < length data)%nat -> (0 < k)%nat ->
  length means0 = k -> length variances0 = k -> (forall v, In v variances0 -> norm v <> 0) -> (0 < iterations)%nat -> tolerance < 100000 ->
  exists r, ema_process data density k means0 variances0 tolerance iterations = Ok r /\
    forall c, (c < length (clusters r))%nat -> moments data (nth c (means r) []) (nth c (variances r) []).
Proof.
  intros Hd Hn Hk Lm Lv V Hi Ht. destruct (ema_spec data density Hd Hn k means0 variances0 tolerance iterations Hk Lm Lv V Hi Ht) as (s & E & S).
  exists (normalize data s). split; [exact E|]. destruct (normalize_spec data Hn s S) as (N1 & N2 & N3 & _). cbn zeta in *. rewrite N1, N2, N3.
  destruct S as (((_ & A1 & A2 & _) & A4 & A5 & A6 & A7) & _ & _ & _ & W). intros c Hc. rewrite A4 in Hc. destruct (W c Hc) as (W1 & W2). destruct (A7 c Hc) as (L & P).
  assert (T : rtotal (nth c (rc s) []) = sum_over (length data) (resp s c)) by (rewrite (row_total data) by auto; reflexivity).
  assert (Tp : 0 < sum_over (length data) (resp s c)).
  { unfold sum_over. change (fold_right Rplus R0) with rtotal. apply rtotal_pos; [apply seq_nonempty; auto|]. intros i Hi'. apply in_seq in Hi'. apply P. lia. }
  exists (resp s c). split; [exact P|]. rewrite T in W1, W2. split.
  - intros d Hdd. rewrite W1. unfold update_mean. rewrite nth_map_seq0 by (exact Hdd). apply div_times. lra.
  - intros a b Ha Hb. rewrite W2. unfold update_covariance. rewrite nth_map_seq0 by exact Ha. rewrite nth_map_seq0 by exact Hb. apply div_times. lra.
Qed.
Print Assumptions C101_moments.

Lemma sum_over_bounds n (w f : nat -> R) lo hi : (forall i, (i < n)%nat -> 0 < w i) -> (forall i, (i < n)%nat -> lo <= f i <= hi) ->
  lo * sum_over n w <= sum_over n (fun i => w i * f i) <= hi * sum_over n w.
Proof.
  intros Hw Hf. unfold sum_over. assert (G : forall l, (forall i, In i l -> (i < n)%nat) ->
    lo * fold_right Rplus R0 (map w l) <= fold_right Rplus R0 (map (fun i => w i * f i) l) <= hi * fold_right Rplus R0 (map w l)).
  { induction l as [|i l IH]; intros Hl; cbn [map fold_right]; [lra|]. specialize (IH (fun j Hj => Hl j (or_intror Hj))). pose proof (Hw i (Hl i (or_introl eq_refl))). pose proof (Hf i (Hl i (or_introl eq_refl))). nra. }
  apply G. intros i Hi. apply in_seq in Hi. lia.
Qed.

Lemma sum_over_pos n w : (0 < n)%nat -> (forall i, (i < n)%nat -> 0 < w i) -> 0 < sum_over n w.
Proof. intros Hn Hw. unfold sum_over. change (fold_right Rplus R0) with rtotal. apply rtotal_pos; [apply seq_nonempty; auto|]. intros i Hi. apply in_seq in Hi. apply Hw. lia. Qed.
Lemma sum_over_nonneg n w : (forall i, (i < n)%nat -> 0 <= w i) -> 0 <= sum_over n w.
Proof. intros Hw. unfold sum_over. change (fold_right Rplus R0) with rtotal. apply rtotal_nonneg. intros x Hx. apply in_map_iff in Hx as (i & <- & Hi). apply in_seq in Hi. apply Hw. lia. Qed.
Lemma sum_over_ext n f g : (forall i, (i < n)%nat -> f i = g i) -> sum_over n f = sum_over n g.
Proof. intros H. unfold sum_over. change (fold_right Rplus R0) with rtotal. apply rtotal_ext. intros i Hi. apply in_seq in Hi. apply H. lia. Qed.
Lemma sum_over_scal n f c : sum_over n (fun i => f i * c) = sum_over n f * c.
Proof. unfold sum_over. change (fold_right Rplus R0) with rtotal. rewrite <- rtotal_scal, map_map. reflexivity. Qed.
Lemma sum_over_swap n m (f : nat -> nat -> R) : sum_over n (fun a => sum_over m (f a)) = sum_over m (fun b => sum_over n (fun a => f a b)).
Proof. unfold sum_over. change (fold_right Rplus R0) with rtotal. apply rtotal_swap. Qed.

(** such a mean lies inside the bounding box of the data, such a covariance is symmetric and positive semi-definite *)
Theorem C101_box_and_definite data mean covariance : (0 < length data)%nat -> moments data mean covariance ->
  (forall d lo hi, (d < length (nth 0 data []))%nat -> (forall p, In p data -> lo <= nth d p 0 <= hi) -> lo <= nth d mean 0 <= hi) /\
  (forall a b, (a < length (nth 0 data []))%nat -> (b < length (nth 0 data []))%nat -> nth b (nth a covariance []) 0 = nth a (nth b covariance []) 0) /\
  forall u, 0 <= sum_over (length (nth 0%nat data [])) (fun a => sum_over (length (nth 0%nat data [])) (fun b => u a * u b * nth b (nth a covariance []) 0)).
Proof.
  intros Hn (w & Hw & M & C). set (D := length (nth 0%nat data [])) in *. set (n := length data) in *. pose proof (sum_over_pos n w Hn Hw) as T. split; [|split].
  - intros d lo hi Hd' Hb. destruct (sum_over_bounds n w (fun i => nth d (nth i data []) 0) lo hi Hw) as (B1 & B2).
    { intros i Hi. apply Hb, nth_In. exact Hi. }
    rewrite <- (M d Hd') in B1, B2. split; (apply (Rmult_le_reg_r (sum_over n w)); [exact T|lra]).
  - intros a b Ha Hb. apply (Rmult_eq_reg_r (sum_over n w)); [|lra]. rewrite (C a b Ha Hb), (C b a Hb Ha). apply sum_over_ext. intros i _. ring.
  - intros u. apply (Rmult_le_reg_r (sum_over n w)); [exact T|]. rewrite Rmult_0_l. rewrite <- sum_over_scal.
    set (v := fun i a => u a * (nth a (nth i data []) 0 - nth a mean 0)).
    replace (sum_over D _) with (sum_over n (fun i => w i * (sum_over D (v i) * sum_over D (v i)))).
    + apply sum_over_nonneg. intros i Hi. pose proof (Hw i Hi). pose proof (Rle_0_sqr (sum_over D (v i))) as Sq. unfold Rsqr in Sq. nra.
    + transitivity (sum_over n (fun i => sum_over D (fun a => sum_over D (fun b => w i * (v i a * v i b))))).
      * apply sum_over_ext. intros i _. rewrite (Rmult_comm (w i)), <- sum_over_scal. rewrite <- sum_over_scal. apply sum_over_ext. intros a _.
        rewrite (Rmult_comm (v i a)), <- sum_over_scal, <- sum_over_scal. apply sum_over_ext. intros b _. ring.
      * rewrite sum_over_swap. apply sum_over_ext. intros a Ha. rewrite sum_over_swap. rewrite <- sum_over_scal. apply sum_over_ext. intros b Hb.
        rewrite (Rmult_assoc (u a * u b)), (C a b Ha Hb), Rmult_comm, <- sum_over_scal. apply sum_over_ext. intros i _. unfold v. ring.
Qed.
Print Assumptions C101_box_and_definite.

(** * C100: the density *)
Definition normal_1d (m v x : R) : R := 1 / sqrt (2 * PI * v) * exp (- (x - m) ^ 2 / (2 * v)).
Definition determinant (a b c d : R) : R := a * d - b * c.
(** the bivariate normal density with covariance matrix (a b / c d) *)
Definition normal_2d (m1 m2 a b c d x y : R) : R :=
  1 / (2 * PI * sqrt (determinant a b c d)) *
  exp (- (1 / 2) * (((x - m1) * (d * (x - m1) - b * (y - m2)) + (y - m2) * (a * (y - m2) - c * (x - m1))) / determinant a b c d)).

(** one dimension, where the pseudo-inverse of a variance is its inverse: the function is the normal density *)
Theorem C100_gaussian_1d pinv m v x : 0 < v -> pinv [[v]] = [[1 / v]] -> gaussian pinv [m] [[v]] [x] = Some (normal_1d m v x).
Proof.
  intros Hv Hp. unfold gaussian, normal_1d. rewrite Hp. unfold quadratic, norm. cbn [concat map map2 app length]. unfold rtotal. cbn [fold_right].
  replace (v ^ 2 + 0) with (v * v) by ring. rewrite sqrt_square by lra. replace (INR 1 / 2) with (/ 2) by (simpl; field).
  assert (HP : 0 < PI * 2) by (pose proof PI_RGT_0; lra). rewrite Rpower_sqrt by exact HP. rewrite <- sqrt_mult by lra.
  replace (PI * 2 * v) with (2 * PI * v) by ring. assert (Hs : 0 < sqrt (2 * PI * v)) by (apply sqrt_lt_R0; nra).
  destruct (Req_EM_T _ 0); [lra|]. do 2 f_equal. f_equal. field. lra.
Qed.
Print Assumptions C100_gaussian_1d.

(** two dimensions: the value is the normal density times sqrt(determinant / norm) *)
Theorem C100_gaussian_2d pinv m1 m2 a b c d x y : 0 < determinant a b c d ->
  (let e := determinant a b c d in pinv [[a; b]; [c; d]] = [[d / e; - b / e]; [- c / e; a / e]]) ->
  gaussian pinv [m1; m2] [[a; b]; [c; d]] [x; y] =
  Some (normal_2d m1 m2 a b c d x y * sqrt (determinant a b c d / sqrt (a ^ 2 + b ^ 2 + c ^ 2 + d ^ 2))).
Proof.
  intros He Hp. cbn zeta in Hp. unfold gaussian, normal_2d. rewrite Hp. set (e := determinant a b c d) in *. unfold quadratic, norm. cbn [concat map map2 app length]. unfold rtotal. cbn [fold_right].
  replace (a ^ 2 + (b ^ 2 + (c ^ 2 + (d ^ 2 + 0)))) with (a ^ 2 + b ^ 2 + c ^ 2 + d ^ 2) by ring.
  set (q := a ^ 2 + b ^ 2 + c ^ 2 + d ^ 2). assert (Hq : 0 < q).
  { unfold q. unfold e, determinant in He. destruct (Req_dec a 0) as [->|Ha]; [destruct (Req_dec b 0) as [->|Hb]; [lra|]|].
    - pose proof (pow2_ge_0 c). pose proof (pow2_ge_0 d). assert (0 < b ^ 2) by (pose proof (pow2_ge_0 b); assert (b ^ 2 <> 0) by (apply pow_nonzero; auto); lra). nra.
    - pose proof (pow2_ge_0 b). pose proof (pow2_ge_0 c). pose proof (pow2_ge_0 d). assert (0 < a ^ 2) by (pose proof (pow2_ge_0 a); assert (a ^ 2 <> 0) by (apply pow_nonzero; auto); lra). nra. }
  replace (INR 2 / 2) with 1 by (simpl; field). assert (HP : 0 < PI * 2) by (pose proof PI_RGT_0; lra). rewrite Rpower_1 by exact HP.
  assert (Hn : 0 < sqrt q) by (apply sqrt_lt_R0; auto). assert (Hnn : 0 < sqrt (sqrt q)) by (apply sqrt_lt_R0; auto). assert (Hse : 0 < sqrt e) by (apply sqrt_lt_R0; auto).
  destruct (Req_EM_T _ 0) as [Hz|Hz]; [exfalso; nra|]. f_equal.
  rewrite sqrt_div_alt by auto.
  match goal with |- _ * exp ?u = _ * exp ?v * _ => replace u with v; [generalize (exp v)|] end.
  - intros z. field. split; [lra|]. split; [lra|]. lra.
  - f_equal. field. lra.
Qed.
Print Assumptions C100_gaussian_2d.

(** so it is not the documented density: for the standard normal distribution it is too small by the factor 2^(1/4) *)
Theorem C100_density_refuted : exists m1 m2 a b c d x y, 0 < determinant a b c d /\
  forall pinv, gaussian pinv [m1; m2] [[a; b]; [c; d]] [x; y] <> Some (normal_2d m1 m2 a b c d x y).
Proof.
  exists 0, 0, 1, 0, 0, 1, 0, 0. split; [unfold determinant; lra|]. intros pinv. unfold gaussian, normal_2d, norm. cbn [concat map map2 app length]. unfold rtotal. cbn [fold_right].
  assert (Q : forall inv, quadratic inv [0 - 0; 0 - 0] = 0).
  { intros inv. unfold quadratic. replace (0 - 0) with 0 by ring. assert (Z : forall h : list R -> R, rtotal (map2 (fun row x => x * h row) inv [0; 0]) = 0); [|apply (Z (fun row => rtotal (map2 Rmult row [0; 0])))]. intros h.
    destruct inv as [|r1 inv]; [reflexivity|]. destruct inv as [|r2 inv].
    - change (0 * h r1 + 0 = 0). ring.
    - destruct inv; change (0 * h r1 + (0 * h r2 + 0) = 0); ring. }
  rewrite Q. replace (1 ^ 2 + (0 ^ 2 + (0 ^ 2 + (1 ^ 2 + 0)))) with 2 by ring. replace (INR 2 / 2) with 1 by (simpl; field).
  assert (HP : 0 < PI * 2) by (pose proof PI_RGT_0; lra). rewrite Rpower_1 by exact HP. replace (determinant 1 0 0 1) with 1 by (unfold determinant; ring). rewrite sqrt_1.
  assert (H2 : 1 < sqrt 2) by (rewrite <- sqrt_1; apply sqrt_lt_1; lra). assert (H4 : 1 < sqrt (sqrt 2)) by (rewrite <- sqrt_1; apply sqrt_lt_1; lra).
  destruct (Req_EM_T _ 0) as [Hz|Hz]; [discriminate|]. intros E. injection E as E.
  replace (- (1 / 2) * (((0 - 0) * (1 * (0 - 0) - 0 * (0 - 0)) + (0 - 0) * (1 * (0 - 0) - 0 * (0 - 0))) / 1)) with 0 in E by field. replace (- (1 / 2) * 0) with 0 in E by ring.
  rewrite exp_0, !Rmult_1_r in E. assert (F : PI * 2 * sqrt (sqrt 2) = 2 * PI) by (unfold Rdiv in E; rewrite !Rmult_1_l in E; rewrite <- (Rinv_inv (2 * PI)), <- E, Rinv_inv; reflexivity).
  pose proof PI_RGT_0. nra.
Qed.
Print Assumptions C100_density_refuted.

(** * C102: a cluster whose densities are all zero (exp underflows) *)

(** the density of a far point is zero *)
Definition point_density (mean : rpoint) (covariance : matrix) (x : rpoint) : option R :=
  match mean, x with [m], [p] => if Req_EM_T m p then Some 1 else Some 0 | _, _ => Some 0 end.
Ltac decide_req := repeat match goal with |- context [Req_EM_T ?a ?b] => destruct (Req_EM_T a b); try lra end.

(** two points, each of full responsibility in its own cluster, and a third cluster far from both: the far cluster is left
    out, but then the responsibilities of the wrong cluster are read, and the cluster of the second point gets lost *)
Definition ema_data : list rpoint := [[0]; [10]].
Definition ema_start : state := {| amount := 3; means := [[0]; [100]; [10]]; variances := [[[1]]; [[1]]; [[1]]]; pic := [1; 1; 1];
  gaussians := [[]; []; []]; rc := [[0; 0]; [0; 0]; [0; 0]]; clusters := [] |}.
Lemma ema_start_expectation : expectation ema_data point_density ema_start = Ok {| amount := 3; means := means ema_start; variances := variances ema_start; pic := pic ema_start;
     gaussians := [[Some 1; Some 0]; [Some 0; Some 0]; [Some 0; Some 1]]; rc := [[1; 0]; [0; 0]; [0; 1]]; clusters := [] |}.
Proof.
  unfold expectation, ema_start. cbn [amount means variances pic length Nat.ltb Nat.leb orb seq map nth ema_data gaussians rc clusters]. unfold probability, mixture.
  cbn [amount means variances pic length orb seq map nth ema_data gaussians rc clusters point_density].
  assert (D0 : (if Req_EM_T 0 0 then Some 1 else Some 0) = Some 1) by (decide_req; auto).
  assert (D1 : (if Req_EM_T 0 10 then Some 1 else Some 0) = Some 0) by (decide_req; auto).
  assert (D2 : (if Req_EM_T 100 0 then Some 1 else Some 0) = Some 0) by (decide_req; auto).
  assert (D3 : (if Req_EM_T 100 10 then Some 1 else Some 0) = Some 0) by (decide_req; auto).
  assert (D4 : (if Req_EM_T 10 0 then Some 1 else Some 0) = Some 0) by (decide_req; auto).
  assert (D5 : (if Req_EM_T 10 10 then Some 1 else Some 0) = Some 1) by (decide_req; auto).
  rewrite D0, D1, D2, D3, D4, D5. cbn [times total nth]. f_equal.
  decide_req. f_equal. repeat (f_equal; try (field; lra)).
Qed.
Lemma ema_start_step : exists v p, step ema_data point_density ema_start = Ok {| amount := 1; means := [[0]]; variances := v; pic := p;
  gaussians := [[Some 1; Some 0]]; rc := [[1; 0]]; clusters := [[0; 1]]%nat |}.
Proof.
  unfold step. rewrite ema_start_expectation. cbn [bind]. unfold maximization, possible. cbn [rc amount seq filter nth]. unfold rtotal. cbn [fold_right].
  decide_req. cbn [map length nth fold_right]. unfold extract. cbn [amount Nat.eqb length ema_data means variances pic gaussians rc clusters repeat seq]. unfold candidates. cbn [rc amount seq map nth].
  assert (A : forall r, fold_left (fun cl i => push cl (argmax (map (fun c => nth i (nth c [[1; 0]; [0; 0]; [0; 1]] []) 0) [0; 1]%nat)) i) [0; 1]%nat r = push (push r 0%nat 0%nat) 0%nat 1%nat).
  { intros r. cbn [fold_left map nth]. replace (argmax [1; 0]) with 0%nat; [replace (argmax [0; 0]) with 0%nat; [reflexivity|]|]; unfold argmax; cbn; repeat (match goal with |- context [Rlt_dec ?a ?b] => destruct (Rlt_dec a b); try lra end); reflexivity. }
  rewrite A. unfold erase_empty. cbn. eexists. eexists. f_equal. f_equal. f_equal. f_equal. field.
Qed.
Theorem C102_lost_cluster_refuted : exists e r,
  expectation ema_data point_density ema_start = Ok e /\ resp e 2 1 = 1 /\ resp e 0 1 = 0 /\
  ema_process ema_data point_density 3 (means ema_start) (variances ema_start) (1 / 100000) 1 = Ok r /\
  clusters r = [[0; 1]]%nat /\ means r = [[0]].
Proof.
  destruct ema_start_step as (v & p & E). eexists. eexists. split; [exact ema_start_expectation|]. split; [reflexivity|]. split; [reflexivity|].
  split; [|split; [|]]; cycle 1.
  - instantiate (1 := normalize ema_data {| amount := 1; means := [[0]]; variances := v; pic := p; gaussians := [[Some 1; Some 0]]; rc := [[1; 0]]; clusters := [[0; 1]]%nat |}). reflexivity.
  - reflexivity.
  - unfold ema_process. cbn [ema_data length Nat.eqb]. cbn [loop]. unfold changed. destruct (Rlt_dec _ _) as [_|C]; [|exfalso; apply C; rewrite Rabs_left; lra]. cbn [orb negb].
    match goal with |- context [step ?d ?f ?s] => change (step d f s) with (step ema_data point_density ema_start) end. rewrite E. reflexivity.
Qed.
Print Assumptions C102_lost_cluster_refuted.

(** * Concrete cases *)

(** a positive density that is computable: a Cauchy kernel *)
Definition cauchy (mean : rpoint) (covariance : matrix) (x : rpoint) : option R := Some (1 / (1 + (nth 0 x 0 - nth 0 mean 0) ^ 2)).
Example C44_regular_example : regular cauchy.
Proof. intros m v x _. eexists. split; [reflexivity|]. apply Rdiv_lt_0_compat; [lra|]. pose proof (pow2_ge_0 (nth 0 x 0 - nth 0 m 0)). lra. Qed.
(** the function of the library is regular, whatever the pseudo-inverse (in exact arithmetic) *)
Example C44_gaussian_regular : forall pinv, regular (gaussian pinv).
Proof.
  intros pinv m v x Hv. unfold gaussian. destruct (Req_EM_T _ 0) as [Hz|Hz].
  - exfalso. assert (0 < norm v) by (pose proof (sqrt_pos (rtotal (map (fun x => x ^ 2) (concat v)))); unfold norm in *; lra).
    assert (0 < sqrt (norm v)) by (apply sqrt_lt_R0; auto). assert (0 < Rpower (PI * 2) (INR (length x) / 2)) by (unfold Rpower; apply exp_pos). nra.
  - eexists. split; [reflexivity|]. assert (0 <= norm v) by apply sqrt_pos. assert (0 <= sqrt (norm v)) by apply sqrt_pos. assert (0 < Rpower (PI * 2) (INR (length x) / 2)) by (unfold Rpower; apply exp_pos).
    apply Rmult_lt_0_compat; [|apply exp_pos]. apply Rdiv_lt_0_compat; [lra|]. nra.
Qed.
Definition near_start : state := {| amount := 2; means := [[0]; [1]]; variances := [[[1]]; [[1]]]; pic := [1; 1]; gaussians := []; rc := []; clusters := [] |}.
Example C44_start_example : well_formed near_start /\ nonzero_variances near_start.
Proof.
  split.
  - unfold well_formed, near_start. cbn. repeat split; auto. intros w [<-|[<-|[]]]; lra.
  - intros v Hv. assert (v = [[1]]) as -> by (destruct Hv as [<-|[<-|[]]]; auto). unfold norm, rtotal. cbn. replace (1 * (1 * 1) + 0) with 1 by ring. rewrite sqrt_1. apply R1_neq_R0.
Qed.
(** points 0 and 1 and clusters of centres 0 and 1: responsibilities 2/3 and 1/3 *)
Example C44_expectation_example : exists e, expectation [[0]; [1]] cauchy near_start = Ok e /\ rc e = [[2 / 3; 1 / 3]; [1 / 3; 2 / 3]].
Proof.
  eexists. split; [reflexivity|]. cbn [rc]. unfold near_start, probability, mixture, cauchy. cbn [amount means variances pic length seq map nth gaussians times total].
  repeat match goal with |- context [Req_EM_T ?a ?b] => destruct (Req_EM_T a b) as [H|H]; [exfalso; revert H; lra|clear H] end.
  repeat (f_equal; try lra).
Qed.
