(** C277: expectation-maximization does not depend on the unit (one for all coordinates) and the origin of the coordinates. *)
From Verif Require Import Base Kmeans_Model Kmeans_Proofs Metric_Model Fcm_Model Fcm_Proofs Unit_Props Fcmunit_Props Ema_Model Ema_Proofs Ema_Props.
From Coq Require Import Reals Lra Lia.
Local Open Scope R_scope.

(** ** specification *)
(** a covariance in another unit *)
Definition covariance_in (s : R) (v : matrix) : matrix := map (map (fun x => s ^ 2 * x)) v.
(** the same clusters, weights and responsibilities; means and covariances in the new coordinates *)
Definition em_in_unit (s : R) (ts : list R) (r r' : state) : Prop :=
  amount r' = amount r /\ means r' = map (in_unit s ts) (means r) /\ variances r' = map (covariance_in s) (variances r) /\ pic r' = pic r /\ rc r' = rc r /\ clusters r' = clusters r.
(** numpy's pseudo-inverse of a covariance in another unit *)
Definition inverse_in (s : R) (pinv : matrix -> matrix) : Prop := forall v, pinv (covariance_in s v) = map (map (fun x => / s ^ 2 * x)) (pinv v).

(** ** the density is divided by the factor *)
Lemma rtotal_times (c : R) (l : list R) : rtotal (map (fun x => c * x) l) = c * rtotal l.
Proof. unfold rtotal. induction l as [|x l IH]; cbn [map fold_right]; [ring|]. rewrite IH. ring. Qed.
Lemma rtotal_cons x l : rtotal (x :: l) = x + rtotal l. Proof. reflexivity. Qed.
Lemma norm_in s v : 0 < s -> norm (covariance_in s v) = s ^ 2 * norm v.
Proof.
  intro Hs. unfold norm. assert (E : map (fun x => x ^ 2) (concat (covariance_in s v)) = map (fun x => (s ^ 2 * s ^ 2) * x) (map (fun x => x ^ 2) (concat v))).
  { unfold covariance_in. rewrite <- concat_map, !map_map. apply map_ext. intro x. ring. }
  rewrite E, rtotal_times. assert (P : 0 <= s ^ 2) by apply pow2_ge_0. rewrite sqrt_mult.
  - now rewrite sqrt_square by exact P.
  - nra.
  - clear. unfold rtotal. induction (concat v) as [|x l IH]; cbn [map fold_right]; [lra|]. pose proof (pow2_ge_0 x). lra.
Qed.
Lemma delta_in s ts : forall x m, length x = length ts -> length m = length ts -> map2 Rminus (in_unit s ts x) (in_unit s ts m) = map (fun y => s * y) (map2 Rminus x m).
Proof.
  unfold in_unit. induction ts as [|t l IH]; intros [|x p] [|y q] A B; cbn [length] in *; try lia; [reflexivity|]. cbn [map2 map]. rewrite IH by lia. f_equal. ring.
Qed.
Lemma quadratic_in s : s <> 0 -> forall inv delta, quadratic (map (map (fun x => / s ^ 2 * x)) inv) (map (fun y => s * y) delta) = quadratic inv delta.
Proof.
  intro Hs. intros inv delta. unfold quadratic.
  assert (Dot : forall row d, rtotal (map2 Rmult (map (fun x => / s ^ 2 * x) row) (map (fun y => s * y) d)) = / s * rtotal (map2 Rmult row d)).
  { induction row as [|a row IH]; intros [|y d]; cbn [map map2]; try (unfold rtotal; cbn [fold_right]; ring). rewrite !rtotal_cons, IH. field. exact Hs. }
  assert (G : forall d l, rtotal (map2 (fun row x => x * rtotal (map2 Rmult row (map (fun y => s * y) d))) (map (map (fun x => / s ^ 2 * x)) inv) (map (fun y => s * y) l)) = rtotal (map2 (fun row x => x * rtotal (map2 Rmult row d)) inv l)).
  { intro d. induction inv as [|row inv IH]; intros [|y l]; cbn [map map2]; try reflexivity. rewrite !rtotal_cons, IH, Dot. f_equal. field. exact Hs. }
  apply G.
Qed.
Definition divided (s : R) (g : option R) : option R := match g with Some x => Some (x / s) | None => None end.
Lemma gaussian_in s ts pinv m v x : 0 < s -> inverse_in s pinv -> length x = length ts -> length m = length ts ->
  gaussian pinv (in_unit s ts m) (covariance_in s v) (in_unit s ts x) = divided s (gaussian pinv m v x).
Proof.
  intros Hs Hp Lx Lm. unfold gaussian. rewrite (unit_length s ts x Lx), Lx, norm_in, Hp, delta_in, quadratic_in by (auto; lra).
  assert (P : 0 <= norm v) by apply sqrt_pos. rewrite sqrt_mult, sqrt_pow2 by (try apply pow2_ge_0; lra). set (p := Rpower _ _).
  destruct (Req_EM_T (p * (s * sqrt (norm v))) 0) as [E|E], (Req_EM_T (p * sqrt (norm v)) 0) as [F|F]; cbn [divided]; try reflexivity.
  - exfalso. apply F. apply (Rmult_eq_reg_l s); [|lra]. rewrite Rmult_0_r, <- E. ring.
  - exfalso. apply E. replace (p * (s * sqrt (norm v))) with (s * (p * sqrt (norm v))) by ring. rewrite F. ring.
  - f_equal. field. repeat split; try lra; intro Z; apply F; rewrite Z; ring.
Qed.

Section Units.
Variables (s : R) (ts : list R) (data : list rpoint) (density : rpoint -> matrix -> rpoint -> option R).
Hypothesis Hs : 0 < s.
Hypothesis HD : forall p, In p data -> length p = length ts.
Hypothesis Hne : (0 < length data)%nat.
Hypothesis Hd : forall m v x, length x = length ts -> length m = length ts -> density (in_unit s ts m) (covariance_in s v) (in_unit s ts x) = divided s (density m v x).
Notation U := (in_unit s ts).
Notation V := (covariance_in s).
Notation n := (length data).
Notation data' := (map (in_unit s ts) data).
(** the state in the new coordinates *)
Definition image (st : state) : state :=
  {| amount := amount st; means := map U (means st); variances := map V (variances st); pic := pic st; gaussians := map (map (divided s)) (gaussians st); rc := rc st; clusters := clusters st |}.
Definition right_means (st : state) : Prop := forall m, In m (means st) -> length m = length ts.

Lemma data_at i : (i < n)%nat -> nth i data' [] = U (nth i data []).
Proof. intro Hi. rewrite (nth_indep _ [] (U [])) by (now rewrite map_length). apply map_nth. Qed.
Lemma data_len i : (i < n)%nat -> length (nth i data []) = length ts.
Proof. intro Hi. apply HD, nth_In, Hi. Qed.
Lemma width_is : width data = length ts. Proof. apply data_len. exact Hne. Qed.
Lemma width_in : width data' = length ts. Proof. unfold width. rewrite data_at by exact Hne. apply unit_length, data_len, Hne. Qed.
Lemma gauss_at (g : list (list (option R))) c i : nth i (nth c (map (map (divided s)) g) []) None = divided s (nth i (nth c g []) None).
Proof. change (@nil (option R)) with (map (divided s) []) at 1. rewrite map_nth. change (@None R) with (divided s None) at 1. apply map_nth. Qed.
Lemma total_divided l : total (map (divided s) l) = divided s (total l).
Proof. induction l as [|[x|] l IH]; cbn [map total divided]; try reflexivity; [f_equal; field; lra|]. rewrite IH. destruct (total l); cbn [divided]; [|reflexivity]. f_equal. field. lra. Qed.
Lemma mixture_in st i : mixture (image st) i = divided s (mixture st i).
Proof.
  unfold mixture, image. cbn [amount pic gaussians]. rewrite <- total_divided, map_map. f_equal. apply map_ext. intro c. rewrite gauss_at. destruct (nth i (nth c (gaussians st) []) None); cbn [divided times]; [|reflexivity]. f_equal. field. lra.
Qed.
Lemma probability_in st c i : probability (image st) c i = probability st c i.
Proof.
  unfold probability. rewrite mixture_in. destruct (mixture st i) as [d|]; cbn [divided]; [|reflexivity]. cbn [image pic gaussians]. rewrite gauss_at.
  destruct (Req_EM_T (d / s) 0) as [E|E], (Req_EM_T d 0) as [F|F]; try reflexivity.
  - exfalso. apply F. apply (f_equal (fun x => x * s)) in E. unfold Rdiv in E. rewrite Rmult_assoc, Rinv_l, Rmult_0_l, Rmult_1_r in E by lra. exact E.
  - exfalso. apply E. rewrite F. unfold Rdiv. ring.
  - destruct (nth i (nth c (gaussians st) []) None) as [g|]; cbn [divided]; [|reflexivity]. field. split; lra.
Qed.
Lemma nth_means st c : nth c (means (image st)) [] = U (nth c (means st) []).
Proof. cbn [image means]. replace (@nil R) with (U []) at 1 by (unfold in_unit; destruct ts; reflexivity). apply map_nth. Qed.
Lemma nth_variances st c : nth c (variances (image st)) [] = V (nth c (variances st) []).
Proof. cbn [image variances]. change (@nil (list R)) with (V []) at 1. apply map_nth. Qed.
Lemma expectation_in st : right_means st -> expectation data' density (image st) = match expectation data density st with Ok e => Ok (image e) | Raise x => Raise x end.
Proof.
  intro RM. unfold expectation. change (amount (image st)) with (amount st). change (pic (image st)) with (pic st). replace (length (means (image st))) with (length (means st)) by (cbn [image means]; now rewrite map_length).
  replace (length (variances (image st))) with (length (variances st)) by (cbn [image variances]; now rewrite map_length).
  destruct (Nat.ltb_spec (length (means st)) (amount st)) as [|LM]; cbn [orb]; [reflexivity|]. destruct (_ || _); [reflexivity|].
  assert (G : map (fun c => map (density (nth c (means (image st)) []) (nth c (variances (image st)) [])) data') (seq 0 (amount st)) = map (map (divided s)) (map (fun c => map (density (nth c (means st) []) (nth c (variances st) [])) data) (seq 0 (amount st)))).
  { rewrite map_map. apply map_ext_in. intros c Hc. apply in_seq in Hc. rewrite !map_map, nth_means, nth_variances. apply map_ext_in. intros p Hp. apply Hd; [now apply HD|]. apply RM, nth_In. lia. }
  rewrite G. f_equal. set (g := map (fun c => map (density (nth c (means st) []) (nth c (variances st) [])) data) (seq 0 (amount st))).
  set (st1 := {| amount := amount st; means := means st; variances := variances st; pic := pic st; gaussians := g; rc := rc st; clusters := clusters st |}).
  unfold image. cbn [amount means variances pic gaussians rc clusters]. f_equal. apply map_ext. intro c. rewrite map_length. apply map_ext. intro i. apply (probability_in st1).
Qed.
Lemma row_sum (row : list R) : length row = n -> rtotal row = rtotal (map (fun i => nth i row 0) (seq 0 n)).
Proof. intro L. rewrite rtotal_nth, L. reflexivity. Qed.
Lemma mean_in row : length row = n -> rtotal row <> 0 -> update_mean data' row (rtotal row) = U (update_mean data row (rtotal row)).
Proof.
  intros L Z. assert (LU : length (update_mean data row (rtotal row)) = length ts) by (unfold update_mean; now rewrite map_length, seq_length, width_is).
  apply (nth_ext _ _ 0 0). { rewrite unit_length by exact LU. unfold update_mean. now rewrite map_length, seq_length, width_in. }
  intros d H. unfold update_mean in H. rewrite map_length, seq_length, width_in in H. rewrite unit_nth by auto. unfold update_mean. rewrite width_in, width_is, !nth_map_seq0, map_length by exact H.
  rewrite (rtotal_ext _ (fun i => s * (nth i row 0 * nth d (nth i data []) 0) + nth d ts 0 * nth i row 0)) by (intros i Hi; apply in_seq in Hi; rewrite data_at, unit_nth by (try apply data_len; auto; lia); ring).
  rewrite rtotal_plus. rewrite <- (map_map (fun i => nth i row 0 * nth d (nth i data []) 0) (fun x => s * x)), <- (map_map (fun i => nth i row 0) (fun x => nth d ts 0 * x)), !rtotal_times, <- row_sum by exact L. field. exact Z.
Qed.
Lemma covariance_in_unit mean row mc : length mean = length ts -> update_covariance data' (U mean) row mc = V (update_covariance data mean row mc).
Proof.
  intro L. unfold update_covariance, covariance_in. rewrite width_in, width_is, map_map. apply map_ext_in. intros a Ha. apply in_seq in Ha. rewrite map_map. apply map_ext_in. intros b Hb. apply in_seq in Hb. rewrite map_length.
  rewrite (rtotal_ext _ (fun i => s ^ 2 * (nth i row 0 * ((nth a (nth i data []) 0 - nth a mean 0) * (nth b (nth i data []) 0 - nth b mean 0))))).
  - rewrite <- (map_map (fun i => nth i row 0 * ((nth a (nth i data []) 0 - nth a mean 0) * (nth b (nth i data []) 0 - nth b mean 0))) (fun x => s ^ 2 * x)), rtotal_times. unfold Rdiv. ring.
  - intros i Hi. apply in_seq in Hi. rewrite data_at by lia. rewrite !unit_nth by (try apply data_len; auto; lia). ring.
Qed.
Definition right_rows (st : state) : Prop := forall c, (c < amount st)%nat -> length (nth c (rc st) []) = n.
Lemma mean_length row mc : length (update_mean data row mc) = length ts. Proof. unfold update_mean. now rewrite map_length, seq_length, width_is. Qed.
Lemma maximization_in e : right_rows e -> maximization data' (image e) = image (maximization data e).
Proof.
  intro RR. unfold maximization. assert (P : possible (image e) = possible e) by reflexivity. rewrite P.
  assert (I : forall c, In c (possible e) -> length (nth c (rc e) []) = n /\ rtotal (nth c (rc e) []) <> 0).
  { intros c Hc. unfold possible in Hc. apply filter_In in Hc as (Hc & Hz). apply in_seq in Hc. split; [apply RR; lia|]. destruct (Req_EM_T _ _); [discriminate|assumption]. }
  unfold image. cbn [amount means variances pic gaussians rc clusters]. rewrite map_length. f_equal.
  - rewrite map_map. apply map_ext_in. intros c Hc. destruct (I c Hc). now apply mean_in.
  - rewrite map_map. apply map_ext_in. intros c Hc. destruct (I c Hc). cbn [image rc]. rewrite mean_in by assumption. apply covariance_in_unit, mean_length.
Qed.
Lemma keep_map {A B} (f : A -> B) d d' idx l : f d = d' -> keep d' idx (map f l) = map f (keep d idx l).
Proof. intros <-. unfold keep. rewrite map_map. apply map_ext. intro c. apply map_nth. Qed.
Lemma erase_in st : erase_empty (image st) = image (erase_empty st).
Proof.
  unfold erase_empty. change (clusters (image st)) with (clusters st). destruct (_ =? _)%nat; [reflexivity|]. unfold image. cbn [amount means variances pic gaussians rc clusters]. f_equal; apply keep_map; try reflexivity. unfold in_unit. now destruct ts.
Qed.
Lemma extract_in st : extract data' (image st) = match extract data st with Ok e => Ok (image e) | Raise x => Raise x end.
Proof. unfold extract. change (amount (image st)) with (amount st). destruct (_ =? _)%nat; [reflexivity|]. f_equal. rewrite map_length. rewrite <- erase_in. reflexivity. Qed.
Lemma expectation_rows st e : expectation data density st = Ok e -> right_rows e.
Proof. unfold expectation. destruct (_ || _); [discriminate|]. intro E. apply Ok_inj in E. subst e. intros c Hc. cbn [amount rc] in *. rewrite nth_map_seq0 by exact Hc. now rewrite map_length, seq_length. Qed.
Lemma step_in st : right_means st -> step data' density (image st) = match step data density st with Ok e => Ok (image e) | Raise x => Raise x end.
Proof.
  intro RM. unfold step. rewrite expectation_in by exact RM. destruct (expectation data density st) as [e|x] eqn:E; cbn [bind]; [|reflexivity]. rewrite maximization_in by (eapply expectation_rows; exact E). apply extract_in.
Qed.
Lemma stop_in st : stop_condition (image st) = stop_condition st.
Proof.
  unfold stop_condition. cbn [image variances]. induction (variances st) as [|v l IH]; cbn [map existsb]; [reflexivity|]. rewrite IH, norm_in by exact Hs. f_equal. assert (P : 0 < s ^ 2) by (cbn; nra).
  destruct (Req_EM_T (s ^ 2 * norm v) 0) as [E|E], (Req_EM_T (norm v) 0) as [F|F]; try reflexivity; exfalso; [apply Rmult_integral in E; lra|apply E; rewrite F; ring].
Qed.

(** *** the likelihood *)
Definition positive_mixtures (st : state) : Prop := forall i, (i < n)%nat -> exists x, mixture st i = Some x /\ 0 < x.
Lemma likelihood_in st : positive_mixtures st -> exists L, log_likelihood data st = Some L /\ log_likelihood data' (image st) = Some (L - INR n * ln s).
Proof.
  intro P. unfold log_likelihood. rewrite map_length. set (x i := match mixture st i with Some y => y | None => 0 end).
  assert (E : forall i, (i < n)%nat -> mixture st i = Some (x i) /\ 0 < x i) by (intros i Hi; destruct (P i Hi) as (y & E & Y); unfold x; rewrite E; auto).
  exists (rtotal (map (fun i => ln (x i)) (seq 0 n))). split.
  - apply total_some. intros i Hi. apply in_seq in Hi. destruct (E i) as (-> & Y); [lia|]. cbn [log_term]. destruct (Rlt_dec 0 (x i)); [reflexivity|contradiction].
  - rewrite (total_some _ (fun i => ln (x i) + - ln s)).
    + rewrite rtotal_plus, rtotal_const, seq_length. f_equal. ring.
    + intros i Hi. apply in_seq in Hi. rewrite mixture_in. destruct (E i) as (-> & Y); [lia|]. cbn [divided log_term]. destruct (Rlt_dec 0 (x i / s)) as [|N]; [|exfalso; apply N; now apply Rdiv_lt_0_compat]. unfold Rdiv. rewrite ln_mult, ln_Rinv by (auto using Rinv_0_lt_compat). reflexivity.
Qed.
Hypothesis Hreg : regular density.
Definition positive_gaussians (st : state) : Prop := forall c i, (c < amount st)%nat -> (i < n)%nat -> exists g, nth i (nth c (gaussians st) []) None = Some g /\ 0 < g.
Lemma positive_mix st : well_formed st -> positive_gaussians st -> positive_mixtures st.
Proof.
  intros W G i Hi. unfold mixture. set (g c := match nth i (nth c (gaussians st) []) None with Some y => y | None => 0 end).
  exists (rtotal (map (fun c => nth c (pic st) 0 * g c) (seq 0 (amount st)))). split.
  - apply total_some. intros c Hc. apply in_seq in Hc. unfold g. destruct (G c i ltac:(lia) Hi) as (y & -> & _). reflexivity.
  - apply rtotal_pos; [apply seq_nonempty; apply W|]. intros c Hc. apply in_seq in Hc. unfold g. destruct (G c i ltac:(lia) Hi) as (y & -> & Y). apply Rmult_lt_0_compat; [destruct W as (_ & _ & _ & LP & PP); apply PP, nth_In; lia|exact Y].
Qed.
Lemma step_positive st x : well_formed st -> nonzero_variances st -> step data density st = Ok x -> positive_gaussians x /\ right_means x.
Proof.
  intros W NV E. unfold step in E. destruct (expectation_spec data density Hreg Hne st W NV) as (e & Ee & EA & EM & EV & EP & EG & ER & EC). rewrite Ee in E. cbn [bind] in E.
  assert (GE : forall c i, (c < amount e)%nat -> (i < n)%nat -> exists g, nth i (nth c (gaussians e) []) None = Some g /\ 0 < g).
  { intros c i Hc Hi. unfold expectation in Ee. destruct (_ || _); [discriminate|]. apply Ok_inj in Ee. subst e. cbn [gaussians amount] in *. rewrite nth_map_seq0 by exact Hc.
    set (f := density (nth c (means st) []) (nth c (variances st) [])). rewrite (nth_indep _ None (f [])) by (now rewrite map_length). rewrite map_nth. apply Hreg, NV, nth_In. destruct W as (_ & _ & L & _). lia. }
  assert (LE : (length (possible e) <= amount e)%nat). { unfold possible. rewrite <- (seq_length (amount e) 0) at 2. generalize (seq 0 (amount e)) as l. intro l. induction l as [|c l IH]; cbn [filter length]; [lia|]. destruct (Req_EM_T _ _); cbn [length]; lia. }
  unfold extract in E. destruct (_ =? _)%nat; [discriminate|]. apply Ok_inj in E. unfold erase_empty in E. cbn [clusters] in E. set (cl := fold_left _ _ _) in E.
  assert (LC : length cl = amount (maximization data e)). { unfold cl. rewrite (push_groups (fun i => argmax (candidates (maximization data e) i))). unfold groups_of. now rewrite map_length, seq_length. }
  assert (MM : forall m, In m (means (maximization data e)) -> length m = length ts). { intros m Hm. cbn [maximization means] in Hm. apply in_map_iff in Hm as (c & <- & _). apply mean_length. }
  set (idx := filter _ _) in E. assert (HI : forall c, In c idx -> (c < length cl)%nat) by (intros c Hc; apply filter_In in Hc as (Hc & _); apply in_seq in Hc; lia).
  destruct (length idx =? length cl)%nat; subst x; split.
  - intros c i Hc Hi. cbn [amount gaussians maximization] in *. apply GE; [lia|exact Hi].
  - exact MM.
  - intros c i Hc Hi. cbn [amount gaussians] in *. rewrite nth_keep by exact Hc. apply GE; [|exact Hi]. specialize (HI _ (nth_In idx 0%nat Hc)). rewrite LC in HI. cbn [maximization amount] in HI. lia.
  - intros m Hm. cbn [means] in Hm. unfold keep in Hm. apply in_map_iff in Hm as (c & <- & Hc). apply MM, nth_In. specialize (HI _ Hc). rewrite LC in HI. cbn [maximization amount means] in *. now rewrite map_length.
Qed.
Lemma changed_shift tolerance a b c : changed tolerance (Some (a - c)) (Some (b - c)) = changed tolerance (Some a) (Some b).
Proof. unfold changed. replace (a - c - (b - c)) with (a - b) by ring. reflexivity. Qed.
Lemma loop_in tolerance c : c = INR n * ln s -> forall left stop p q st, changed tolerance (Some (p - c)) (Some (q - c)) = changed tolerance (Some p) (Some q) ->
  result_ok data st -> right_means st -> (stop = false -> nonzero_variances st) ->
  forall p' , changed tolerance p' (Some (q - c)) = changed tolerance (Some p) (Some q) ->
  loop data' density tolerance left stop p' (Some (q - c)) (image st) = match loop data density tolerance left stop (Some p) (Some q) st with Ok r => Ok (image r) | Raise x => Raise x end.
Proof.
  intro Ec. induction left as [|left IH]; intros stop p q st C0 RO RM NV p' C; cbn [loop]; [reflexivity|]. rewrite C. destruct (stop || negb (changed tolerance (Some p) (Some q))) eqn:St; [reflexivity|].
  apply orb_false_iff in St as (St & _). rewrite step_in by exact RM. assert (W : well_formed st) by apply RO. destruct (step_spec data density Hreg Hne st W (NV St)) as (x & Ex & X). rewrite Ex. cbn [bind].
  destruct (step_positive st x W (NV St) Ex) as (PG & RX). rewrite stop_in. destruct (likelihood_in x) as (L & EL & EL'). { apply positive_mix; [apply X|exact PG]. }
  rewrite EL, EL', <- Ec. apply IH; auto using changed_shift. apply stop_false.
Qed.
Lemma normalize_in st : normalize data' (image st) = image (normalize data st).
Proof. unfold normalize. rewrite map_length. reflexivity. Qed.
End Units.

(** the densities of the library: all are divided by the factor, so the logarithm of the likelihood of the data changes by one constant and responsibilities stay *)
Theorem C277_densities (data : list rpoint) pinv s ts st e : 0 < s -> inverse_in s pinv -> (forall p, In p data -> length p = length ts) -> (0 < length data)%nat ->
  well_formed st -> nonzero_variances st -> (forall m, In m (means st) -> length m = length ts) -> step data (gaussian pinv) st = Ok e ->
  exists st' e' likelihood, em_in_unit s ts st st' /\ step (map (in_unit s ts) data) (gaussian pinv) st' = Ok e' /\ em_in_unit s ts e e' /\
    log_likelihood data e = Some likelihood /\ log_likelihood (map (in_unit s ts) data) e' = Some (likelihood - INR (length data) * ln s).
Proof.
  intros Hs Hp HD Hne W NV RM E. assert (Hd : forall m v x, length x = length ts -> length m = length ts -> gaussian pinv (in_unit s ts m) (covariance_in s v) (in_unit s ts x) = divided s (gaussian pinv m v x)) by (intros; now apply gaussian_in).
  pose proof (step_in s ts data (gaussian pinv) Hs HD Hne Hd st RM) as S1. rewrite E in S1.
  destruct (step_positive ts data (gaussian pinv) HD Hne (C44_gaussian_regular pinv) st e W NV E) as (PG & RE).
  destruct (step_spec data (gaussian pinv) (C44_gaussian_regular pinv) Hne st W NV) as (x & Ex & ((WX & _) & _)). rewrite E in Ex. apply Ok_inj in Ex. subst x.
  destruct (likelihood_in s ts data Hs Hne e (positive_mix data Hne e WX PG)) as (L & L1 & L2).
  exists (image s ts st), (image s ts e), L. repeat split; assumption.
Qed.
Print Assumptions C277_densities.

Definition ema_start (data : list rpoint) (k : nat) (means0 : list rpoint) (variances0 : list matrix) : state :=
  {| amount := k; means := means0; variances := variances0; pic := repeat 1 k; gaussians := repeat [] k; rc := repeat (repeat 0 (length data)) k; clusters := [] |}.
(** the logarithm of the likelihood after the first step is compared with a constant of the code; the theorem is for runs in which this comparison does not end the run in one of the two units *)
Definition first_not_final (data : list rpoint) (density : rpoint -> matrix -> rpoint -> option R) (k : nat) (means0 : list rpoint) (variances0 : list matrix) (tolerance s : R) : Prop :=
  forall e L, step data density (ema_start data k means0 variances0) = Ok e -> log_likelihood data e = Some L -> tolerance < Rabs (-100000 - L) /\ tolerance < Rabs (-100000 - (L - INR (length data) * ln s)).
Theorem C277_unit (data : list rpoint) pinv s ts k means0 variances0 tolerance iterations : 0 < s -> inverse_in s pinv -> (forall p, In p data -> length p = length ts) -> (0 < length data)%nat -> (0 < k)%nat ->
  length means0 = k -> (forall m, In m means0 -> length m = length ts) -> length variances0 = k -> (forall v, In v variances0 -> norm v <> 0) -> (0 < iterations)%nat -> tolerance < 100000 ->
  (s = 1 \/ first_not_final data (gaussian pinv) k means0 variances0 tolerance s) ->
  exists r r', ema_process data (gaussian pinv) k means0 variances0 tolerance iterations = Ok r /\
    ema_process (map (in_unit s ts) data) (gaussian pinv) k (map (in_unit s ts) means0) (map (covariance_in s) variances0) tolerance iterations = Ok r' /\ em_in_unit s ts r r'.
Proof.
  intros Hs Hp HD Hne Hk Lm RM Lv NV0 Hi Ht First. assert (Hd : forall m v x, length x = length ts -> length m = length ts -> gaussian pinv (in_unit s ts m) (covariance_in s v) (in_unit s ts x) = divided s (gaussian pinv m v x)) by (intros; now apply gaussian_in).
  set (density := gaussian pinv) in *. pose proof (C44_gaussian_regular pinv) as Hreg. fold density in Hreg.
  destruct (ema_spec data density Hreg Hne k means0 variances0 tolerance iterations Hk Lm Lv NV0 Hi Ht) as (sf & Ef & _). exists (normalize data sf), (image s ts (normalize data sf)). split; [exact Ef|]. split; [|repeat split].
  unfold ema_process in Ef |- *. rewrite map_length. destruct (Nat.eqb_spec (length data) 0) as [|_]; [lia|]. destruct (Nat.eqb_spec k 0) as [|_]; [lia|].
  fold (ema_start data k means0 variances0) in Ef. set (s0 := ema_start data k means0 variances0) in *.
  replace {| amount := k; means := map (in_unit s ts) means0; variances := map (covariance_in s) variances0; pic := repeat 1 k; gaussians := repeat [] k; rc := repeat (repeat 0 (length data)) k; clusters := [] |} with (image s ts s0).
  2:{ unfold image, s0, ema_start. cbn [amount means variances pic gaussians rc clusters]. f_equal. clear. induction k; cbn [repeat map]; [reflexivity|now f_equal]. }
  destruct iterations as [|it]; [lia|]. cbn [loop orb] in Ef |- *. destruct (negb (changed tolerance (Some (-200000)) (Some (-100000)))).
  { cbn [bind] in Ef |- *. apply Ok_inj in Ef. rewrite normalize_in. now rewrite Ef. }
  assert (W : well_formed s0). { unfold well_formed, s0, ema_start. cbn [amount means variances pic]. rewrite repeat_length. repeat (split; [auto|]). intros w Hw. apply repeat_spec in Hw. subst. lra. }
  rewrite (step_in s ts data density Hs HD Hne Hd s0 RM). destruct (step_spec data density Hreg Hne s0 W NV0) as (x & Ex & X). rewrite Ex in Ef |- *. cbn [bind] in Ef |- *.
  destruct (step_positive ts data density HD Hne Hreg s0 x W NV0 Ex) as (PG & RX).
  destruct (likelihood_in s ts data Hs Hne x (positive_mix data Hne x (proj1 (proj1 X)) PG)) as (L & L1 & L2). rewrite L1 in Ef. rewrite L2, stop_in by exact Hs.
  rewrite (loop_in s ts data density Hs HD Hne Hd Hreg tolerance (INR (length data) * ln s) eq_refl it (stop_condition x) (-100000) L x (changed_shift _ _ _ _) X RX (stop_false x)).
  - destruct (loop data density tolerance it (stop_condition x) (Some (-100000)) (Some L) x) as [r|]; cbn [bind] in Ef |- *; [|discriminate]. apply Ok_inj in Ef. rewrite normalize_in. now rewrite Ef.
  - destruct First as [-> | First]; [rewrite ln_1, Rmult_0_r; unfold changed; now rewrite Rminus_0_r|]. destruct (First x L Ex L1) as (A & B). unfold changed. destruct (Rlt_dec _ _); [|contradiction]. destruct (Rlt_dec _ _); [reflexivity|contradiction].
Qed.
Print Assumptions C277_unit.

(** another origin, whatever the tolerance and the likelihood *)
Theorem C277_origin (data : list rpoint) pinv ts k means0 variances0 tolerance iterations : inverse_in 1 pinv -> (forall p, In p data -> length p = length ts) -> (0 < length data)%nat -> (0 < k)%nat ->
  length means0 = k -> (forall m, In m means0 -> length m = length ts) -> length variances0 = k -> (forall v, In v variances0 -> norm v <> 0) -> (0 < iterations)%nat -> tolerance < 100000 ->
  exists r r', ema_process data (gaussian pinv) k means0 variances0 tolerance iterations = Ok r /\
    ema_process (map (in_unit 1 ts) data) (gaussian pinv) k (map (in_unit 1 ts) means0) variances0 tolerance iterations = Ok r' /\
    clusters r' = clusters r /\ rc r' = rc r /\ means r' = map (in_unit 1 ts) (means r) /\ variances r' = variances r.
Proof.
  intros Hp HD Hne Hk Lm RM Lv NV Hi Ht.
  assert (V1 : forall v, covariance_in 1 v = v). { intro v. unfold covariance_in. rewrite (map_ext _ (fun x => x)); [apply map_id|]. intro row. rewrite (map_ext _ (fun x => x)); [apply map_id|]. intro x. ring. }
  destruct (C277_unit data pinv 1 ts k means0 variances0 tolerance iterations ltac:(lra) Hp HD Hne Hk Lm RM Lv NV Hi Ht (or_introl eq_refl)) as (r & r' & E & E' & (_ & M & V & _ & RC & CL)).
  rewrite (map_ext _ (fun v => v) V1), map_id in E', V. exists r, r'. auto 10.
Qed.
Print Assumptions C277_origin.

(** False for a unit of one coordinate: the density is divided by the root of the norm of the covariance, not of its determinant, so the responsibilities change when one coordinate is measured in another unit. *)
Definition stretch_point (c : R) (p : rpoint) : rpoint := match p with [x; y] => [x; c * y] | _ => p end.
Definition stretch_covariance (c : R) (v : matrix) : matrix := match v with [[a; b]; [d; e]] => [[a; c * b]; [c * d; c * (c * e)]] | _ => v end.
Definition two_state (v w : matrix) : state := {| amount := 2; means := [[0; 0]; [0; 0]]; variances := [v; w]; pic := [1; 1]; gaussians := []; rc := []; clusters := [] |}.
Lemma center_density pinv v : norm v <> 0 -> gaussian pinv [0; 0] v [0; 0] = Some (1 / (Rpower (PI * 2) (INR 2 / 2) * sqrt (norm v))).
Proof.
  intro N. unfold gaussian. cbn [length]. assert (P : 0 < norm v). { assert (0 <= norm v) by apply sqrt_pos. lra. } pose proof (sqrt_lt_R0 _ P) as Q0. assert (P2 : 0 < Rpower (PI * 2) (INR 2 / 2)) by apply exp_pos.
  destruct (Req_EM_T _ 0) as [E|_]; [exfalso; nra|]. f_equal. cbn [map2]. replace (0 - 0) with 0 by ring.
  assert (Z0 : quadratic (pinv v) [0; 0] = 0). { unfold quadratic. destruct (pinv v) as [|r1 [|r2 l]]; cbn [map2]; unfold rtotal; cbn [fold_right]; try ring. destruct l; cbn [map2 fold_right]; ring. }
  rewrite Z0, Rmult_0_r, exp_0. ring.
Qed.
Lemma responsibility_two pinv v w : norm v <> 0 -> norm w <> 0 -> exists e, expectation [[0; 0]] (gaussian pinv) (two_state v w) = Ok e /\ resp e 0 0 = sqrt (norm w) / (sqrt (norm v) + sqrt (norm w)).
Proof.
  intros Nv Nw. destruct (expectation_spec [[0; 0]] (gaussian pinv) (C44_gaussian_regular pinv) ltac:(cbn; lia) (two_state v w)) as (e & E & _ & _ & _ & _ & _ & _ & R).
  - unfold well_formed. cbn. repeat split; try lia. intros x [<- | [<- | []]]; lra.
  - intros x [<- | [<- | []]]; assumption.
  - exists e. split; [exact E|]. destruct (R 0%nat) as (_ & R0); [cbn; lia|]. rewrite R0 by (cbn; lia). unfold mix, dens, two_state. cbn [amount pic means variances nth seq map]. rewrite !center_density by assumption. unfold rtotal. cbn [fold_right].
    assert (A : 0 < sqrt (norm v)) by (apply sqrt_lt_R0; assert (0 <= norm v) by apply sqrt_pos; lra). assert (B : 0 < sqrt (norm w)) by (apply sqrt_lt_R0; assert (0 <= norm w) by apply sqrt_pos; lra). assert (P2 : 0 < Rpower (PI * 2) (INR 2 / 2)) by apply exp_pos.
    field. repeat split; try lra.
Qed.
Theorem C277_one_coordinate_refuted : exists v w c, 0 < c /\ forall pinv, exists e e',
  expectation [[0; 0]] (gaussian pinv) (two_state v w) = Ok e /\
  expectation (map (stretch_point c) [[0; 0]]) (gaussian pinv) (two_state (stretch_covariance c v) (stretch_covariance c w)) = Ok e' /\ resp e' 0 0 <> resp e 0 0.
Proof.
  exists [[3; 0]; [0; 4]], [[4; 0]; [0; 3]], 2. split; [lra|]. intro pinv. cbn [stretch_covariance map stretch_point]. rewrite !Rmult_0_r.
  assert (N1 : norm [[3; 0]; [0; 4]] = 5). { unfold norm, rtotal. cbn [concat app map fold_right]. replace (3 ^ 2 + (0 ^ 2 + (0 ^ 2 + (4 ^ 2 + 0)))) with (5 * 5) by ring. apply sqrt_square. lra. }
  assert (N2 : norm [[4; 0]; [0; 3]] = 5). { unfold norm, rtotal. cbn [concat app map fold_right]. replace (4 ^ 2 + (0 ^ 2 + (0 ^ 2 + (3 ^ 2 + 0)))) with (5 * 5) by ring. apply sqrt_square. lra. }
  assert (N3 : norm [[3; 0]; [0; 2 * (2 * 4)]] = sqrt 265). { unfold norm, rtotal. cbn [concat app map fold_right]. f_equal. ring. }
  assert (N4 : norm [[4; 0]; [0; 2 * (2 * 3)]] = sqrt 160). { unfold norm, rtotal. cbn [concat app map fold_right]. f_equal. ring. }
  assert (P3 : 0 < sqrt 265) by (apply sqrt_lt_R0; lra). assert (P4 : 0 < sqrt 160) by (apply sqrt_lt_R0; lra).
  destruct (responsibility_two pinv [[3; 0]; [0; 4]] [[4; 0]; [0; 3]]) as (e & E & R1); [lra|lra|].
  destruct (responsibility_two pinv [[3; 0]; [0; 2 * (2 * 4)]] [[4; 0]; [0; 2 * (2 * 3)]]) as (e' & E' & R2); [lra|lra|].
  exists e, e'. split; [exact E|]. split; [exact E'|]. rewrite R1, R2, N1, N2, N3, N4.
  assert (L : sqrt (sqrt 160) < sqrt (sqrt 265)) by (apply sqrt_lt_1; try lra; apply sqrt_lt_1; lra). assert (B : 0 < sqrt (sqrt 160)) by (now apply sqrt_lt_R0). assert (A : 0 < sqrt 5) by (apply sqrt_lt_R0; lra).
  intro H. replace (sqrt 5 / (sqrt 5 + sqrt 5)) with (/ 2) in H by (field; lra). apply (f_equal (fun x => x * (sqrt (sqrt 265) + sqrt (sqrt 160)))) in H. unfold Rdiv in H. rewrite Rmult_assoc, Rinv_l in H by lra. lra.
Qed.
Print Assumptions C277_one_coordinate_refuted.

(** a pseudo-inverse for one dimension, two points and two clusters from degrees Celsius to Fahrenheit *)
Definition pinv_1d (v : matrix) : matrix := match v with [[x]] => if Req_EM_T x 0 then [[0]] else [[/ x]] | _ => [] end.
Example C277_case : let s := 9 / 5 in let data := [[0]; [10]; [11]] in
  0 < s /\ inverse_in s pinv_1d /\ (forall p, In p data -> length p = length [32]) /\ (forall v, In v [[[1]]; [[2]]] -> norm v <> 0) /\ map (in_unit s [32]) data = [[32]; [50]; [51 + 4 / 5]] /\
  (forall v, covariance_in s [[v]] = [[81 / 25 * v]]).
Proof.
  split; [lra|]. split.
  - intros [|[|x [|y r]] [|q l]]; try reflexivity. unfold covariance_in, pinv_1d. cbn [map]. destruct (Req_EM_T x 0) as [-> | E].
    + destruct (Req_EM_T _ 0) as [_|E]; [cbn [map]; repeat f_equal; ring|exfalso; apply E; ring].
    + destruct (Req_EM_T _ 0) as [F|F]; [exfalso; nra|]. cbn [map]. repeat f_equal. rewrite Rinv_mult. reflexivity.
  - split; [intros p [<- | [<- | [<- | []]]]; reflexivity|]. split.
    + intros v [<- | [<- | []]]; unfold norm, rtotal; cbn [concat app map fold_right]; apply Rgt_not_eq, sqrt_lt_R0; lra.
    + split; [|intro v; unfold covariance_in; cbn [map]; do 2 f_equal; field]. unfold in_unit. cbn [map map2]. f_equal; [f_equal; lra|]. f_equal; [f_equal; lra|]. f_equal. f_equal. lra.
Qed.
