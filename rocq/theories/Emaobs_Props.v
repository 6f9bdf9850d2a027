(** Properties of the history of expectation-maximization and of its pictures. *)
From Coq Require Import String.
From Verif Require Import Base Canvas_Model Canvas_Proofs Canvas_Props Kmobs_Props Kmeans_Model Metric_Model Fcm_Model Fcm_Proofs Kmeans_Proofs.
From Verif Require Import Ema_Model Ema_Proofs Ema_Props Ellipse_Model Ellipse_Proofs Ellipse_Props Emaobs_Model.
From Coq Require Import Reals Lra.
Open Scope nat_scope.

Section History.
Variable data : list rpoint.
Variable density : rpoint -> matrix -> rpoint -> option R.

Lemma em_loop_same tolerance left : forall stop previous current o s,
  snd (em_loop data density tolerance left stop previous current o s) = loop data density tolerance left stop previous current s.
Proof.
  induction left as [|left IH]; intros stop previous current o s; cbn [em_loop loop]; [reflexivity|].
  destruct (stop || negb (changed tolerance previous current)); [reflexivity|]. destruct (step data density s) as [s'|e]; cbn [bind]; [apply IH|reflexivity].
Qed.

Definition em_app (a b : em_observer) : em_observer :=
  mkEm (em_means a ++ em_means b) (em_covariances a ++ em_covariances b) (em_clusters a ++ em_clusters b).
Lemma em_loop_app tolerance left : forall stop previous current a b s,
  em_loop data density tolerance left stop previous current (em_app a b) s =
  (em_app a (fst (em_loop data density tolerance left stop previous current b s)), snd (em_loop data density tolerance left stop previous current b s)).
Proof.
  induction left as [|left IH]; intros stop previous current a b s; cbn [em_loop]; [reflexivity|].
  destruct (stop || negb (changed tolerance previous current)); [reflexivity|]. destruct (step data density s) as [s'|e]; [|reflexivity].
  replace (em_notify (em_app a b) s') with (em_app a (em_notify b s')); [apply IH|]. unfold em_app, em_notify. cbn [em_means em_covariances em_clusters].
  now rewrite !app_assoc.
Qed.

Lemma em_loop_trace tolerance left : forall stop previous current o s o' s',
  em_loop data density tolerance left stop previous current o s = (o', Ok s') -> (stop = false -> nonzero_variances s) ->
  exists ss, length ss <= left /\ o' = em_app o (mkEm (map means ss) (map variances ss) (map clusters ss)) /\ last ss s = s' /\
    forall j x, nth_error ss j = Some x -> step data density (nth j (s :: ss) s) = Ok x /\ nonzero_variances (nth j (s :: ss) s).
Proof.
  induction left as [|left IH]; intros stop previous current o s o' s' H V; cbn [em_loop] in H.
  { injection H as <- <-. exists []. unfold em_app. cbn. rewrite !app_nil_r. destruct o. repeat split; auto; destruct j; discriminate. }
  destruct (stop || negb (changed tolerance previous current)) eqn:E.
  { injection H as <- <-. exists []. unfold em_app. cbn. rewrite !app_nil_r. destruct o. repeat split; auto; try lia; destruct j; discriminate. }
  apply orb_false_iff in E as (Es & _). destruct (step data density s) as [s1|e] eqn:E1; [|discriminate].
  destruct (IH _ _ _ _ _ _ _ H (stop_false s1)) as (ss & L & Ho & Hl & Hs). exists (s1 :: ss).
  split; [cbn; lia|]. split; [rewrite Ho; unfold em_app, em_notify; cbn; now rewrite <- !app_assoc|]. split.
  - rewrite <- Hl. clear. destruct ss as [|y ss]; [reflexivity|]. cbn [last]. revert y. induction ss as [|z ss IH]; intro y; [reflexivity|]. apply IH.
  - intros [|j] x Hx; cbn [nth_error] in Hx.
    + injection Hx as <-. cbn [nth]. auto.
    + destruct (Hs j x Hx) as (A & B). change (nth (S j) (s :: s1 :: ss) s) with (nth j (s1 :: ss) s). assert (Hj : j < length (s1 :: ss)) by (cbn; assert (j < length ss) by (apply nth_error_Some; congruence); lia).
      rewrite (nth_indep (s1 :: ss) s s1 Hj). auto.
Qed.

(** the clusters never become more *)
Lemma step_amount s x : step data density s = Ok x -> amount x <= amount s.
Proof.
  unfold step. destruct (expectation data density s) as [e|] eqn:E; cbn [bind]; [|discriminate]. intro H.
  assert (Ee : amount e = amount s). { unfold expectation in E. destruct (_ || _); [discriminate|]. apply Ok_inj in E. subst e. reflexivity. }
  assert (Em : amount (maximization data e) <= amount e).
  { unfold maximization. cbn [amount]. unfold possible.
    assert (G : forall (f : nat -> bool) l, length (filter f l) <= length l) by (intros f l; induction l as [|y l IH]; cbn; [lia|destruct (f y); cbn; lia]).
    rewrite <- (seq_length (amount e) 0) at 2. apply G. }
  unfold extract in H. destruct (amount (maximization data e) =? 0); [discriminate|]. apply Ok_inj in H. subst x. unfold erase_empty. cbn [clusters].
  set (cl := fold_left _ _ _). assert (Lc : length cl = amount (maximization data e)).
  { unfold cl. clear. set (f := candidates _). generalize (seq 0 (length data)). intro l. set (r := repeat _ _).
    assert (Hr : length r = amount (maximization data e)) by apply repeat_length. rewrite <- Hr. clearbody r.
    revert r Hr. induction l as [|i l IH]; intros r Hr; [reflexivity|]. cbn [fold_left].
    assert (Hp : length (push r (argmax (f i)) i) = length r) by (unfold push; apply upd_length || (rewrite upd_length; reflexivity)).
    rewrite IH; [exact Hp|]. rewrite Hp. exact Hr. }
  destruct (_ =? _); cbn [amount]; [lia|].
  assert (G : forall (f : nat -> bool) l, length (filter f l) <= length l) by (intros f l; induction l as [|y l IH]; cbn; [lia|destruct (f y); cbn; lia]).
  pose proof (G (fun c => nonempty (nth c cl [])) (seq 0 (length cl))) as G'. rewrite seq_length in G'. lia.
Qed.
End History.

Lemma result_moments data s : 0 < length data -> result_ok data s ->
  forall c, c < length (clusters s) -> moments data (nth c (means s) []) (nth c (variances s) []).
Proof.
  intros Hn (((_ & A1 & A2 & _) & A4 & A5 & A6 & A7) & _ & _ & _ & W) c Hc. rewrite A4 in Hc. destruct (W c Hc) as (W1 & W2). destruct (A7 c Hc) as (L & P).
  assert (T : rtotal (nth c (rc s) []) = sum_over (length data) (resp s c)) by (rewrite (row_total data) by auto; reflexivity).
  assert (Tp : (0 < sum_over (length data) (resp s c))%R).
  { unfold sum_over. change (fold_right Rplus R0) with rtotal. apply rtotal_pos; [apply seq_nonempty; auto|]. intros i Hi'. apply in_seq in Hi'. apply P. lia. }
  exists (resp s c). split; [exact P|]. rewrite T in W1, W2. split.
  - intros d Hdd. rewrite W1. unfold update_mean. rewrite nth_map_seq0 by (exact Hdd). apply div_times. lra.
  - intros a b Ha Hb. rewrite W2. unfold update_covariance. rewrite nth_map_seq0 by exact Ha. rewrite nth_map_seq0 by exact Hb. apply div_times. lra.
Qed.

(** A mean and a covariance matrix of the dimension of the data. *)
Definition shaped (data : list rpoint) (mean : rpoint) (covariance : matrix) : Prop :=
  let D := length (nth 0 data []) in length mean = D /\ length covariance = D /\ forall row, In row covariance -> length row = D.
Lemma result_shaped data s : result_ok data s -> forall c, c < length (clusters s) -> shaped data (nth c (means s) []) (nth c (variances s) []).
Proof.
  intros ((_ & A4 & _) & _ & _ & _ & W) c Hc. rewrite A4 in Hc. destruct (W c Hc) as (W1 & W2). unfold shaped. cbv zeta. rewrite W2. rewrite W1 at 1.
  unfold update_mean, update_covariance, width. rewrite !map_length, !seq_length. split; [reflexivity|]. split; [reflexivity|].
  intros row Hr. apply in_map_iff in Hr. destruct Hr as (a & <- & _). now rewrite map_length, seq_length.
Qed.

(** ** C209: the history *)

(** An observer changes nothing. *)
Theorem C209_same_result data density o k means0 variances0 tolerance iterations :
  snd (em_process data density o k means0 variances0 tolerance iterations) = ema_process data density k means0 variances0 tolerance iterations.
Proof.
  unfold em_process, ema_process. destruct (length data =? 0); [reflexivity|]. destruct (k =? 0); [reflexivity|].
  match goal with |- context [em_loop ?d ?f ?t ?l ?st ?p ?c ?ob ?s] =>
    pose proof (em_loop_same d f t l st p c ob s) as H; destruct (em_loop d f t l st p c ob s) as [o' [s'|e]] end;
  cbn [snd] in *; rewrite <- H; reflexivity.
Qed.
Print Assumptions C209_same_result.

(** An observer that was used before keeps its entries. *)
Theorem C209_used_again data density o k means0 variances0 tolerance iterations o' r :
  em_process data density o k means0 variances0 tolerance iterations = (o', r) ->
  exists n, em_process data density em_new k means0 variances0 tolerance iterations = (n, r) /\
    em_means o' = em_means o ++ em_means n /\ em_covariances o' = em_covariances o ++ em_covariances n /\
    em_clusters o' = em_clusters o ++ em_clusters n.
Proof.
  unfold em_process. destruct (length data =? 0).
  { intro H. injection H as <- <-. exists em_new. cbn. rewrite !app_nil_r. auto. }
  destruct (k =? 0).
  { intro H. injection H as <- <-. exists em_new. cbn. rewrite !app_nil_r. auto. }
  replace o with (em_app o em_new) at 1 by (unfold em_app; cbn; rewrite !app_nil_r; destruct o; reflexivity).
  rewrite em_loop_app. match goal with |- context [em_loop ?d ?f ?t ?l ?st ?p ?c em_new ?s] => destruct (em_loop d f t l st p c em_new s) as [n [s'|e]] end;
  cbn [fst snd]; intro H; injection H as <- <-; exists n; auto.
Qed.
Print Assumptions C209_used_again.

(** There is one entry per iteration, in each of the three lists; every entry
    is a partition of the data into clusters with points, with a mean and a
    covariance for each cluster, which are those of the data under some
    weights; the clusters never become more; the last entry is the result. *)
Theorem C209_history data density k means0 variances0 tolerance iterations : regular density -> 0 < length data -> 0 < k ->
  length means0 = k -> length variances0 = k -> (forall v, In v variances0 -> norm v <> 0%R) -> 0 < iterations -> (tolerance < 100000)%R ->
  exists o r, em_process data density em_new k means0 variances0 tolerance iterations = (o, Ok r) /\
    1 <= em_len o <= iterations /\ length (em_covariances o) = em_len o /\ length (em_clusters o) = em_len o /\
    (forall j, j < em_len o -> exists ms cs cls,
       nth_error (em_means o) j = Some ms /\ nth_error (em_covariances o) j = Some cs /\ nth_error (em_clusters o) j = Some cls /\
       length ms = length cls /\ length cs = length cls /\ length cls <= k /\ partitions (length data) cls /\ no_empty cls /\
       forall c, c < length cls -> shaped data (nth c ms []) (nth c cs []) /\ moments data (nth c ms []) (nth c cs [])) /\
    (forall j cls cls', nth_error (em_clusters o) j = Some cls -> nth_error (em_clusters o) (S j) = Some cls' -> length cls' <= length cls) /\
    nth_error (em_means o) (em_len o - 1) = Some (means r) /\ nth_error (em_covariances o) (em_len o - 1) = Some (variances r) /\
    nth_error (em_clusters o) (em_len o - 1) = Some (clusters r).
Proof.
  intros Hd Hn Hk Lm Lv V Hi Ht. destruct (ema_spec data density Hd Hn k means0 variances0 tolerance iterations Hk Lm Lv V Hi Ht) as (s & E & S).
  pose proof (C209_same_result data density em_new k means0 variances0 tolerance iterations) as Hr. rewrite E in Hr. clear E S.
  assert (G : exists o s', em_process data density em_new k means0 variances0 tolerance iterations = (o, Ok (normalize data s')) /\
     exists ss, ss <> [] /\ length ss <= iterations /\ o = mkEm (map means ss) (map variances ss) (map clusters ss) /\ last ss s' = s' /\
       forall j x, nth_error ss j = Some x -> result_ok data x /\ amount x <= k /\ forall y, nth_error ss (Datatypes.S j) = Some y -> amount y <= amount x).
  { unfold em_process in *. destruct (Nat.eqb_spec (length data) 0); [lia|]. destruct (Nat.eqb_spec k 0); [lia|]. set (s0 := {| amount := k |}) in *.
    destruct (em_loop data density tolerance iterations false (Some (-200000)%R) (Some (-100000)%R) em_new s0) as [o [s'|e]] eqn:El; [|discriminate].
    exists o, s'. split; [reflexivity|]. pose proof El as El'. apply em_loop_trace in El; [|intros _; exact V]. destruct El as (ss & L & Eo & Hl & Hs).
    assert (W : well_formed s0).
    { unfold well_formed, s0. cbn [amount means variances pic]. rewrite repeat_length. repeat (split; [auto|]). intros w Hw. apply repeat_spec in Hw. subst. lra. }
    assert (R : forall j x, nth_error ss j = Some x -> result_ok data x /\ amount x <= k).
    { induction j as [|j IH]; intros x Hx; destruct (Hs _ _ Hx) as (A & B); pose proof (step_amount _ _ _ _ A) as Am.
      - cbn [nth] in *. destruct (step_spec data density Hd Hn s0 W V) as (x' & Ex & X). rewrite A in Ex. apply Ok_inj in Ex. subst x'. split; [exact X|exact Am].
      - change (nth (Datatypes.S j) (s0 :: ss) s0) with (nth j ss s0) in *.
        assert (Hj : j < length ss) by (assert (Datatypes.S j < length ss) by (apply nth_error_Some; congruence); lia).
        destruct (IH (nth j ss s0) (nth_error_lt _ _ _ Hj)) as (((W' & _) & _) & Ak).
        destruct (step_spec data density Hd Hn _ W' B) as (x' & Ex & X). rewrite A in Ex. apply Ok_inj in Ex. subst x'. split; [exact X|lia]. }
    assert (Hne : ss <> []).
    { intros ->. cbn in Hl. subst s'. destruct iterations as [|it]; [lia|]. cbn [em_loop orb] in El'. unfold changed in El' at 1.
      replace (-200000 - -100000)%R with (- (100000))%R in El' by ring. rewrite Rabs_Ropp, (Rabs_pos_eq 100000) in El' by lra.
      destruct (Rlt_dec tolerance 100000) as [_|]; [|lra]. cbn [negb] in El'.
      destruct (step_spec data density Hd Hn s0 W V) as (x & Ex & _). rewrite Ex in El'.
      assert (Hw : forall t l st p c o1 s1, 1 <= em_len o1 -> 1 <= em_len (fst (em_loop data density t l st p c o1 s1))).
      { intros t l. induction l as [|l IH]; intros st p c o1 s1 H1; cbn [em_loop fst]; [exact H1|].
        destruct (_ || _); [exact H1|]. destruct (step data density s1); [|exact H1]. apply IH. unfold em_len, em_notify. cbn [em_means]. rewrite app_length. cbn. lia. }
      pose proof (Hw tolerance it (stop_condition x) (Some (-100000)%R) (log_likelihood data x) (em_notify em_new x) x) as Hw1.
      rewrite El' in Hw1. cbn [fst] in Hw1. rewrite Eo in Hw1. cbn in Hw1. specialize (Hw1 ltac:(lia)). lia. }
    exists ss. split; [exact Hne|]. split; [exact L|]. split; [rewrite Eo; reflexivity|]. split.
    { destruct ss as [|y t]; [congruence|]. rewrite <- Hl at 2. clear. revert y. induction t as [|z t IH]; intro y; [reflexivity|]. apply IH. }
    intros j x Hx. destruct (R j x Hx) as (R1 & R2). split; [exact R1|]. split; [exact R2|]. intros y Hy.
    destruct (Hs _ _ Hy) as (A & _). apply step_amount in A. change (nth (Datatypes.S j) (s0 :: ss) s0) with (nth j ss s0) in A.
    rewrite (nth_error_nth _ _ s0 Hx) in A. exact A. }
  destruct G as (o & s' & Ho & ss & Hne & L & -> & Hl & Hs). eexists. exists (normalize data s'). split; [exact Ho|]. unfold em_len. cbn [em_means em_covariances em_clusters]. rewrite !map_length.
  assert (Hpos : 1 <= length ss) by (destruct ss; [congruence|cbn; lia]).
  assert (Hlast : nth_error ss (length ss - 1) = Some s').
  { rewrite <- Hl. clear - Hne. destruct (exists_last Hne) as (t & y & ->). rewrite last_last, app_length. cbn [length]. rewrite nth_error_app2 by lia.
    replace (length t + 1 - 1 - length t) with 0 by lia. reflexivity. }
  split; [lia|]. split; [reflexivity|]. split; [reflexivity|]. split; [|split].
  - intros j Hj. pose proof (nth_error_lt ss j s' Hj) as Ej. destruct (Hs _ _ Ej) as (X & Ak & _). exists (means (nth j ss s')), (variances (nth j ss s')), (clusters (nth j ss s')).
    rewrite !(map_nth_error _ _ _ Ej). repeat (split; [reflexivity|]). pose proof (result_moments data _ Hn X) as M. pose proof (result_shaped data _ X) as Sh.
    destruct X as (((_ & A1 & A2 & _) & A4 & _) & P & NE & _). split; [rewrite A4; exact A1|]. split; [rewrite A4; exact A2|]. split; [rewrite A4; exact Ak|]. split; [exact P|]. split; [exact NE|]. intros c Hc. split; [apply Sh|apply M]; exact Hc.
  - intros j cls cls' H1 H2. destruct (nth_error ss j) as [x|] eqn:E1; [|rewrite nth_error_map, E1 in H1; discriminate].
    destruct (nth_error ss (Datatypes.S j)) as [y|] eqn:E2; [|rewrite nth_error_map, E2 in H2; discriminate].
    rewrite (map_nth_error _ _ _ E1) in H1. rewrite (map_nth_error _ _ _ E2) in H2. injection H1 as <-. injection H2 as <-.
    destruct (Hs _ _ E1) as (((_ & A & _) & _) & _ & D). destruct (Hs _ _ E2) as (((_ & B & _) & _) & _). rewrite A, B. apply D. first [reflexivity | exact E2].
  - rewrite !(map_nth_error _ _ _ Hlast). repeat split; reflexivity.
Qed.
Print Assumptions C209_history.

(** Two points on a line and two components; every density that is positive. *)
Example C209_example : exists o r cls, em_process [[0]; [1]]%R cauchy em_new 2 [[0]; [1]]%R [[[1]]; [[1]]]%R 0%R 3 = (o, Ok r) /\
  1 <= em_len o <= 3 /\ nth_error (em_clusters o) 0 = Some cls /\ partitions 2 cls.
Proof.
  destruct C44_start_example as (_ & V).
  destruct (C209_history [[0]; [1]]%R cauchy 2 [[0]; [1]]%R [[[1]]; [[1]]]%R 0%R 3 C44_regular_example) as (o & r & E & L & _ & _ & H & _);
    try reflexivity; try (cbn; lia); try lra; [exact V|].
  destruct (H 0 ltac:(lia)) as (ms & cs & cls & _ & _ & E3 & _ & _ & _ & P & _). exists o, r, cls. auto.
Qed.

(** ** C210: the pictures *)

(** The covariance matrix [m] is that of [c], and eigh finds its eigenvectors. *)
Definition covariance_of (eigh : matrix -> eigh2) (m : matrix) (c : cov2) : Prop :=
  m = [[cxx c; cxy c]; [cxy c; cyy c]] /\ eigh_of c (eigh m) /\ forall v, unit_vector v -> (0 <= Ellipse_Proofs.variance c v)%R.

(** An ellipse of [c] around (x, y): the axes are four times the largest and
    the smallest deviation, the long one lies in the direction of the largest
    variance. *)
Definition good_ellipse (c : cov2) (x y : R) (color : string) (p : patch) : Prop :=
  exists w h a, p = Patch x y w h a color /\ (0 < h <= w)%R /\ largest_variance c ((w / 4) ^ 2)%R /\ smallest_variance c ((h / 4) ^ 2)%R /\
    largest_variance c (Ellipse_Proofs.variance c (direction a)).

Lemma ellipse_good eigh m c x y color : covariance_of eigh m c ->
  let '(angle, width, height) := ellipse_description (eigh m) 2 in
  (spread c -> exists p, draw_ellipse x y angle width height color = [p] /\ good_ellipse c x y color p) /\
  (~ spread c -> draw_ellipse x y angle width height color = []).
Proof.
  intros (_ & He & Hpsd). destruct (ellipse_description (eigh m) 2) as [[angle w] h] eqn:E. split.
  - intro Hs. destruct (C178_axes c (eigh m) 2 He Hs) as (a & lo & hi & E1 & Hhi & Hlo). rewrite E in E1. injection E1 as <- Ew Eh.
    assert (Plo : (0 < lo)%R) by (destruct Hlo as ((v & Hv & <-) & _); apply Hs; exact Hv).
    assert (Hle : (lo <= hi)%R) by (destruct Hlo as ((v & Hv & <-) & _); destruct Hhi as (_ & Hb); apply Hb; exact Hv).
    pose proof (sqrt_lt_R0 lo Plo) as Slo. pose proof (sqrt_le_1 lo hi ltac:(lra) ltac:(lra) Hle) as Sle.
    unfold draw_ellipse. subst w h. destruct (Rlt_dec 0 (2 * 2 * sqrt hi)); [|lra]. destruct (Rlt_dec 0 (2 * 2 * sqrt lo)); [|lra].
    eexists. split; [reflexivity|]. eexists _, _, _. split; [reflexivity|]. split; [lra|].
    replace ((2 * 2 * sqrt hi / 4) ^ 2)%R with hi by (replace (2 * 2 * sqrt hi / 4)%R with (sqrt hi) by field; cbn [pow]; rewrite Rmult_1_r, sqrt_sqrt; lra).
    replace ((2 * 2 * sqrt lo / 4) ^ 2)%R with lo by (replace (2 * 2 * sqrt lo / 4)%R with (sqrt lo) by field; cbn [pow]; rewrite Rmult_1_r, sqrt_sqrt; lra).
    split; [exact Hhi|]. split; [exact Hlo|]. pose proof (C179_mirrored c (eigh m) 2 He Hs) as M. rewrite E in M. apply M.
  - intro Hn. assert (Hz : exists v, unit_vector v /\ Ellipse_Proofs.variance c v = 0%R).
    { destruct (shape c (eigh m) He) as (l0 & l1 & a & b & a' & b' & _ & _ & U & _ & _ & V0 & _ & B & _). exists (a, b). split; [exact U|].
      destruct (Rtotal_order l0 0) as [H|[H|H]]; [pose proof (Hpsd (a, b) U); lra|lra|].
      exfalso. apply Hn. intros v Hv. specialize (B v Hv). lra. }
    pose proof (C178_flat c (eigh m) 2 He Hpsd Hz) as F. rewrite E in F. injection F as -> -> ->. unfold draw_ellipse.
    destruct (Rlt_dec 0 0); [lra|reflexivity].
Qed.

Lemma draw_ellipses_ok eigh v (covs : list matrix) (ms : list rpoint) (cov : nat -> cov2) n :
  (forall k, k < n -> get_cluster_color v k 0 = Ok (get_color k)) -> length covs = n -> length ms = n ->
  (forall m, In m ms -> length m = 2) -> (forall k, k < n -> covariance_of eigh (nth k covs []) (cov k)) ->
  forall left index, index + left = n -> exists f,
    draw_ellipses eigh v index left covs ms = Ok (flat_map f (seq index left)) /\
    forall k, index <= k < n ->
      (spread (cov k) -> exists p, f k = [p] /\ good_ellipse (cov k) (nth 0 (nth k ms []) 0%R) (nth 1 (nth k ms []) 0%R) (get_color k) p) /\
      (~ spread (cov k) -> f k = []).
Proof.
  intros Hc L1 L2 H2 Hcov. induction left as [|left IH]; intros index Hn.
  { exists (fun _ => []). split; [reflexivity|]. intros k Hk. lia. }
  destruct (IH (S index) ltac:(lia)) as (f & Ef & Hf). cbn [draw_ellipses]. rewrite (nth_error_lt covs index []) by lia.
  pose proof (ellipse_good eigh (nth index covs []) (cov index) (nth 0 (nth index ms []) 0%R) (nth 1 (nth index ms []) 0%R) (get_color index) (Hcov index ltac:(lia))) as G.
  destruct (ellipse_description (eigh (nth index covs [])) 2) as [[angle w] h]. rewrite Hc by lia. cbn [bind].
  rewrite (nth_error_lt ms index []) by lia. assert (Lm : length (nth index ms []) = 2) by (apply H2, nth_In; lia).
  destruct (nth index ms []) as [|x [|y [|z t]]] eqn:Em; try discriminate. rewrite Ef. cbn [bind].
  cbn [nth] in G. exists (fun k => if k =? index then draw_ellipse x y angle w h (get_color index) else f k). split.
  - apply (f_equal Ok). cbn [seq flat_map]. rewrite Nat.eqb_refl. apply (f_equal (app _)). apply flat_map_ext'. intros k Hk. apply in_seq in Hk.
    destruct (Nat.eqb_spec k index); [lia|reflexivity].
  - intros k Hk. destruct (Nat.eqb_spec k index) as [->|Hne]; [rewrite Em; exact G|]. apply Hf. lia.
Qed.

(** Points of the plane: the points in the colours of their clusters, and for
    each cluster whose covariance is not flat a good ellipse around its mean in
    the colour of the cluster. *)
Theorem C210_shown eigh sample cls (covs : list matrix) (ms : list rpoint) (cov : nat -> cov2) :
  sample <> [] -> uniform 2 sample -> cls <> [] -> no_empty cls -> Forall (Forall (fun i => i < length sample)) cls ->
  length covs = length cls -> length ms = length cls -> (forall m, In m ms -> length m = 2) ->
  (forall k, k < length cls -> covariance_of eigh (nth k covs []) (cov k)) ->
  exists f, em_show eigh cls sample covs ms =
    Ok ([mkAxes 0 false (flat_map (fun k => map (fun i => mark_of 2 (colour k None) "." (Some 5%Q) (nth i sample [])) (nth k cls [])) (seq 0 (length cls))) None],
        flat_map f (seq 0 (length cls))) /\
    forall k, k < length cls ->
      (spread (cov k) -> exists p, f k = [p] /\ good_ellipse (cov k) (nth 0 (nth k ms []) 0%R) (nth 1 (nth k ms []) 0%R) (colour k None) p) /\
      (~ spread (cov k) -> f k = []).
Proof.
  intros Hs Hu Hne Hn Hin L1 L2 H2 Hcov. unfold em_show.
  assert (Hdim : dimension sample = 2) by (destruct sample as [|p0 t]; [congruence|]; cbn; apply Hu; now left).
  destruct (calls_run sample 2 Hs Hdim ltac:(lia) cls [] None (or_introl eq_refl)) as [v Hr].
  change (mkVis 1 1 [[]] [None] [None]) with (vis_init 1 1 None) in Hr.
  assert (Ha : append_clusters (vis_init 1 1 None) (map (fun c => Indexes c sample) cls) 0 "." None = (v, Ok tt)).
  { apply C185_append_clusters. rewrite map_map. exact Hr. }
  rewrite Ha. pose proof (no_empty_filter cls Hn) as Ef.
  destruct (picture_shows sample cls 2 v Hs Hu ltac:(lia) ltac:(rewrite Ef; exact Hne) Hin Hr) as [grid Hp].
  rewrite Ef in Hp. rewrite Hp. cbn [bind snd].
  assert (Hc : forall k, k < length cls -> get_cluster_color v k 0 = Ok (get_color k)).
  { intros k Hk. rewrite (calls_colours sample cls v k Hr), Ef. destruct (Nat.ltb_spec k (length cls)); [reflexivity|lia]. }
  destruct (draw_ellipses_ok eigh v covs ms cov (length cls) Hc L1 L2 H2 Hcov (length cls) 0 eq_refl) as (f & E & Hf).
  exists f. split; [|intros k Hk; apply Hf; lia].
  destruct sample as [|p0 t] eqn:Es; [congruence|]. rewrite <- Es in *. cbn in Hdim. rewrite Es in Hdim. cbn in Hdim. rewrite Hdim. cbn [Nat.eqb]. rewrite E. reflexivity.
Qed.
Print Assumptions C210_shown.

(** Data of dimension 1 or 3: the points alone. *)
Theorem C210_points_only eigh sample cls (covs : list matrix) (ms : list rpoint) d :
  sample <> [] -> uniform d sample -> d = 1 \/ d = 3 -> cls <> [] -> no_empty cls -> Forall (Forall (fun i => i < length sample)) cls ->
  em_show eigh cls sample covs ms =
    Ok ([mkAxes 0 (d =? 3) (flat_map (fun k => map (fun i => mark_of d (colour k None) "." (Some (if d =? 3 then 30%Q else 5%Q)) (nth i sample [])) (nth k cls [])) (seq 0 (length cls))) None], []).
Proof.
  intros Hs Hu Hd Hne Hn Hin. unfold em_show.
  assert (Hdim : dimension sample = d) by (destruct sample as [|p0 t]; [congruence|]; cbn; apply Hu; now left).
  destruct (calls_run sample d Hs Hdim ltac:(lia) cls [] None (or_introl eq_refl)) as [v Hr].
  change (mkVis 1 1 [[]] [None] [None]) with (vis_init 1 1 None) in Hr.
  assert (Ha : append_clusters (vis_init 1 1 None) (map (fun c => Indexes c sample) cls) 0 "." None = (v, Ok tt)).
  { apply C185_append_clusters. rewrite map_map. exact Hr. }
  rewrite Ha. pose proof (no_empty_filter cls Hn) as Ef.
  destruct (picture_shows sample cls d v Hs Hu ltac:(lia) ltac:(rewrite Ef; exact Hne) Hin Hr) as [grid Hp].
  rewrite Ef in Hp. rewrite Hp. cbn [bind snd].
  destruct sample as [|p0 t] eqn:Es; [congruence|]. cbn in Hdim. rewrite Hdim. destruct Hd as [->| ->]; reflexivity.
Qed.
Print Assumptions C210_points_only.

(** Every frame of the history of points of the plane can be drawn. *)
Theorem C210_frames eigh (sample : list point) density k means0 variances0 tolerance iterations o r :
  regular density -> sample <> [] -> uniform 2 sample -> 0 < k ->
  length means0 = k -> length variances0 = k -> (forall v, In v variances0 -> norm v <> 0%R) -> 0 < iterations -> (tolerance < 100000)%R ->
  (forall c, eigh_of c (eigh [[cxx c; cxy c]; [cxy c; cyy c]])) ->
  em_process (map (map Q2R) sample) density em_new k means0 variances0 tolerance iterations = (o, Ok r) ->
  forall j, j < em_len o -> exists cls ms cs f, nth_error (em_clusters o) j = Some cls /\ nth_error (em_means o) j = Some ms /\
    nth_error (em_covariances o) j = Some cs /\
    em_frame eigh sample o j =
    Ok ([mkAxes 0 false (flat_map (fun k => map (fun i => mark_of 2 (colour k None) "." (Some 5%Q) (nth i sample [])) (nth k cls [])) (seq 0 (length cls))) None],
        flat_map f (seq 0 (length cls))) /\
    forall g, g < length cls -> f g = [] \/ exists c p, nth g cs [] = [[cxx c; cxy c]; [cxy c; cyy c]] /\
      f g = [p] /\ good_ellipse c (nth 0 (nth g ms []) 0%R) (nth 1 (nth g ms []) 0%R) (colour g None) p.
Proof.
  intros Hd Hs Hu Hk Lm Lv V Hi Ht He Ho j Hj. set (data := map (map Q2R) sample) in *.
  assert (Hn : 0 < length data) by (unfold data; rewrite map_length; destruct sample; [congruence|cbn; lia]).
  assert (Hw : length (nth 0 data []) = 2).
  { unfold data. destruct sample as [|p0 t]; [congruence|]. cbn. rewrite map_length. apply Hu. now left. }
  destruct (C209_history data density k means0 variances0 tolerance iterations Hd Hn Hk Lm Lv V Hi Ht) as (o' & r' & Ho' & _ & _ & _ & H & _).
  rewrite Ho in Ho'. injection Ho' as <- <-. destruct (H j Hj) as (ms & cs & cls & E1 & E2 & E3 & L1 & L2 & _ & P & NE & M). clear H.
  set (cov := fun k => mkCov (nth 0 (nth 0 (nth k cs []) []) 0%R) (nth 1 (nth 0 (nth k cs []) []) 0%R) (nth 1 (nth 1 (nth k cs []) []) 0%R)).
  assert (Hcov : forall k, k < length cls -> covariance_of eigh (nth k cs []) (cov k)).
  { intros g Hg. destruct (M g Hg) as (Sh & Mo). unfold shaped in Sh. cbv zeta in Sh. unfold rpoint in *. rewrite Hw in Sh. destruct Sh as (_ & S1 & S2). unfold covariance_of.
    destruct (C101_box_and_definite data _ _ Hn Mo) as (_ & Sym & Psd). unfold rpoint in *. rewrite Hw in Sym, Psd. specialize (Sym 0 1 ltac:(lia) ltac:(lia)).
    assert (Em : nth g cs [] = [[cxx (cov g); cxy (cov g)]; [cxy (cov g); cyy (cov g)]]).
    { unfold cov. cbn [cxx cxy cyy]. destruct (nth g cs []) as [|a [|b [|z t]]]; try discriminate. cbn [nth] in Sym |- *.
      assert (La : length a = 2) by (apply S2; now left). assert (Lb : length b = 2) by (apply S2; right; now left).
      destruct a as [|a0 [|a1 [|z t]]]; try discriminate. destruct b as [|b0 [|b1 [|z t]]]; try discriminate. cbn [nth] in *. now rewrite Sym. }
    split; [exact Em|]. split; [rewrite Em; apply He|]. intros v _. specialize (Psd (fun a => if a =? 0 then fst v else snd v)). rewrite Em in Psd.
    unfold sum_over in Psd. cbn [seq map fold_right nth Nat.eqb] in Psd. unfold Ellipse_Proofs.variance. cbn [fst snd] in *. lra. }
  assert (Hcls : cls <> []).
  { intros ->. apply Permutation_length in P. rewrite seq_length in P. cbn [concat length] in P. unfold rpoint in *. lia. }
  destruct (C210_shown eigh sample cls cs ms cov Hs Hu Hcls NE) as (f & Ef & Hf); auto.
  { apply partition_in. unfold data in P. rewrite map_length in P. exact P. }
  { intros m Hm. apply (In_nth _ _ []) in Hm. destruct Hm as (g & Hg & <-). assert (Hg' : g < length cls) by (rewrite <- L1; exact Hg). destruct (M g Hg') as (Sh & _). unfold shaped in Sh. cbv zeta in Sh. unfold rpoint in *. rewrite Hw in Sh. exact (proj1 Sh). }
  exists cls, ms, cs, f. split; [exact E3|]. split; [exact E1|]. split; [exact E2|]. split.
  - unfold em_frame. rewrite E1, E2, E3. exact Ef.
  - intros g Hg. destruct (Hf g Hg) as (F1 & F2). destruct (Classical_Prop.classic (spread (cov g))) as [Hsp|Hsp]; [right|left; auto].
    destruct (F1 Hsp) as (p & E & G). exists (cov g), p. split; [apply (Hcov g Hg)|]. auto.
Qed.
Print Assumptions C210_frames.

(** Eigenvectors of every symmetric 2x2 matrix. *)
Definition eigh_exact (c : cov2) : eigh2 :=
  let m := ((cxx c + cyy c) / 2)%R in
  let d := ((cxx c - cyy c) / 2)%R in
  let s := sqrt (d * d + cxy c * cxy c) in
  if Req_EM_T s 0 then mkEigh [m; m] [[1; 0]; [0; 1]]%R
  else
    let u := sqrt ((s + d) / (2 * s)) in
    let w := sqrt ((s - d) / (2 * s)) in
    let w' := if Rle_dec 0 (cxy c) then w else (- w)%R in
    mkEigh [(m - s)%R; (m + s)%R] [[(- w')%R; u]; [u; w']].
Local Open Scope R_scope.
Lemma eigh_exact_ok c : eigh_of c (eigh_exact c).
Proof.
  unfold eigh_exact. destruct c as [p q r]. cbn [cxx cxy cyy]. set (m := (p + r) / 2). set (d := (p - r) / 2).
  assert (Hp : p = m + d) by (unfold m, d; field). assert (Hr : r = m - d) by (unfold m, d; field). clearbody m d. subst p r.
  pose proof (Rle_0_sqr d) as Q1. pose proof (Rle_0_sqr q) as Q2. unfold Rsqr in *.
  set (s := sqrt (d * d + q * q)). assert (Hs : s * s = d * d + q * q) by (apply sqrt_sqrt; lra). assert (S0 : 0 <= s) by apply sqrt_pos. clearbody s.
  destruct (Req_EM_T s 0) as [Hz|Hz].
  - rewrite Hz, Rmult_0_r in Hs. assert (d * d = 0) by lra. assert (q * q = 0) by lra. apply Rsqr_0_uniq in H. apply Rsqr_0_uniq in H0. subst d q.
    exists m, m, 1, 0, 0, 1. cbn [cxx cxy cyy]. repeat split; lra.
  - assert (Sp : 0 < s) by lra.
    assert (B1 : 0 <= s - d) by nra. assert (B2 : 0 <= s + d) by nra.
    set (u := sqrt ((s + d) / (2 * s))). set (w := sqrt ((s - d) / (2 * s))).
    assert (Hi : 0 < / (2 * s)) by (apply Rinv_0_lt_compat; lra).
    assert (Hu : u * u * (2 * s) = s + d) by (unfold u; rewrite sqrt_sqrt; [field; lra|unfold Rdiv; nra]).
    assert (Hw : w * w * (2 * s) = s - d) by (unfold w; rewrite sqrt_sqrt; [field; lra|unfold Rdiv; nra]).
    assert (U0 : 0 <= u) by apply sqrt_pos. assert (W0 : 0 <= w) by apply sqrt_pos. clearbody u w.
    assert (Huw : u * w * (2 * s) = Rabs q).
    { apply Rsqr_inj; [|apply Rabs_pos|]; [assert (0 <= u * w) by nra; nra|]. rewrite <- Rsqr_abs. unfold Rsqr.
      transitivity ((u * u * (2 * s)) * (w * w * (2 * s))); [ring|]. rewrite Hu, Hw. lra. }
    set (w' := if Rle_dec 0 q then w else - w).
    assert (Hw' : w' * w' * (2 * s) = s - d) by (unfold w'; destruct (Rle_dec 0 q); lra).
    assert (Huw' : u * w' * (2 * s) = q).
    { unfold w'. destruct (Rle_dec 0 q) as [H|H]; [rewrite Rabs_pos_eq in Huw by lra; exact Huw|]. rewrite Rabs_left in Huw by lra. lra. }
    clearbody w'. assert (N1 : u * u + w' * w' = 1) by (apply (Rmult_eq_reg_r (2 * s)); lra).
    exists (m - s), (m + s), (- w'), u, u, w'. cbn [cxx cxy cyy]. split; [reflexivity|]. split; [lra|]. split; [lra|]. split; [lra|]. split; [ring|].
    assert (d = s * (u * u - w' * w')) by lra. assert (q = 2 * s * (u * w')) by lra. subst d.
    assert (K : s * (u * u - w' * w') - s = - 2 * s * (w' * w')) by (replace s with (s * (u * u + w' * w')) at 2 by (rewrite N1; ring); ring).
    assert (K' : s * (u * u - w' * w') + s = 2 * s * (u * u)) by (replace s with (s * (u * u + w' * w')) at 2 by (rewrite N1; ring); ring).
    repeat split.
    + apply Rminus_diag_uniq. transitivity (q * u - w' * (s * (u * u - w' * w') + s)); [ring|]. rewrite K', H0. ring.
    + apply Rminus_diag_uniq. transitivity (- (q * w') - u * (s * (u * u - w' * w') - s)); [ring|]. rewrite K, H0. ring.
    + apply Rminus_diag_uniq. transitivity (q * w' + u * (s * (u * u - w' * w') - s)); [ring|]. rewrite K, H0. ring.
    + apply Rminus_diag_uniq. transitivity (q * u - w' * (s * (u * u - w' * w') + s)); [ring|]. rewrite K', H0. ring.
Qed.
(** so there is a function as asked for by C210_frames *)
Definition eigh_matrix (m : matrix) : eigh2 := eigh_exact (mkCov (nth 0 (nth 0 m []) 0) (nth 1 (nth 0 m []) 0) (nth 1 (nth 1 m []) 0)).
Example C210_eigh_example c : eigh_of c (eigh_matrix [[cxx c; cxy c]; [cxy c; cyy c]]).
Proof. unfold eigh_matrix. cbn [nth]. destruct c. apply eigh_exact_ok. Qed.
Local Open Scope nat_scope.

(** Two clusters of points of the plane, with an ellipse and without. *)
Definition em_sample : list point := [[0; 0]; [2; 2]; [3; 1]; [9; 9]]%Q.
Example C210_example : exists p,
  em_show eigh_matrix [[0; 1; 2]; [3]] em_sample [[[2; 1]; [1; 2]]; [[0; 0]; [0; 0]]]%R [[1; 1]; [9; 9]]%R =
  Ok ([mkAxes 0 false (map (fun i => mark_of 2 "red" "." (Some 5%Q) (nth i em_sample [])) [0; 1; 2] ++ [mark_of 2 "blue" "." (Some 5%Q) [9; 9]%Q]) None], [p]) /\
  good_ellipse cov_ex 1 1 "red" p.
Proof.
  destruct (C210_shown eigh_matrix em_sample [[0; 1; 2]; [3]] [[[2; 1]; [1; 2]]; [[0; 0]; [0; 0]]]%R [[1; 1]; [9; 9]]%R
    (fun k => if k =? 0 then cov_ex else mkCov 0 0 0)) as (f & E & H); try discriminate; try reflexivity.
  - intros p Hp. repeat (destruct Hp as [<-|Hp]; [reflexivity|]). destruct Hp.
  - repeat constructor; discriminate.
  - repeat constructor.
  - intros m Hm. repeat (destruct Hm as [<-|Hm]; [reflexivity|]). destruct Hm.
  - intros [|[|k]] Hk; [| |cbn in Hk; lia]; cbn [nth Nat.eqb]; (split; [reflexivity|]).
    1: split; [exact (C210_eigh_example cov_ex)|]. 2: split; [exact (C210_eigh_example (mkCov 0 0 0))|]. all: intros v Hv.
    + left. apply spread_ex. exact Hv.
    + unfold Ellipse_Proofs.variance. cbn. lra.
  - destruct (H 0 ltac:(cbn; lia)) as (F & _). destruct (F spread_ex) as (p & Ep & Gp). cbn [nth] in Gp.
    destruct (H 1 ltac:(cbn; lia)) as (_ & F1). exists p. split; [|exact Gp]. rewrite E. cbn [length seq flat_map]. rewrite Ep, F1; [reflexivity|].
    cbn [Nat.eqb]. intro Hsp. specialize (Hsp (1, 0)%R). unfold unit_vector, Ellipse_Proofs.variance in Hsp. cbn in Hsp. lra.
Qed.
