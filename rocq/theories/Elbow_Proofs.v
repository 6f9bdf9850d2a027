(** Elbow method: specification and proofs. *)
From Verif Require Import Base Kmeans_Model Elbow_Model.
From Coq Require Import Reals Qreals Lra.
Local Open Scope nat_scope.

(** * Specification *)
(** [d] is the distance from (x, y) to the line through (x0, y0) and (x1, y1): the length of the perpendicular,
    whose foot is the point of the line at parameter t *)
Definition line_distance (x0 y0 x1 y1 x y d : R) : Prop := exists t : R,
  let fx := (x0 + t * (x1 - x0))%R in let fy := (y0 + t * (y1 - y0))%R in
  ((x - fx) * (x1 - x0) + (y - fy) * (y1 - y0) = 0 /\ 0 <= d /\ d * d = (x - fx) * (x - fx) + (y - fy) * (y - fy))%R.

Lemma elbow_length_spec x0 y0 x1 y1 x y : (x0 < x1)%R -> line_distance x0 y0 x1 y1 x y (elbow_length x0 y0 x1 y1 x y).
Proof.
  intros H. set (u := (x1 - x0)%R). set (v := (y1 - y0)%R). set (N := (u * u + v * v)%R).
  assert (HN : (0 < N)%R) by (unfold N, u; nra). exists (((x - x0) * u + (y - y0) * v) / N)%R. cbv zeta. fold u v.
  set (t := (((x - x0) * u + (y - y0) * v) / N)%R). assert (Et : (t * N = (x - x0) * u + (y - y0) * v)%R) by (unfold t; field; lra).
  split; [unfold N in Et; nra|]. unfold elbow_length. fold u. replace ((u ^ 2 + (y1 - y0) ^ 2)%R) with N by (unfold N, v; ring).
  assert (Hs : (0 < sqrt N)%R) by (apply sqrt_lt_R0; auto). split; [apply Rmult_le_pos; [apply Rabs_pos|left; apply Rinv_0_lt_compat; auto]|].
  set (c := ((y0 - y1) * x + u * y + (x0 * y1 - x1 * y0))%R). assert (Ec : c = ((y - y0) * u - (x - x0) * v)%R) by (unfold c, u, v; ring).
  replace (Rabs c / sqrt N * (Rabs c / sqrt N))%R with (Rabs c * Rabs c / (sqrt N * sqrt N))%R by (field; lra). rewrite sqrt_sqrt by lra. rewrite <- Rabs_mult, Rabs_right by nra.
  apply (Rmult_eq_reg_r (N * N)); [|nra]. replace (c * c / N * (N * N))%R with (c * c * N)%R by (field; lra).
  replace (((x - (x0 + t * u)) * (x - (x0 + t * u)) + (y - (y0 + t * v)) * (y - (y0 + t * v))) * (N * N))%R with (((x - x0) * N - (t * N) * u) * ((x - x0) * N - (t * N) * u) + ((y - y0) * N - (t * N) * v) * ((y - y0) * N - (t * N) * v))%R by ring.
  rewrite Et, Ec. unfold N. ring.
Qed.
Lemma line_distance_fun x0 y0 x1 y1 x y d d' : (x0 < x1)%R -> line_distance x0 y0 x1 y1 x y d -> line_distance x0 y0 x1 y1 x y d' -> d = d'.
Proof.
  intros H (t & P & Hd & E) (t' & P' & Hd' & E'). set (u := (x1 - x0)%R) in *. set (v := (y1 - y0)%R) in *. assert (Hu : (0 < u)%R) by (unfold u; lra).
  assert (t = t'). { apply (Rmult_eq_reg_r (u * u + v * v)); [|nra]. nra. } subst t'. apply Rsqr_inj; auto. unfold Rsqr. lra.
Qed.

(** index of the first largest *)
Lemma index_max_spec : forall t pre b bv, nth b pre 0%R = bv -> b < length pre -> (forall j, j < length pre -> (nth j pre 0 <= bv)%R) -> (forall j, j < b -> (nth j pre 0 < bv)%R) ->
  let m := index_max_from b bv (length pre) t in m < length (pre ++ t) /\ (forall j, j < length (pre ++ t) -> (nth j (pre ++ t) 0 <= nth m (pre ++ t) 0)%R) /\ (forall j, j < m -> (nth j (pre ++ t) 0 < nth m (pre ++ t) 0)%R).
Proof.
  induction t as [|v t IH]; intros pre b bv Hb Hl Hle Hlt; cbn [index_max_from].
  - rewrite app_nil_r. rewrite Hb. auto.
  - replace (pre ++ v :: t) with ((pre ++ [v]) ++ t) by (rewrite <- app_assoc; reflexivity). assert (L : length (pre ++ [v]) = S (length pre)) by (rewrite app_length; simpl; lia).
    destruct (Rlt_dec bv v) as [Hv|Hv]; [specialize (IH (pre ++ [v]) (length pre) v)|specialize (IH (pre ++ [v]) b bv)]; rewrite L in IH; apply IH.
    + rewrite app_nth2, Nat.sub_diag by lia. reflexivity.
    + lia.
    + intros j Hj. destruct (Nat.eq_dec j (length pre)) as [->|]; [rewrite app_nth2, Nat.sub_diag by lia; simpl; lra|]. rewrite app_nth1 by lia. specialize (Hle j ltac:(lia)). lra.
    + intros j Hj. rewrite app_nth1 by lia. specialize (Hle j ltac:(lia)). lra.
    + rewrite app_nth1 by lia. auto.
    + lia.
    + intros j Hj. destruct (Nat.eq_dec j (length pre)) as [->|]; [rewrite app_nth2, Nat.sub_diag by lia; simpl; lra|]. rewrite app_nth1 by lia. apply Hle. lia.
    + intros j Hj. rewrite app_nth1 by lia. auto.
Qed.
Lemma find_optimal_spec kmin kstep l k : find_optimal_kvalue kmin kstep l = Ok k -> exists m, k = (m + 1) * kstep + kmin /\ m < length l /\ (forall j, j < length l -> (nth j l 0 <= nth m l 0)%R) /\ (forall j, j < m -> (nth j l 0 < nth m l 0)%R).
Proof.
  unfold find_optimal_kvalue. destruct l as [|v t]; [discriminate|]. intros E. apply Ok_inj in E. subst k. eexists. split; [reflexivity|].
  apply (index_max_spec t [v] 0 v); simpl; auto; [|lia]. intros j Hj. assert (j = 0) by lia. subst. lra.
Qed.

Lemma errors_spec data init : forall ks w0 w, errors data init ks w0 = Ok w ->
  exists w1, w = w0 ++ w1 /\ length w1 = length ks /\ forall i, i < length ks -> exists r, kmeans_process sqdist data (init (nth i ks 0)) (1 # 1000) 200 = Ok r /\ nth i w1 0%Q = snd r.
Proof.
  induction ks as [|k ks IH]; intros w0 w E; cbn [errors] in E; [apply Ok_inj in E; subst; exists []; rewrite app_nil_r; split; auto; split; auto; simpl; lia|].
  destruct (kmeans_process _ _ _ _ _) as [r|] eqn:Er; cbn [bind] in E; [|discriminate]. apply IH in E. destruct E as (w1 & -> & L & H). exists (snd r :: w1). rewrite <- app_assoc. split; [reflexivity|]. split; [simpl; lia|].
  intros [|i] Hi; cbn [nth]; [eauto|]. apply H. simpl in Hi. lia.
Qed.
Lemma elbows_nth w i : i < length w - 2 -> nth i (calculate_elbows w) 0%R = elbow_length 0 (Q2R (nth 0 w 0%Q)) (INR (length w)) (Q2R (nth (length w - 1) w 0%Q)) (INR (S i)) (Q2R (nth (S i) w 0%Q)).
Proof.
  intros H. unfold calculate_elbows. set (f := fun i : nat => elbow_length 0 (Q2R (nth 0 w 0%Q)) (INR (length w)) (Q2R (nth (length w - 1) w 0%Q)) (INR i) (Q2R (nth i w 0%Q))).
  change (map f (seq 1 (length w - 2))) with (map f (seq 1 (length w - 2))). rewrite (nth_indep _ 0%R (f 0)) by (rewrite map_length, seq_length; auto). rewrite map_nth, seq_nth by auto. reflexivity.
Qed.
Lemma elbows_length w : length (calculate_elbows w) = length w - 2.
Proof. unfold calculate_elbows. rewrite map_length, seq_length. reflexivity. Qed.

(** the first run *)
Theorem process_first data init kmin kmax kstep st : elbow_process data init kmin kmax kstep elbow_initial = Ok st ->
  let n := (kmax - kmin) / kstep + 1 in
  length (wce st) = n /\
  (forall i, i < n -> exists r, kmeans_process sqdist data (init (kmin + i * kstep)) (1 # 1000) 200 = Ok r /\ nth i (wce st) 0%Q = snd r) /\
  exists i, kvalue st = Some (kmin + i * kstep) /\ 1 <= i < n - 1 /\ kmin < kmin + i * kstep < kmax /\
    exists d, line_distance 0 (Q2R (nth 0 (wce st) 0%Q)) (INR n) (Q2R (nth (n - 1) (wce st) 0%Q)) (INR i) (Q2R (nth i (wce st) 0%Q)) d /\
      forall j d', 1 <= j < n - 1 -> line_distance 0 (Q2R (nth 0 (wce st) 0%Q)) (INR n) (Q2R (nth (n - 1) (wce st) 0%Q)) (INR j) (Q2R (nth j (wce st) 0%Q)) d' -> (d' <= d)%R /\ (j < i -> (d' < d)%R).
Proof.
  unfold elbow_process. destruct (verify_arguments data kmin kmax kstep) eqn:V; [|discriminate]. unfold verify_arguments in V. rewrite !andb_true_iff, !Nat.leb_le in V. destruct V as (((((_ & V1) & V2) & V3) & V4) & V5).
  destruct (errors data init (amounts kmin kmax kstep) (wce elbow_initial)) as [w|] eqn:E; cbn [bind]; [|discriminate]. cbn [elbow_initial wce elbows app] in *.
  destruct (find_optimal_kvalue kmin kstep (calculate_elbows w)) as [k|] eqn:K; cbn [bind]; [|discriminate]. intros R. apply Ok_inj in R. subst st. cbn [wce kvalue]. set (n := (kmax - kmin) / kstep + 1) in *.
  apply errors_spec in E. destruct E as (w1 & -> & L & H). cbn [app] in *. assert (La : length (amounts kmin kmax kstep) = n) by (unfold amounts; rewrite map_length, seq_length; reflexivity). rewrite La in *.
  split; [auto|]. split.
  { intros i Hi. destruct (H i Hi) as (r & Er & Ew). exists r. split; auto. rewrite <- Er. do 2 f_equal. unfold amounts. rewrite (nth_indep _ 0 (kmin + 0 * kstep)) by (rewrite map_length, seq_length; fold n; lia). rewrite (map_nth (fun i => kmin + i * kstep)), seq_nth by (fold n; lia). reflexivity. }
  apply find_optimal_spec in K. destruct K as (m & -> & Hm & Hmax & Hfirst). rewrite elbows_length, L in *. exists (m + 1).
  assert (Hn : (0 < INR n)%R) by (apply lt_0_INR; lia).
  split; [f_equal; lia|]. split; [lia|]. split.
  { assert (kstep * (n - 1) <= kmax - kmin). { unfold n. rewrite Nat.add_sub. apply Nat.mul_div_le. lia. } nia. }
  pose proof (elbows_nth w1 m ltac:(lia)) as Em. rewrite L in Em. exists (nth m (calculate_elbows w1) 0%R). split; [rewrite Em; replace (S m) with (m + 1) by lia; apply elbow_length_spec; auto|].
  intros j d' Hj Hd. destruct j as [|j]; [lia|]. pose proof (elbows_nth w1 j ltac:(lia)) as Ej. rewrite L in Ej. assert (d' = nth j (calculate_elbows w1) 0%R). { eapply line_distance_fun; [exact Hn|exact Hd|]. rewrite Ej. apply elbow_length_spec. auto. }
  subst d'. split; [apply Hmax; lia|]. intros. apply Hfirst. lia.
Qed.

(** comparing elbow lengths with the same ends *)
Lemma elbow_lt x0 y0 x1 y1 x y x' y' : (x0 < x1)%R -> (Rabs ((y0 - y1) * x + (x1 - x0) * y + (x0 * y1 - x1 * y0)) < Rabs ((y0 - y1) * x' + (x1 - x0) * y' + (x0 * y1 - x1 * y0)))%R -> (elbow_length x0 y0 x1 y1 x y < elbow_length x0 y0 x1 y1 x' y')%R.
Proof. intros H L. unfold elbow_length. apply Rmult_lt_compat_r; auto. apply Rinv_0_lt_compat, sqrt_lt_R0. set (u := (x1 - x0)%R). assert ((0 < u)%R) by (unfold u; lra). set (v := (y1 - y0)%R). replace (u ^ 2 + v ^ 2)%R with (u * u + v * v)%R by ring. nra. Qed.

Lemma elbow_square x0 y0 x1 y1 x y : (x0 < x1)%R -> let d := elbow_length x0 y0 x1 y1 x y in let c := ((y0 - y1) * x + (x1 - x0) * y + (x0 * y1 - x1 * y0))%R in
  (0 <= d /\ d * d * ((x1 - x0) * (x1 - x0) + (y1 - y0) * (y1 - y0)) = c * c)%R.
Proof.
  intros H d c. set (N := ((x1 - x0) * (x1 - x0) + (y1 - y0) * (y1 - y0))%R). assert (HN : (0 < N)%R). { unfold N. pose proof (Rle_0_sqr (y1 - y0)) as Hv. unfold Rsqr in Hv. assert (Hu : (0 < (x1 - x0) * (x1 - x0))%R) by (apply Rmult_lt_0_compat; lra). lra. }
  unfold d, elbow_length. replace ((x1 - x0) ^ 2 + (y1 - y0) ^ 2)%R with N by (unfold N; ring). fold c. assert (Hs : (0 < sqrt N)%R) by (apply sqrt_lt_R0; auto).
  split; [apply Rmult_le_pos; [apply Rabs_pos|left; apply Rinv_0_lt_compat; auto]|].
  replace (Rabs c / sqrt N * (Rabs c / sqrt N) * N)%R with (Rabs c * Rabs c / (sqrt N * sqrt N) * N)%R by (field; lra). rewrite sqrt_sqrt by lra. rewrite <- Rabs_mult, Rabs_right by nra. field. lra.
Qed.
Lemma process_total data init kmin kmax kstep self w : verify_arguments data kmin kmax kstep = true -> errors data init (amounts kmin kmax kstep) (wce self) = Ok w -> 3 <= length w ->
  exists k m, elbow_process data init kmin kmax kstep self = Ok (mkE w (elbows self ++ calculate_elbows w) (Some k)) /\ k = (m + 1) * kstep + kmin /\
    let e := elbows self ++ calculate_elbows w in m < length e /\ (forall j, j < length e -> (nth j e 0 <= nth m e 0)%R) /\ (forall j, j < m -> (nth j e 0 < nth m e 0)%R).
Proof.
  intros V E L. unfold elbow_process. rewrite V, E. cbn [bind]. set (e := elbows self ++ calculate_elbows w).
  destruct (find_optimal_kvalue kmin kstep e) as [k|x] eqn:K.
  - cbn [bind]. destruct (find_optimal_spec _ _ _ _ K) as (m & Ek & H). exists k, m. split; [reflexivity|]. split; auto.
  - exfalso. pose proof (elbows_length w) as Le. unfold find_optimal_kvalue in K. destruct e as [|v t] eqn:Ee; [|discriminate]. apply app_eq_nil in Ee as [_ Ee]. rewrite Ee in Le. simpl in Le. lia.
Qed.
