(** Order parameters: proofs. *)
From Verif Require Import Base Order_Model.
From Coq Require Import Reals Lra.
Open Scope R_scope.

Fixpoint sumR (l : list R) : R := match l with [] => 0 | x :: t => x + sumR t end.

Lemma fold_sum l : forall a, fold_left Rplus l a = a + sumR l.
Proof. induction l as [|x t IH]; intros a; simpl; [lra|]. rewrite IH. lra. Qed.

Lemma rsum_sumR l : rsum l = sumR l.
Proof. unfold rsum. rewrite fold_sum. lra. Qed.

Lemma sumR_const {A} (l : list A) (f : A -> R) c : (forall x, In x l -> f x = c) -> sumR (map f l) = c * rlen l.
Proof.
  unfold rlen. induction l as [|x t IH]; intros H; [simpl; lra|].
  change (length (x :: t)) with (S (length t)). rewrite S_INR. simpl map. simpl sumR.
  rewrite IH by (intros; apply H; simpl; auto). rewrite (H x) by (simpl; auto). lra.
Qed.

Lemma sumR_le {A} (l : list A) (f g : A -> R) : (forall x, In x l -> f x <= g x) -> sumR (map f l) <= sumR (map g l).
Proof.
  induction l as [|x t IH]; intros H; simpl; [lra|].
  assert (f x <= g x) by (apply H; simpl; auto). assert (sumR (map f t) <= sumR (map g t)) by (apply IH; intros; apply H; simpl; auto). lra.
Qed.

Lemma sumR_affine l a b : sumR (map (fun x => a + b * x) l) = a * rlen l + b * sumR l.
Proof.
  unfold rlen. induction l as [|x t IH]; [simpl; lra|].
  change (length (x :: t)) with (S (length t)). rewrite S_INR. simpl map. simpl sumR. rewrite IH. lra.
Qed.

Lemma sumR_abs l : Rabs (sumR l) <= sumR (map Rabs l).
Proof.
  induction l as [|x t IH]; simpl; [rewrite Rabs_R0; lra|]. pose proof (Rabs_triang x (sumR t)). lra.
Qed.

Lemma rlen_pos {A} (x : A) t : 0 < rlen (x :: t).
Proof. unfold rlen. apply lt_0_INR. simpl; lia. Qed.

Lemma exp_ge x : 1 + x <= exp x.
Proof. destruct (Req_dec x 0) as [->|H]; [rewrite exp_0; lra|]. left. apply exp_ineq1. auto. Qed.

(** convexity: the exponential of the mean does not exceed the mean of exponentials *)
Lemma jensen l : l <> [] -> exp (sumR l / rlen l) <= sumR (map exp l) / rlen l.
Proof.
  destruct l as [|x0 t0]; [congruence|]. intros _. set (l := x0 :: t0). pose proof (rlen_pos x0 t0) as Hn. fold l in Hn.
  set (m := sumR l / rlen l).
  assert (Hm : m * rlen l = sumR l) by (unfold m; field; lra).
  apply (Rmult_le_reg_r (rlen l)); auto.
  replace (sumR (map exp l) / rlen l * rlen l) with (sumR (map exp l)) by (field; lra).
  apply Rle_trans with (sumR (map (fun x => exp m * (1 - m) + exp m * x) l)).
  - rewrite sumR_affine. rewrite <- Hm. lra.
  - apply sumR_le. intros x _. pose proof (exp_ge (x - m)) as H. pose proof (exp_pos m).
    replace (exp x) with (exp m * exp (x - m)) by (rewrite <- exp_plus; f_equal; lra).
    replace (exp m * (1 - m) + exp m * x) with (exp m * (1 + (x - m))) by lra.
    apply Rmult_le_compat_l; lra.
Qed.

Lemma exp_mono x y : x <= y -> exp x <= exp y.
Proof. intros [H|H]; [left; apply exp_increasing; auto|subst; lra]. Qed.

Lemma expm1_nonneg x : 0 <= exp (Rabs x) - 1.
Proof. pose proof (exp_ge (Rabs x)). pose proof (Rabs_pos x). lra. Qed.

Lemma sumR_nonneg {A} (l : list A) f : (forall x, In x l -> 0 <= f x) -> 0 <= sumR (map f l).
Proof.
  intros H. rewrite <- (Rmult_0_l (rlen l)). rewrite <- (sumR_const l (fun _ => 0)) by auto. apply sumR_le. auto.
Qed.

Lemma sumR_zero {A} (l : list A) f : (forall x, In x l -> 0 <= f x) -> sumR (map f l) = 0 -> forall x, In x l -> f x = 0.
Proof.
  induction l as [|a t IH]; intros H Hs x Hx; [contradiction|]. simpl in Hs.
  assert (0 <= f a) by (apply H; simpl; auto). assert (0 <= sumR (map f t)) by (apply sumR_nonneg; intros; apply H; simpl; auto).
  destruct Hx as [<-|Hx]; [lra|]. apply IH; auto; [intros; apply H; simpl; auto|lra].
Qed.

Theorem sync_order_range phases : phases <> [] -> (exists p, In p phases /\ p <> 0) ->
  exists r, calculate_sync_order phases = Ok r /\ 0 <= r <= 1.
Proof.
  intros Hne Hnz. unfold calculate_sync_order. destruct phases as [|p0 t]; [congruence|].
  set (l := p0 :: t) in *. pose proof (rlen_pos p0 t) as Hn. fold l in Hn.
  rewrite !rsum_sumR. set (E := sumR (map (fun p => exp (Rabs p) - 1) l) / rlen l).
  assert (HE0 : 0 <= sumR (map (fun p => exp (Rabs p) - 1) l)) by (apply sumR_nonneg; intros; apply expm1_nonneg).
  assert (HE : 0 < E).
  { unfold E. apply Rdiv_lt_0_compat; auto. destruct HE0 as [H|H]; auto. exfalso.
    destruct Hnz as [p [Hp Hp0]].
    pose proof (sumR_zero l (fun p => exp (Rabs p) - 1) (fun x _ => expm1_nonneg x) (eq_sym H) p Hp) as Hz.
    simpl in Hz. assert (0 < Rabs p) by (apply Rabs_pos_lt; auto).
    pose proof (exp_ineq1 (Rabs p) ltac:(lra)). lra. }
  destruct (Req_EM_T (Rabs E) 0) as [Hz|Hz].
  { rewrite Rabs_right in Hz by lra. lra. }
  eexists; split; [reflexivity|]. rewrite (Rabs_right E) by lra.
  rewrite (Rabs_right (exp (Rabs (sumR l / rlen l)) - 1)) by (apply Rle_ge, expm1_nonneg).
  pose proof (expm1_nonneg (sumR l / rlen l)) as H0.
  split.
  - unfold Rdiv at 1. apply Rmult_le_pos; auto. left. apply Rinv_0_lt_compat; auto.
  - apply (Rmult_le_reg_r E); auto. replace ((exp (Rabs (sumR l / rlen l)) - 1) / E * E) with (exp (Rabs (sumR l / rlen l)) - 1) by (field; lra).
    rewrite Rmult_1_l. unfold E.
    assert (Hm : sumR (map (fun p => exp (Rabs p) - 1) l) = sumR (map exp (map Rabs l)) - rlen l).
    { rewrite map_map. clear. unfold rlen. induction l as [|x l IH]; [simpl; lra|].
      change (length (x :: l)) with (S (length l)). rewrite S_INR. simpl. rewrite IH. lra. }
    rewrite Hm. replace ((sumR (map exp (map Rabs l)) - rlen l) / rlen l) with (sumR (map exp (map Rabs l)) / rlen l - 1) by (field; lra).
    assert (Hj : exp (sumR (map Rabs l) / rlen (map Rabs l)) <= sumR (map exp (map Rabs l)) / rlen (map Rabs l)) by (apply jensen; discriminate).
    assert (Hrl : rlen (map Rabs l) = rlen l) by (unfold rlen; now rewrite map_length). rewrite Hrl in Hj.
    assert (Ha : Rabs (sumR l / rlen l) <= sumR (map Rabs l) / rlen l).
    { unfold Rdiv. rewrite Rabs_mult. rewrite (Rabs_right (/ rlen l)) by (left; apply Rinv_0_lt_compat; auto).
      apply Rmult_le_compat_r; [left; apply Rinv_0_lt_compat; auto|apply sumR_abs]. }
    apply exp_mono in Ha. lra.
Qed.

Theorem sync_order_equal phases c : phases <> [] -> c <> 0 -> (forall p, In p phases -> p = c) ->
  calculate_sync_order phases = Ok 1.
Proof.
  intros Hne Hc Hall. unfold calculate_sync_order. destruct phases as [|p0 t]; [congruence|].
  set (l := p0 :: t) in *. pose proof (rlen_pos p0 t) as Hn. fold l in Hn.
  rewrite !rsum_sumR. rewrite (sumR_const l (fun p => exp (Rabs p) - 1) (exp (Rabs c) - 1)) by (intros x Hx; rewrite (Hall x Hx); auto).
  replace (sumR l) with (c * rlen l).
  2:{ rewrite <- (sumR_const l (fun x => x) c) by auto. now rewrite map_id. }
  replace (c * rlen l / rlen l) with c by (field; lra).
  replace ((exp (Rabs c) - 1) * rlen l / rlen l) with (exp (Rabs c) - 1) by (field; lra).
  assert (Hp : 0 < exp (Rabs c) - 1).
  { assert (0 < Rabs c) by (apply Rabs_pos_lt; auto). pose proof (exp_ineq1 (Rabs c) ltac:(lra)). lra. }
  destruct (Req_EM_T (Rabs (exp (Rabs c) - 1)) 0) as [Hz|Hz].
  { rewrite Rabs_right in Hz by lra. lra. }
  f_equal. field. auto.
Qed.

Theorem sync_order_zero phases : (forall p, In p phases -> p = 0) ->
  calculate_sync_order phases = Raise ZeroDivisionError.
Proof.
  intros Hall. unfold calculate_sync_order. destruct phases as [|p0 t]; auto. set (l := p0 :: t) in *.
  rewrite !rsum_sumR. rewrite (sumR_const l (fun p => exp (Rabs p) - 1) 0).
  - destruct (Req_EM_T _ 0) as [|Hz]; auto. exfalso. apply Hz. rewrite Rmult_0_l. unfold Rdiv. rewrite Rmult_0_l. apply Rabs_R0.
  - intros x Hx. rewrite (Hall x Hx), Rabs_R0, exp_0. lra.
Qed.

(** * Local order *)
Lemma connected_pairs_in n conn i j : In (i, j) (connected_pairs n conn) <-> (i < n)%nat /\ (j < n)%nat /\ conn i j = true.
Proof. unfold connected_pairs. rewrite filter_In, in_prod_iff, !in_seq. simpl. intuition lia. Qed.

Theorem local_order_range phases n conn : (exists i j, (i < n)%nat /\ (j < n)%nat /\ conn i j = true) ->
  0 < calculate_local_sync_order phases n conn <= 1 /\
  (calculate_local_sync_order phases n conn = 1 <->
   forall i j, (i < n)%nat -> (j < n)%nat -> conn i j = true -> nth i phases 0 = nth j phases 0).
Proof.
  intros (i0 & j0 & Hi0 & Hj0 & Hc0). unfold calculate_local_sync_order.
  set (f := fun ij : nat * nat => exp (- Rabs (nth (snd ij) phases 0 - nth (fst ij) phases 0))).
  set (pairs := connected_pairs n conn).
  assert (Hin : In (i0, j0) pairs) by (apply connected_pairs_in; auto).
  assert (Hne : (length pairs =? 0)%nat = false) by (destruct pairs; [contradiction|reflexivity]). rewrite Hne.
  assert (Hl : 0 < rlen pairs) by (destruct pairs; [contradiction|apply rlen_pos]).
  rewrite rsum_sumR.
  assert (Hf : forall x, 0 < f x <= 1).
  { intros x. unfold f. split; [apply exp_pos|]. rewrite <- exp_0. apply exp_mono.
    pose proof (Rabs_pos (nth (snd x) phases 0 - nth (fst x) phases 0)). lra. }
  assert (Hle : sumR (map f pairs) <= rlen pairs).
  { rewrite <- (Rmult_1_l (rlen pairs)). rewrite <- (sumR_const pairs (fun _ => 1)) by auto. apply sumR_le. intros; apply Hf. }
  assert (Hdiv : sumR (map f pairs) / rlen pairs * rlen pairs = sumR (map f pairs)) by (field; lra).
  split; [split|].
  - apply Rdiv_lt_0_compat; auto. clear - Hin Hf. induction pairs as [|a t IH]; [contradiction|]. simpl.
    assert (0 <= sumR (map f t)) by (apply sumR_nonneg; intros x _; left; apply Hf). pose proof (proj1 (Hf a)). lra.
  - apply (Rmult_le_reg_r (rlen pairs)); auto. lra.
  - split.
    + intros E i j Hi Hj Hc. rewrite E, Rmult_1_l in Hdiv.
      assert (Hz : sumR (map (fun x => 1 - f x) pairs) = 0).
      { assert (Hs : forall l, sumR (map (fun x => 1 - f x) l) = rlen l - sumR (map f l)).
        { unfold rlen. induction l as [|x l IH]; [simpl; lra|]. change (length (x :: l)) with (S (length l)).
          rewrite S_INR. simpl. rewrite IH. lra. }
        rewrite Hs. lra. }
      assert (Hp : In (i, j) pairs) by (apply connected_pairs_in; auto).
      pose proof (sumR_zero pairs (fun x => 1 - f x) (fun x _ => ltac:(pose proof (Hf x); lra)) Hz _ Hp) as H1.
      simpl in H1. unfold f in H1. simpl in H1.
      assert (H2 : exp (- Rabs (nth j phases 0 - nth i phases 0)) = exp 0) by (rewrite exp_0; lra).
      apply exp_inv in H2. destruct (Req_dec (nth j phases 0 - nth i phases 0) 0) as [H3|H3]; [lra|].
      apply Rabs_pos_lt in H3. lra.
    + intros Hall. rewrite (sumR_const pairs f 1); [field; lra|]. intros [i j] Hx. apply connected_pairs_in in Hx as (Hi & Hj & Hc).
      unfold f. simpl. rewrite (Hall i j) by auto. replace (nth j phases 0 - nth j phases 0) with 0 by lra.
      rewrite Rabs_R0, Ropp_0, exp_0. auto.
Qed.

(** * Correlation matrix *)
Lemma correlation_nth state i j : (i < length state)%nat -> (j < length state)%nat ->
  nth j (nth i (correlation_matrix state) []) 0 = Rabs (sin (nth i state 0 - nth j state 0)).
Proof.
  intros Hi Hj. unfold correlation_matrix.
  rewrite (nth_indep _ [] (map (fun p2 => Rabs (sin (0 - p2))) state)) by (rewrite map_length; auto).
  rewrite (map_nth (fun p1 => map (fun p2 => Rabs (sin (p1 - p2))) state)).
  rewrite (nth_indep _ 0 (Rabs (sin (nth i state 0 - 0)))) by (rewrite map_length; auto).
  rewrite (map_nth (fun p2 => Rabs (sin (nth i state 0 - p2)))). reflexivity.
Qed.

Theorem correlation_spec state i j : (i < length state)%nat -> (j < length state)%nat ->
  let c := fun a b => nth b (nth a (correlation_matrix state) []) 0 in
  c i j = c j i /\ c i i = 0 /\ 0 <= c i j <= 1.
Proof.
  intros Hi Hj c. unfold c. rewrite !correlation_nth by auto. split; [|split].
  - replace (nth i state 0 - nth j state 0) with (- (nth j state 0 - nth i state 0)) by lra.
    rewrite sin_neg, Rabs_Ropp. auto.
  - replace (nth i state 0 - nth i state 0) with 0 by lra. rewrite sin_0. apply Rabs_R0.
  - split; [apply Rabs_pos|]. apply Rabs_le. pose proof (SIN_bound (nth i state 0 - nth j state 0)). lra.
Qed.
