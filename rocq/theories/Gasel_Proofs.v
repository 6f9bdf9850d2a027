(** Selection of the genetic algorithm: specification and proofs. *)
From Verif Require Import Base Gasel_Model.
From Coq Require Import Reals Lra.
Local Open Scope R_scope.

(** * Specification *)
Definition rsum (l : list R) : R := fold_right Rplus 0 l.
(** a chromosome weighs exp(-coefficient * fitness) *)
Definition weights (coeff : R) (fitness : list R) : list R := map (fun f => exp (- (coeff * f))) fitness.
(** its share of the whole weight *)
Definition shares (coeff : R) (fitness : list R) : list R := map (fun w => w / rsum (weights coeff fitness)) (weights coeff fitness).

Lemma rsum_scal c l : rsum (map (fun x => x * c) l) = rsum l * c.
Proof. unfold rsum. induction l as [|x l IH]; simpl; [ring|]. rewrite IH. ring. Qed.

Lemma running_length l : forall a, length (running a l) = length l.
Proof. induction l; intros a0; cbn [running length]; auto. Qed.
Lemma running_nth l : forall a i, (i < length l)%nat -> nth i (running a l) 0 = a + rsum (firstn (S i) l).
Proof.
  induction l as [|x l IH]; intros a i H; cbn [length] in H; [lia|]. destruct i as [|i]; cbn [running nth firstn rsum fold_right]; [ring|].
  rewrite IH by lia. unfold rsum. cbn [firstn fold_right]. destruct l; [cbn [length] in H; lia|]. cbn [firstn fold_right]. ring.
Qed.
Lemma running_last l a : l <> [] -> last (running a l) 0 = a + rsum l.
Proof.
  revert a. induction l as [|x l IH]; intros a H; [congruence|]. destruct l as [|y l].
  - cbn. ring.
  - cbn [running]. change (last (a + x :: (a + x + y) :: running (a + x + y) l) 0) with (last (running (a + x) (y :: l)) 0).
    rewrite IH by discriminate. cbn [rsum fold_right]. unfold rsum. cbn. ring.
Qed.

Lemma get_uniform_spec r l : forall j, match get_uniform r j l with
  | None => forall i, (i < length l)%nat -> nth i l 0 <= r
  | Some k => exists i, k = (j + i)%nat /\ (i < length l)%nat /\ r < nth i l 0 /\ forall i', (i' < i)%nat -> nth i' l 0 <= r
  end.
Proof.
  induction l as [|p l IH]; intros j; cbn [get_uniform]; [intros; cbn in *; lia|].
  destruct (Rlt_dec r p) as [H|H].
  - exists 0%nat. cbn. repeat split; auto; try lia.
  - specialize (IH (S j)). destruct (get_uniform r (S j) l) as [k|].
    + destruct IH as (i & E & Hi & H1 & H2). exists (S i). cbn [length nth]. repeat split; auto; try lia.
      intros [|i'] Hi'; cbn [nth]; [lra|]. apply H2; lia.
    + intros [|i] Hi; cbn [nth length] in *; [lra|]. apply IH; lia.
Qed.

Section Weights.
Variable coeff : R.
Variable fitness : list R.
Hypothesis Hne : fitness <> [].

Lemma inv_scaled f : inv_fitness (scaled coeff f) = exp (- (coeff * f)) * exp (- (1)).
Proof.
  unfold inv_fitness, scaled. pose proof (exp_pos (1 + f * coeff)). destruct (Req_EM_T _ 0); [lra|].
  unfold Rdiv. rewrite Rmult_1_l, <- exp_Ropp, <- exp_plus. f_equal. ring.
Qed.

Lemma weights_pos w : In w (weights coeff fitness) -> 0 < w.
Proof. intros H. apply in_map_iff in H as (f & <- & _). apply exp_pos. Qed.

Lemma rsum_pos l : l <> [] -> (forall x, In x l -> 0 < x) -> 0 < rsum l.
Proof.
  induction l as [|x l IH]; intros H Hp; [congruence|]. pose proof (Hp x (or_introl eq_refl)). cbn [rsum fold_right]. destruct l as [|y l]; [cbn; lra|].
  specialize (IH ltac:(discriminate) (fun z Hz => Hp z (or_intror Hz))). unfold rsum in IH. lra.
Qed.
Lemma total_pos : 0 < rsum (weights coeff fitness).
Proof. apply rsum_pos; [|apply weights_pos]. unfold weights. destruct fitness; [congruence|discriminate]. Qed.

Lemma shares_sum : rsum (shares coeff fitness) = 1.
Proof. unfold shares, Rdiv. rewrite rsum_scal. field. pose proof total_pos. lra. Qed.
Lemma shares_pos s : In s (shares coeff fitness) -> 0 < s.
Proof. intros H. apply in_map_iff in H as (w & <- & Hw). apply weights_pos in Hw. apply Rdiv_lt_0_compat; auto. apply total_pos. Qed.
Lemma shares_length : length (shares coeff fitness) = length fitness.
Proof. unfold shares, weights. now rewrite !map_length. Qed.

Lemma probability_spec : exists p, calc_probability_vector (map (scaled coeff) fitness) = Ok p /\ length p = length fitness /\
  forall i, (i < length fitness)%nat -> nth i p 0 = rsum (firstn (S i) (shares coeff fitness)).
Proof.
  unfold calc_probability_vector. destruct (map (scaled coeff) fitness) as [|x t] eqn:E; [destruct fitness; [congruence|discriminate]|]. rewrite <- E. clear x t E.
  eexists. split; [reflexivity|]. cbn zeta.
  assert (Einv : map inv_fitness (map (scaled coeff) fitness) = map (fun w => w * exp (- (1))) (weights coeff fitness)).
  { unfold weights. rewrite !map_map. apply map_ext. intros f. apply inv_scaled. }
  rewrite Einv. set (ws := weights coeff fitness). assert (Lw : length ws = length fitness) by (unfold ws, weights; apply map_length).
  set (e := exp (- (1))). assert (He : 0 < e) by apply exp_pos. pose proof total_pos as Ht. fold ws in Ht.
  assert (Hl : last (running 0 (map (fun w => w * e) ws)) 0 = rsum ws * e).
  { rewrite running_last by (intros Hz; destruct ws; [destruct fitness; [congruence|discriminate]|discriminate]). rewrite rsum_scal. ring. }
  rewrite Hl. split; [now rewrite map_length, running_length, map_length|]. intros i Hi.
  set (f := fun x => x / (rsum ws * e)). rewrite (nth_indep _ 0 (f 0)) by (rewrite map_length, running_length, map_length; lia).
  rewrite map_nth, running_nth by (rewrite map_length; lia). unfold f, shares. fold ws. rewrite !firstn_map, !rsum_scal.
  unfold Rdiv at 2. rewrite rsum_scal. field. lra.
Qed.

Lemma rsum_firstn_S i l : (i < length l)%nat -> rsum (firstn (S i) l) = rsum (firstn i l) + nth i l 0.
Proof.
  revert l. induction i as [|i IH]; intros [|x l] H; cbn [length] in H; try lia; [cbn; ring|].
  change (firstn (S (S i)) (x :: l)) with (x :: firstn (S i) l). change (firstn (S i) (x :: l)) with (x :: firstn i l). cbn [rsum fold_right nth].
  specialize (IH l ltac:(lia)). unfold rsum in *. rewrite IH. ring.
Qed.
Lemma rsum_firstn_mono l : (forall x, In x l -> 0 < x) -> forall i j, (i <= j)%nat -> rsum (firstn i l) <= rsum (firstn j l).
Proof.
  intros Hp i j Hij. induction Hij as [|j Hij IH]; [lra|]. destruct (Nat.lt_ge_cases j (length l)) as [H|H].
  - rewrite rsum_firstn_S by auto. pose proof (Hp (nth j l 0) (nth_In _ _ H)). lra.
  - rewrite (firstn_all2 (n := S j)) by lia. rewrite (firstn_all2 (n := j)) in IH by lia. exact IH.
Qed.

Theorem selected_spec r i : 0 <= r < 1 -> (i < length fitness)%nat ->
  (selected coeff fitness r = Ok (Some i) <-> rsum (firstn i (shares coeff fitness)) <= r < rsum (firstn (S i) (shares coeff fitness))).
Proof.
  intros Hr Hi. unfold selected. destruct probability_spec as (p & Ep & Lp & Hp). rewrite Ep. cbn [bind].
  pose proof (get_uniform_spec r p 0) as G. pose proof (rsum_firstn_mono _ shares_pos) as M. split.
  - intros E. apply Ok_inj in E. rewrite E in G. destruct G as (i' & Ei & Hi' & H1 & H2). cbn [plus] in Ei. subst i'.
    rewrite Hp in H1 by auto. split; auto. destruct i as [|i]; [cbn; lra|]. rewrite <- Hp by lia. apply H2. lia.
  - intros [H1 H2]. destruct (get_uniform r 0 p) as [k|].
    + destruct G as (i' & Ei & Hi' & G1 & G2). cbn [plus] in Ei. subst k. do 2 f_equal. rewrite Hp in G1 by lia.
      destruct (Nat.lt_trichotomy i i') as [H|[H|H]]; auto; exfalso.
      * specialize (G2 i H). rewrite Hp in G2 by lia. lra.
      * pose proof (M (S i') i ltac:(lia)). lra.
    + exfalso. specialize (G i ltac:(lia)). rewrite Hp in G by auto. lra.
Qed.

Theorem selected_total r : 0 <= r < 1 -> exists i, selected coeff fitness r = Ok (Some i) /\ (i < length fitness)%nat.
Proof.
  intros Hr. unfold selected. destruct probability_spec as (p & Ep & Lp & Hp). rewrite Ep. cbn [bind].
  pose proof (get_uniform_spec r p 0) as G. destruct (get_uniform r 0 p) as [k|].
  - destruct G as (i & Ei & Hi & _). cbn [plus] in Ei. subst k. exists i. split; auto. lia.
  - exfalso. assert (L : (0 < length fitness)%nat) by (destruct fitness; [congruence|cbn; lia]).
    specialize (G (length fitness - 1)%nat ltac:(lia)). rewrite Hp in G by lia.
    rewrite firstn_all2 in G by (rewrite shares_length; lia). rewrite shares_sum in G. lra.
Qed.

Theorem shares_order i j : 0 < coeff -> (i < length fitness)%nat -> (j < length fitness)%nat -> nth i fitness 0 < nth j fitness 0 ->
  nth j (shares coeff fitness) 0 < nth i (shares coeff fitness) 0.
Proof.
  intros Hc Hi Hj H. pose proof total_pos as Ht. unfold shares at 1 2. set (T := rsum _) in *. unfold weights. rewrite map_map.
  set (f := fun x => exp (- (coeff * x)) / T). rewrite (nth_indep (map f fitness) 0 (f 0)) by (rewrite map_length; auto). rewrite map_nth.
  rewrite (nth_indep (map f fitness) 0 (f 0)) by (rewrite map_length; auto). rewrite map_nth. unfold f, Rdiv. apply Rmult_lt_compat_r; [apply Rinv_0_lt_compat; auto|].
  apply exp_increasing. nra.
Qed.
End Weights.
