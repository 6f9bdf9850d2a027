(** Fuzzy c-means: specification and proofs. *)
From Verif Require Import Base Kmeans_Model Kmeans_Proofs Elbow_Model Elbow_Proofs Metric_Model Fcm_Model.
From Coq Require Import Reals Lra.
Local Open Scope R_scope.

Section F.
Variable m : R.
Hypothesis Hm : 1 < m.
Let g := degree m.
Lemma degree_pos : 0 < g.
Proof. unfold g, degree. apply Rmult_lt_0_compat; [lra|apply Rinv_0_lt_compat; lra]. Qed.
Lemma Rpower_pos x y : 0 < Rpower x y.
Proof. apply exp_pos. Qed.
Lemma differs_true d : differs d = true <-> d <> 0.
Proof. unfold differs. destruct (Req_EM_T d 0); split; auto; congruence. Qed.

(** weight of one centre *)
Definition wt (d : R) : R := Rpower d (- g).
Definition far (ds : list R) : list R := filter differs ds.
Definition S_of (ds : list R) : R := rtotal (map wt (far ds)).

Lemma rpow_ratio dj dk : 0 < dj -> 0 < dk -> rpow m (dj / dk) = wt dk / wt dj.
Proof.
  intros Hj Hk. unfold rpow. assert (0 < dj / dk) by (apply Rmult_lt_0_compat; auto; apply Rinv_0_lt_compat; auto). destruct (Req_EM_T (dj / dk) 0); [lra|]. fold g. unfold wt, Rdiv.
  rewrite <- Rpower_Ropp, Ropp_involutive.
  unfold Rpower. rewrite ln_mult by (auto; apply Rinv_0_lt_compat; auto). rewrite ln_Rinv by auto. rewrite <- exp_plus. f_equal. ring.
Qed.
Lemma rpow_zero dk : rpow m (0 / dk) = 0.
Proof. unfold rpow, Rdiv. rewrite Rmult_0_l. destruct (Req_EM_T 0 0); congruence. Qed.
Lemma rtotal_scal c l : rtotal (map (fun x => x * c) l) = rtotal l * c.
Proof. unfold rtotal. induction l; simpl; [ring|]. rewrite IHl. ring. Qed.
Lemma rtotal_nonneg l : (forall x, In x l -> 0 <= x) -> 0 <= rtotal l.
Proof. unfold rtotal. induction l as [|a l IH]; simpl; intros H; [lra|]. pose proof (H a (or_introl eq_refl)). specialize (IH (fun x Hx => H x (or_intror Hx))). lra. Qed.
Lemma rtotal_in l x : (forall y, In y l -> 0 <= y) -> In x l -> x <= rtotal l.
Proof. unfold rtotal. induction l as [|a l IH]; simpl; intros H Hin; [destruct Hin|]. destruct Hin as [->|Hx]; [pose proof (rtotal_nonneg l (fun y Hy => H y (or_intror Hy))) as P; unfold rtotal in P; lra|]. pose proof (H a (or_introl eq_refl)). specialize (IH (fun y Hy => H y (or_intror Hy)) Hx). unfold rtotal in IH. lra. Qed.

Lemma divider_zero ds : divider m ds 0 = 0.
Proof. unfold divider, rtotal. induction (filter differs ds) as [|d l IH]; simpl; auto. rewrite rpow_zero, IH. ring. Qed.
Lemma divider_far ds dj : (forall d, In d ds -> 0 <= d) -> 0 < dj -> divider m ds dj = S_of ds / wt dj.
Proof.
  intros H Hj. unfold divider, S_of. fold (far ds). assert (Hp : forall d, In d (far ds) -> 0 < d). { intros d Hd. apply filter_In in Hd as [Hd Hn]. apply differs_true in Hn. specialize (H d Hd). lra. }
  unfold rtotal. revert Hp. generalize (far ds). induction l as [|d l IH]; intros Hp; simpl; [unfold Rdiv; ring|]. rewrite rpow_ratio by (auto; apply Hp; left; auto). rewrite IH by (intros; apply Hp; right; auto). unfold Rdiv. ring.
Qed.
Lemma S_pos ds d : In d ds -> d <> 0 -> wt d <= S_of ds /\ 0 < S_of ds.
Proof.
  intros H Hn. assert (In (wt d) (map wt (far ds))) by (apply in_map, filter_In; split; auto; apply differs_true; auto).
  assert (wt d <= S_of ds) by (apply rtotal_in; auto; intros y Hy; apply in_map_iff in Hy as (x & <- & _); left; apply Rpower_pos). split; auto. pose proof (Rpower_pos d (- g)). unfold wt in *. lra.
Qed.

Lemma member_zero ds : member m ds 0 = 1.
Proof. unfold member. rewrite divider_zero. destruct (Req_EM_T 0 0); congruence. Qed.
Lemma member_far ds d : (forall x, In x ds -> 0 <= x) -> In d ds -> d <> 0 -> member m ds d = wt d / S_of ds /\ 0 < member m ds d <= 1.
Proof.
  intros H Hd Hn. pose proof (H d Hd). destruct (S_pos ds d Hd Hn) as [L P]. assert (W : 0 < wt d) by apply Rpower_pos. assert (E : member m ds d = wt d / S_of ds).
  { unfold member. rewrite divider_far by (auto; lra). assert (0 < S_of ds / wt d) by (apply Rmult_lt_0_compat; auto; apply Rinv_0_lt_compat; auto). destruct (Req_EM_T (S_of ds / wt d) 0); [lra|]. field. split; lra. }
  split; [auto|]. rewrite E. split; [apply Rmult_lt_0_compat; auto; apply Rinv_0_lt_compat; auto|]. apply (Rmult_le_reg_r (S_of ds)); auto. unfold Rdiv. rewrite Rmult_assoc, Rinv_l by lra. lra.
Qed.
Lemma member_bounds ds d : (forall x, In x ds -> 0 <= x) -> In d ds -> 0 < member m ds d <= 1.
Proof. intros H Hd. destruct (Req_EM_T d 0) as [->|Hn]; [rewrite member_zero; lra|]. apply member_far; auto. Qed.

(** number of centres at the point itself *)
Definition hits (ds : list R) : nat := length (filter (fun d => negb (differs d)) ds).
Lemma sum_split ds : forall l, (forall d, In d l -> d = 0 -> member m ds d = 1) -> rtotal (map (member m ds) l) = INR (hits l) + rtotal (map (member m ds) (far l)).
Proof.
  induction l as [|d l IH]; intros H; unfold hits, far; simpl; [unfold rtotal; simpl; ring|]. unfold rtotal in *. simpl. unfold hits, far in IH. rewrite IH by (intros; apply H; auto; right; auto).
  destruct (differs d) eqn:E; cbn [negb]; [simpl; ring|]. cbn [length]. rewrite S_INR. assert (d = 0). { destruct (Req_EM_T d 0); auto. apply differs_true in n. congruence. } rewrite (H d (or_introl eq_refl) H0). ring.
Qed.
Lemma membership_sum ds : (forall d, In d ds -> 0 <= d) -> rtotal (map (member m ds) ds) = INR (hits ds) + (if far ds then 0 else 1).
Proof.
  intros H. rewrite (sum_split ds ds) by (intros d _ ->; apply member_zero). f_equal. destruct (far ds) as [|d0 l0] eqn:E; [reflexivity|]. rewrite <- E.
  assert (Hd0 : In d0 ds /\ d0 <> 0). { assert (X : In d0 (far ds)) by (rewrite E; left; auto). apply filter_In in X as [X Y]. split; auto. apply differs_true; auto. } destruct (S_pos ds d0 (proj1 Hd0) (proj2 Hd0)) as [_ P].
  transitivity (rtotal (map (fun d => wt d / S_of ds) (far ds))).
  - f_equal. apply map_ext_in. intros d Hd. apply filter_In in Hd as [Hd Hn]. apply differs_true in Hn. apply member_far; auto.
  - transitivity (S_of ds * / S_of ds); [|field; lra]. unfold S_of at 2. rewrite <- rtotal_scal, map_map. reflexivity.
Qed.
Lemma member_mono ds a b : (forall x, In x ds -> 0 <= x) -> In a ds -> In b ds -> a <> 0 -> a < b -> member m ds b < member m ds a.
Proof.
  intros H Ha Hb Hn Hlt. pose proof (H a Ha). destruct (S_pos ds a Ha Hn) as [_ P]. rewrite (proj1 (member_far ds a H Ha Hn)), (proj1 (member_far ds b H Hb ltac:(lra))). apply Rmult_lt_compat_r; [apply Rinv_0_lt_compat; auto|].
  unfold wt. rewrite !Rpower_Ropp. apply Rinv_lt_contravar; [apply Rmult_lt_0_compat; apply Rpower_pos|]. apply Rlt_Rpower_l; [apply degree_pos|lra].
Qed.
End F.

(** * Loop *)
Section L.
Variable data : list rpoint.
Variable m : R.
Hypothesis Hm : 1 < m.
Hypothesis Hdata : data <> [].

Lemma difference_nonneg p c : 0 <= difference p c.
Proof. unfold difference. apply rtotal_nonneg. intros x. revert c. induction p as [|a p IH]; intros [|b c] H; simpl in H; try tauto. destruct H as [<-|H]; [assert (Z := pow2_ge_0 (a - b)); simpl in Z; exact Z|eauto]. Qed.
Lemma differences_nonneg p centers d : In d (map (difference p) centers) -> 0 <= d.
Proof. intros H. apply in_map_iff in H as (c & <- & _). apply difference_nonneg. Qed.

Lemma loop_last tolerance : forall fuel change membership centers,
  let r := fcm_loop data m tolerance fuel change membership centers in
  r = (membership, centers) \/ exists prev, length prev = length centers /\ fst r = update_membership data m prev /\ snd r = calculate_centers data (fst r) (length prev).
Proof.
  induction fuel as [|fuel IH]; intros change membership centers; cbn [fcm_loop]; [left; auto|]. destruct (match change with None => true | Some c => _ end); [|left; auto].
  set (mb := update_membership data m centers). set (up := calculate_centers data mb (length centers)). assert (Lu : length up = length centers) by (unfold up, calculate_centers; rewrite map_length, seq_length; auto).
  right. destruct (IH (Some (calculate_changes centers up)) mb up) as [-> | (prev & L & E1 & E2)]; [exists centers; split; auto|]. exists prev. split; [lia|auto].
Qed.
Lemma loop_ran tolerance fuel membership centers : (1 <= fuel)%nat ->
  let r := fcm_loop data m tolerance fuel None membership centers in
  exists prev, length prev = length centers /\ fst r = update_membership data m prev /\ snd r = calculate_centers data (fst r) (length prev).
Proof.
  intros H. destruct fuel as [|fuel]; [lia|]. cbn [fcm_loop]. set (mb := update_membership data m centers). set (up := calculate_centers data mb (length centers)). assert (Lu : length up = length centers) by (unfold up, calculate_centers; rewrite map_length, seq_length; auto).
  destruct (loop_last tolerance fuel (Some (calculate_changes centers up)) mb up) as [-> | (prev & L & E1 & E2)]; [exists centers; split; auto|]. exists prev. split; [lia|auto].
Qed.

(** ** memberships *)
Lemma membership_row centers i : (i < length data)%nat -> nth i (update_membership data m centers) [] = point_membership m centers (nth i data []).
Proof. intros H. unfold update_membership. rewrite (nth_indep _ [] (point_membership m centers [])) by (rewrite map_length; auto). apply map_nth. Qed.
Lemma row_nth centers p j : (j < length centers)%nat -> nth j (point_membership m centers p) 0 = member m (map (difference p) centers) (difference p (nth j centers [])).
Proof.
  intros H. unfold point_membership. set (ds := map (difference p) centers). rewrite (nth_indep _ 0 (member m ds (difference p []))) by (unfold ds; rewrite !map_length; auto). rewrite map_nth. f_equal. unfold ds. apply map_nth.
Qed.
Lemma row_length centers p : length (point_membership m centers p) = length centers.
Proof. unfold point_membership. rewrite !map_length. reflexivity. Qed.
Lemma row_bounds centers p x : In x (point_membership m centers p) -> 0 < x <= 1.
Proof. unfold point_membership. intros H. apply in_map_iff in H as (d & <- & Hd). apply member_bounds; auto. intros y. apply differences_nonneg. Qed.

(** ** centres *)
Lemma weighted_bounds (lo hi : R) (d : nat) : forall ws ps, length ws = length ps -> (forall w, In w ws -> 0 < w) -> (forall p, In p ps -> lo <= nth d p 0 <= hi) ->
  lo * rtotal ws <= rtotal (map2 (fun w p => w * nth d p 0) ws ps) <= hi * rtotal ws.
Proof.
  unfold rtotal. induction ws as [|w ws IH]; intros [|p ps] L Hw Hp; simpl in *; try discriminate; [lra|]. pose proof (Hw w (or_introl eq_refl)). destruct (Hp p (or_introl eq_refl)). destruct (IH ps ltac:(lia) ltac:(intros; apply Hw; auto) ltac:(intros; apply Hp; auto)). nra.
Qed.
Lemma column_pos centers j w : (j < length centers)%nat -> In w (column (update_membership data m centers) j) -> 0 < w.
Proof.
  intros Hj H. unfold column in H. apply in_map_iff in H as (row & <- & Hr). unfold update_membership in Hr. apply in_map_iff in Hr as (p & <- & _). apply (row_bounds centers p). apply nth_In. rewrite row_length. auto.
Qed.
Lemma centers_bounds prev c d lo hi : In c (calculate_centers data (update_membership data m prev) (length prev)) -> (d < dim data)%nat -> (forall p, In p data -> lo <= nth d p 0 <= hi) -> lo <= nth d c 0 <= hi.
Proof.
  intros H Hd Hp. unfold calculate_centers in H. apply in_map_iff in H as (j & <- & Hj). apply in_seq in Hj. set (col := column (update_membership data m prev) j).
  set (f := fun d => rtotal (map2 (fun w p => w * nth d p 0) col data) / rtotal col). rewrite (nth_indep _ 0 (f 0%nat)) by (rewrite map_length, seq_length; auto). rewrite map_nth, seq_nth by auto. cbn [plus]. unfold f.
  assert (Lc : length col = length data) by (unfold col, column, update_membership; rewrite !map_length; auto). assert (Pc : forall w, In w col -> 0 < w) by (intros w; apply column_pos; lia).
  assert (Pt : 0 < rtotal col). { destruct col as [|w col'] eqn:E; [destruct data; [congruence|discriminate]|]. apply Rlt_le_trans with w; [apply Pc; left; auto|]. apply rtotal_in; [intros; left; auto|left; auto]. }
  destruct (weighted_bounds lo hi d col data Lc Pc Hp). split; [apply (Rmult_le_reg_r (rtotal col)); auto|apply (Rmult_le_reg_r (rtotal col)); auto]; unfold Rdiv; rewrite Rmult_assoc, Rinv_l by lra; lra.
Qed.

(** ** clusters *)
Lemma argmax_spec row : row <> [] -> (argmax row < length row)%nat /\ (forall j, (j < length row)%nat -> nth j row 0 <= nth (argmax row) row 0) /\ (forall j, (j < argmax row)%nat -> nth j row 0 < nth (argmax row) row 0).
Proof.
  intros H. destruct row as [|v t]; [congruence|]. unfold argmax. apply (index_max_spec t [v] 0 v); simpl; auto; [|intros; lia]. intros j Hj. assert (j = 0)%nat by lia. subst. lra.
Qed.
End L.

(** * Distances *)
Lemma difference_zero : forall p c, length p = length c -> (difference p c = 0 <-> p = c).
Proof.
  induction p as [|a p IH]; intros [|b c] L; simpl in L; try discriminate; [split; reflexivity|]. unfold difference, rtotal. cbn [map2 fold_right]. fold (rtotal (map2 (fun a b : R => (a - b) ^ 2) p c)). fold (difference p c).
  pose proof (difference_nonneg p c) as H. pose proof (pow2_ge_0 (a - b)) as H2. split.
  - intros E. assert (Z : (a - b) ^ 2 = 0) by lra. assert (Ea : a = b). { destruct (Req_dec (a - b) 0); [lra|]. exfalso. apply (pow_nonzero (a - b) 2); auto. } assert (Ep : difference p c = 0) by lra. apply IH in Ep; [congruence|lia].
  - intros [= -> ->]. assert (Z : difference c c = 0) by (apply IH; auto). rewrite Z. replace (b - b) with 0 by ring. simpl. ring.
Qed.
Lemma hits_none ds : (forall d, In d ds -> d <> 0) -> hits ds = 0%nat.
Proof. intros H. unfold hits. rewrite (proj2 (Nat.eqb_eq _ _)); [|reflexivity] || idtac. induction ds as [|d l IH]; auto. cbn [filter]. assert (E : differs d = true) by (apply differs_true, H; left; auto). rewrite E. apply IH. intros; apply H; right; auto. Qed.
