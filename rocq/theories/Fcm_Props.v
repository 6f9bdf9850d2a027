(** Fuzzy c-means: C32, C89-C91. *)
From Verif Require Import Base Kmeans_Model Kmeans_Proofs Elbow_Model Metric_Model Fcm_Model Fcm_Proofs.
From Coq Require Import Reals Lra.
Local Open Scope R_scope.

Definition sum (l : list R) : R := fold_right Rplus 0 l.
Definition of_dim (D : nat) (l : list rpoint) : Prop := forall p, In p l -> length p = D.
(** number of centres that are the point itself *)
Definition coincident (centers : list rpoint) (p : rpoint) : nat := length (filter (fun c => if list_eq_dec Req_EM_T p c then true else false) centers).

Lemma coincident_hits D centers p : length p = D -> of_dim D centers -> hits (map (difference p) centers) = coincident centers p /\ (far (map (difference p) centers) = [] <-> coincident centers p = length centers).
Proof.
  intros Lp H. unfold hits, coincident, far. induction centers as [|c l IH]; simpl; [split; [reflexivity|split; auto]|]. destruct (IH (fun q Hq => H q (or_intror Hq))) as [IH1 IH2].
  pose proof (difference_zero p c ltac:(rewrite Lp; symmetry; apply H; left; auto)) as Z. destruct (list_eq_dec Req_EM_T p c) as [E|E].
  - assert (X : differs (difference p c) = false). { destruct (differs (difference p c)) eqn:X; auto. apply differs_true in X. exfalso. apply X, Z, E. } rewrite X. cbn [negb length]. split; [lia|]. rewrite IH2. lia.
  - assert (X : differs (difference p c) = true) by (apply differs_true; intros Q; apply E, Z, Q). rewrite X. cbn [negb]. split; [lia|]. split; [discriminate|]. intros Q. exfalso. pose proof (filter_length_le' (fun c0 => if list_eq_dec Req_EM_T p c0 then true else false) l) as FL. unfold rpoint in *. cbn [length] in Q. rewrite Q in FL. exact (Nat.nle_succ_diag_l _ FL).
Qed.

(** C32, the part that holds.  After every update the memberships of a point are in (0, 1]; they add up to one for
    a point that is none of the centres.  A point that is some of the centres gets the number of these centres,
    and one more if there is another centre. *)
Theorem C32_membership_sum_partial D m data centers p : 1 < m -> of_dim D data -> of_dim D centers -> centers <> [] -> In p data ->
  exists row, In row (update_membership data m centers) /\ row = point_membership m centers p /\ length row = length centers /\ (forall w, In w row -> 0 < w <= 1) /\
    (coincident centers p = 0%nat -> sum row = 1) /\
    (coincident centers p = length centers -> sum row = INR (coincident centers p)) /\
    ((coincident centers p < length centers)%nat -> sum row = INR (coincident centers p) + 1).
Proof.
  intros Hm Hd Hc Hne Hp. exists (point_membership m centers p). split; [apply in_map; auto|]. split; [auto|]. split; [apply row_length|]. split; [intros w; apply row_bounds; auto|].
  destruct (coincident_hits D centers p (Hd p Hp) Hc) as [H1 H2]. pose proof (membership_sum m (map (difference p) centers) (differences_nonneg p centers)) as E. fold (point_membership m centers p) in E. unfold rtotal in E. fold (sum (point_membership m centers p)) in E.
  change (map (member m (map (difference p) centers)) (map (difference p) centers)) with (point_membership m centers p) in E. fold (sum (point_membership m centers p)) in E. rewrite H1 in E.
  assert (Lc : (0 < length centers)%nat) by (destruct centers; [congruence|simpl; lia]).
  split; [|split].
  - intros Z. rewrite E, Z. destruct (far (map (difference p) centers)); [assert (coincident centers p = length centers) by (apply H2; auto); lia|simpl; ring].
  - intros Z. rewrite E. rewrite (proj2 H2 Z). ring.
  - intros Z. rewrite E. destruct (far (map (difference p) centers)); [assert (coincident centers p = length centers) by (apply H2; auto); lia|ring].
Qed.
(** C32 for all points is false: a point that is one of two centres has total membership 2. *)
Theorem C32_membership_sum_refuted : exists data centers p, In p data /\ NoDup centers /\ of_dim 1 data /\ of_dim 1 centers /\ sum (point_membership 2 centers p) = 2.
Proof.
  exists [[0]; [1]; [5]], [[0]; [5]], [0]. split; [left; auto|]. split; [repeat constructor; simpl; intros H; [destruct H as [H|[]]; injection H; lra|auto]|]. split; [intros q [<-|[<-|[<-|[]]]]; auto|]. assert (Hc : of_dim 1 [[0]; [5]]) by (intros q [<-|[<-|[]]]; auto). split; [auto|].
  destruct (C32_membership_sum_partial 1 2 [[0]] [[0]; [5]] [0]) as (row & _ & -> & _ & _ & _ & _ & E); [lra|intros q [<-|[]]; auto|auto|discriminate|left; auto|].
  assert (C : coincident [[0]; [5]] [0] = 1%nat). { unfold coincident. cbn [filter]. destruct (list_eq_dec Req_EM_T [0] [0]) as [_|N]; [|congruence]. destruct (list_eq_dec Req_EM_T [0] [5]) as [N|_]; [injection N; lra|]. reflexivity. }
  rewrite E by (rewrite C; simpl; lia). rewrite C. simpl. ring.
Qed.
Print Assumptions C32_membership_sum_refuted.
Example C32_example : (1 < 3) /\ of_dim 1 [[0]; [1]; [5]] /\ of_dim 1 [[2]; [4]] /\ coincident [[2]; [4]] [0] = 0%nat.
Proof.
  split; [lra|]. split; [intros q [<-|[<-|[<-|[]]]]; auto|]. split; [intros q [<-|[<-|[]]]; auto|]. unfold coincident. cbn [filter]. destruct (list_eq_dec Req_EM_T [0] [2]) as [N|_]; [injection N; lra|]. destruct (list_eq_dec Req_EM_T [0] [4]) as [N|_]; [injection N; lra|]. reflexivity.
Qed.

(** C89.  After at least one iteration the centres lie in the bounding box of the data. *)
Theorem C89_centres_in_box m data initial tolerance itermax clusters centers membership d lo hi : 1 < m -> (1 <= itermax)%nat ->
  fcm_process data m initial tolerance itermax = Ok (clusters, centers, membership) ->
  (d < length (nth 0 data []))%nat -> (forall p, In p data -> lo <= nth d p 0 <= hi) -> length centers = length initial /\ forall c, In c centers -> lo <= nth d c 0 <= hi.
Proof.
  intros Hm Hi E Hd Hp. unfold fcm_process in E. destruct (Nat.eqb_spec (length data) 0) as [|Hn]; [discriminate|]. destruct (Nat.eqb_spec (length initial) 0); [discriminate|]. apply Ok_inj in E. cbv zeta in E.
  destruct (loop_ran data m tolerance itermax (map (fun _ => map (fun _ => 0) initial) data) initial Hi) as (prev & L & E1 & E2). injection E as _ <- _. rewrite E2, E1. split; [unfold calculate_centers; rewrite map_length, seq_length; auto|]. intros c Hc. apply (centers_bounds data m) with (prev := prev); auto. intros ->. apply Hn. reflexivity.
Qed.
Example C89_example : exists r, fcm_process [[0]; [1]; [5]] 2 [[0]; [4]] (1 / 1000) 3 = Ok r.
Proof. eexists. reflexivity. Qed.

(** C90.  Documented membership of a point in centre j (all distances positive) *)
Definition norm (p c : rpoint) : R := sqrt (sum (map2 (fun a b => (a - b) ^ 2) p c)).
Definition documented (m : R) (centers : list rpoint) (p : rpoint) (j : nat) : R :=
  1 / sum (map (fun ck => Rpower (norm p (nth j centers []) / norm p ck) (2 / (m - 1))) centers).
Lemma norm_pos D p c : length p = D -> length c = D -> p <> c -> 0 < norm p c /\ norm p c * norm p c = difference p c /\ 0 < difference p c.
Proof.
  intros Lp Lc Hne. pose proof (difference_nonneg p c) as H. unfold norm. change (sum (map2 (fun a b => (a - b) ^ 2) p c)) with (difference p c). assert (difference p c <> 0) by (intros Z; apply Hne, difference_zero; auto; congruence). split; [apply sqrt_lt_R0; lra|]. split; [apply sqrt_sqrt; lra|lra].
Qed.
Lemma norm1 a b : norm [a] [b] = Rabs (a - b).
Proof. unfold norm, sum. cbn [map2 fold_right]. replace ((a - b) ^ 2 + 0) with (Rsqr (a - b)) by (unfold Rsqr; ring). apply sqrt_Rsqr_abs. Qed.
Ltac norm1_val := rewrite norm1; unfold Rabs; destruct (Rcase_abs _); lra.
(** the memberships are the documented ones for the hyper-parameter (m + 1) / 2 instead of m *)
Theorem C90_membership_formula D m centers p j : 1 < m -> length p = D -> of_dim D centers -> ~ In p centers -> (j < length centers)%nat ->
  nth j (point_membership m centers p) 0 = documented ((m + 1) / 2) centers p j.
Proof.
  intros Hm Lp Hc Hn Hj. rewrite row_nth by auto. set (cj := nth j centers []). assert (Ij : In cj centers) by (apply nth_In; auto).
  assert (Np : forall c, In c centers -> 0 < norm p c /\ norm p c * norm p c = difference p c /\ 0 < difference p c) by (intros c Ic; apply (norm_pos D); auto; intros ->; auto). destruct (Np cj Ij) as (P1 & P2 & P3).
  assert (Id : In (difference p cj) (map (difference p) centers)) by (apply in_map; auto).
  unfold member. rewrite (divider_far m) by (auto; apply differences_nonneg). assert (Hs : 0 < S_of m (map (difference p) centers)) by (apply (S_pos m) with (d := difference p cj); auto; lra). assert (Hw : 0 < wt m (difference p cj)) by apply exp_pos.
  assert (Hq : 0 < S_of m (map (difference p) centers) / wt m (difference p cj)) by (apply Rmult_lt_0_compat; auto; apply Rinv_0_lt_compat; auto). destruct (Req_EM_T (S_of m (map (difference p) centers) / wt m (difference p cj)) 0); [lra|]. unfold documented. f_equal.
  fold cj. unfold S_of. assert (F : far (map (difference p) centers) = map (difference p) centers). { unfold far. assert (A : forall l, (forall x, In x l -> x <> 0) -> filter differs l = l). { induction l as [|x l IH]; auto. intros H. simpl. assert (X : differs x = true) by (apply differs_true, H; left; auto). rewrite X, IH; auto. intros; apply H; right; auto. } apply A. intros x Hx. apply in_map_iff in Hx as (c & <- & Ic). destruct (Np c Ic) as (_ & _ & ?). lra. }
  rewrite F. unfold Rdiv at 1. rewrite <- rtotal_scal, !map_map. unfold sum, rtotal. f_equal. apply map_ext_in. intros ck Ik. destruct (Np ck Ik) as (Q1 & Q2 & Q3). unfold wt, degree. rewrite Rpower_Ropp. rewrite <- P2, <- Q2.
  unfold Rpower, Rdiv. rewrite !ln_mult by (auto; apply Rinv_0_lt_compat; auto). rewrite ln_Rinv by auto. rewrite <- !exp_Ropp, <- exp_plus. f_equal. field. lra.
Qed.
(** so C90 itself is false: with m = 2 a point at distances 1 and 2 has membership 16/17, documented is 4/5 *)
Theorem C90_membership_refuted : exists centers p, of_dim 1 centers /\ ~ In p centers /\ nth 0 (point_membership 2 centers p) 0 = 16 / 17 /\ documented 2 centers p 0 = 4 / 5.
Proof.
  exists [[1]; [2]], [0]. assert (Hc : of_dim 1 [[1]; [2]]) by (intros q [<-|[<-|[]]]; auto). assert (Hn : ~ In [0] [[1]; [2]]) by (intros [H|[H|[]]]; injection H; lra). split; [auto|]. split; [auto|].
  assert (N1 : norm [0] [1] = 1) by norm1_val. assert (N2 : norm [0] [2] = 2) by norm1_val.
  assert (Pw : forall x n, 0 < x -> Rpower x (INR n) = x ^ n) by (intros; apply Rpower_pow; auto).
  split.
  - rewrite (C90_membership_formula 1) by (auto; simpl; lia || lra). unfold documented, sum. cbn [nth map fold_right]. rewrite N1, N2. replace (2 / ((2 + 1) / 2 - 1)) with (INR 4) by (simpl; field). rewrite !Pw by lra. simpl. field.
  - unfold documented, sum. cbn [nth map fold_right]. rewrite N1, N2. replace (2 / (2 - 1)) with (INR 2) by (simpl; field). rewrite !Pw by lra. simpl. field.
Qed.
Print Assumptions C90_membership_refuted.
(** the documented centres weigh the points by the memberships to the power m; the code by the memberships *)
Theorem C90_centres data m prev j d : (j < length prev)%nat -> (d < length (nth 0 data []))%nat -> data <> [] -> 1 < m ->
  let w := map (fun p => nth j (point_membership m prev p) 0) data in
  nth d (nth j (calculate_centers data (update_membership data m prev) (length prev)) []) 0 * sum w = sum (map2 (fun w p => w * nth d p 0) w data) /\ 0 < sum w.
Proof.
  intros Hj Hd Hne Hm w. unfold calculate_centers. rewrite nth_map_seq0 by auto. unfold dim. rewrite nth_map_seq0 by auto. assert (Ew : column (update_membership data m prev) j = w) by (unfold column, update_membership, w; rewrite map_map; reflexivity). rewrite Ew. change rtotal with sum.
  assert (P : 0 < sum w). { destruct data as [|p data']; [congruence|]. apply Rlt_le_trans with (nth j (point_membership m prev p) 0); [apply (row_bounds m prev p), nth_In; rewrite row_length; auto|]. apply rtotal_in; [|left; auto]. intros y Hy. unfold w in Hy. apply in_map_iff in Hy as (q & <- & _). left. apply (row_bounds m prev q), nth_In. rewrite row_length. auto. }
  split; auto. field. lra.
Qed.
Print Assumptions C90_centres.
Theorem C90_centres_refuted : exists data prev, of_dim 1 data /\ of_dim 1 prev /\ (forall p, In p data -> ~ In p prev) /\
  let w := map (fun p => nth 0 (point_membership 2 prev p) 0) data in
  let documented_centre := sum (map2 (fun w p => w ^ 2 * nth 0 p 0) w data) / sum (map (fun w => w ^ 2) w) in
  nth 0 (nth 0 (calculate_centers data (update_membership data 2 prev) 2) []) 0 = 3 / 17 /\ documented_centre = 3 / 257.
Proof.
  exists [[0]; [3]], [[1]; [2]]. assert (Hc : of_dim 1 [[1]; [2]]) by (intros q [<-|[<-|[]]]; auto). split; [intros q [<-|[<-|[]]]; auto|]. split; [auto|].
  assert (Hn : forall p, In p [[0]; [3]] -> ~ In p [[1]; [2]]) by (intros p [<-|[<-|[]]] [H|[H|[]]]; injection H; lra). split; [auto|].
  assert (N1 : norm [0] [1] = 1) by norm1_val. assert (N2 : norm [0] [2] = 2) by norm1_val.
  assert (N3 : norm [3] [1] = 2) by norm1_val. assert (N4 : norm [3] [2] = 1) by norm1_val.
  assert (Pw : forall x n, 0 < x -> Rpower x (INR n) = x ^ n) by (intros; apply Rpower_pow; auto).
  assert (W0 : nth 0 (point_membership 2 [[1]; [2]] [0]) 0 = 16 / 17). { rewrite (C90_membership_formula 1) by (auto; try (simpl; lia); try lra; apply Hn; left; auto). unfold documented, sum. cbn [nth map fold_right]. rewrite N1, N2. replace (2 / ((2 + 1) / 2 - 1)) with (INR 4) by (simpl; field). rewrite !Pw by lra. simpl. field. }
  assert (W1 : nth 0 (point_membership 2 [[1]; [2]] [3]) 0 = 1 / 17). { rewrite (C90_membership_formula 1) by (auto; try (simpl; lia); try lra; apply Hn; right; left; auto). unfold documented, sum. cbn [nth map fold_right]. rewrite N3, N4. replace (2 / ((2 + 1) / 2 - 1)) with (INR 4) by (simpl; field). rewrite !Pw by lra. simpl. field. }
  intros w dc. assert (Ew : w = [16 / 17; 1 / 17]) by (unfold w; cbn [map]; rewrite W0, W1; reflexivity). split.
  - destruct (C90_centres [[0]; [3]] 2 [[1]; [2]] 0 0) as [E P]; [simpl; lia|simpl; lia|discriminate|lra|]. fold w in E, P. cbn [length] in E. rewrite Ew in E. unfold sum in E. cbn [map2 fold_right nth] in E. lra.
  - unfold dc. rewrite Ew. unfold sum. cbn [map2 map fold_right nth]. field.
Qed.
Print Assumptions C90_centres_refuted.

(** C91.  The clusters partition the points: point i is in the first cluster with the largest membership. *)
Theorem C91_clusters m data initial tolerance itermax clusters centers membership : 1 < m -> (1 <= itermax)%nat ->
  fcm_process data m initial tolerance itermax = Ok (clusters, centers, membership) ->
  partitions (length data) clusters /\ length clusters = length initial /\ length membership = length data /\
  forall i k, (k < length clusters)%nat -> In i (nth k clusters []) ->
    let row := nth i membership [] in (forall j, (j < length initial)%nat -> nth j row 0 <= nth k row 0) /\ (forall j, (j < k)%nat -> nth j row 0 < nth k row 0).
Proof.
  intros Hm Hi E. unfold fcm_process in E. destruct (Nat.eqb_spec (length data) 0) as [|Hn]; [discriminate|]. destruct (Nat.eqb_spec (length initial) 0) as [|Hk]; [discriminate|]. apply Ok_inj in E. cbv zeta in E.
  destruct (loop_ran data m tolerance itermax (map (fun _ => map (fun _ => 0) initial) data) initial Hi) as (prev & L & E1 & E2). injection E as <- <- <-. rewrite E2. assert (Lc : length (calculate_centers data (fst (fcm_loop data m tolerance itermax None (map (fun _ => map (fun _ => 0) initial) data) initial)) (length prev)) = length initial) by (unfold calculate_centers; rewrite map_length, seq_length; auto). rewrite Lc, E1. clear Lc.
  set (mb := update_membership data m prev). assert (Lm : length mb = length data) by (unfold mb, update_membership; rewrite map_length; auto).
  unfold extract_clusters. rewrite push_groups, Lm. assert (Hrow : forall i, (i < length data)%nat -> nth i mb [] <> [] /\ length (nth i mb []) = length initial). { intros i Hi'. unfold mb. rewrite membership_row by auto. rewrite row_length. split; [|auto]. intros Z. apply (f_equal (@length R)) in Z. rewrite row_length in Z. simpl in Z. lia. }
  split; [|split; [unfold groups_of; rewrite map_length, seq_length; auto|split; [auto|]]].
  - unfold partitions, groups_of. apply filter_label_perm. intros i Hi'. apply in_seq in Hi'. destruct (Hrow i ltac:(lia)) as [A B]. rewrite <- B. apply argmax_spec. auto.
  - intros i k Hk' Hin. unfold groups_of in Hk', Hin. rewrite map_length, seq_length in Hk'. rewrite nth_map_seq0 in Hin by auto. apply filter_In in Hin as [Hi' Ek]. apply in_seq in Hi'. apply Nat.eqb_eq in Ek. destruct (Hrow i ltac:(lia)) as [A B]. destruct (argmax_spec (nth i mb []) A) as (_ & M1 & M2). rewrite Ek, B in *. split; auto.
Qed.
(** a point that is no centre has its largest memberships in nearest centres only *)
Theorem C91_nearest_partial D m centers p j k : 1 < m -> length p = D -> of_dim D centers -> ~ In p centers -> (j < length centers)%nat -> (k < length centers)%nat ->
  nth j (point_membership m centers p) 0 <= nth k (point_membership m centers p) 0 -> norm p (nth k centers []) <= norm p (nth j centers []).
Proof.
  intros Hm Lp Hc Hn Hj Hk Hle. destruct (Rle_lt_dec (norm p (nth k centers [])) (norm p (nth j centers []))) as [|Hlt]; auto. exfalso. rewrite !row_nth in Hle by auto.
  pose proof (nth_In _ [] Hj) as Ij. pose proof (nth_In _ [] Hk) as Ik. destruct (norm_pos D p (nth j centers [])) as (A1 & A2 & A3); auto; [intros ->; auto|]. destruct (norm_pos D p (nth k centers [])) as (B1 & B2 & B3); auto; [intros ->; auto|].
  pose proof (member_mono m Hm (map (difference p) centers) (difference p (nth j centers [])) (difference p (nth k centers [])) (differences_nonneg p centers) (in_map _ _ _ Ij) (in_map _ _ _ Ik) ltac:(lra)) as M.
  assert (difference p (nth j centers []) < difference p (nth k centers [])) by nra. specialize (M H). lra.
Qed.
Print Assumptions C91_nearest_partial.
Example C91_example : exists r, fcm_process [[0]; [1]; [5]] 2 [[2]; [4]] (1 / 1000) 3 = Ok r /\ ~ In [0] [[2]; [4]] /\ nth 1 (point_membership 2 [[2]; [4]] [0]) 0 <= nth 0 (point_membership 2 [[2]; [4]] [0]) 0.
Proof.
  eexists. split; [reflexivity|]. assert (Hn : ~ In [0] [[2]; [4]]) by (intros [H|[H|[]]]; injection H; lra). split; auto. destruct (Rle_lt_dec (nth 1 (point_membership 2 [[2]; [4]] [0]) 0) (nth 0 (point_membership 2 [[2]; [4]] [0]) 0)) as [|Hlt]; auto. exfalso.
  assert (Hc : of_dim 1 [[2]; [4]]) by (intros q [<-|[<-|[]]]; auto). pose proof (C91_nearest_partial 1 2 [[2]; [4]] [0] 0 1 ltac:(lra) eq_refl Hc Hn ltac:(simpl; lia) ltac:(simpl; lia) ltac:(lra)) as X. cbn [nth] in X.
  assert (N1 : norm [0] [2] = 2) by norm1_val. assert (N2 : norm [0] [4] = 4) by norm1_val. lra.
Qed.
(** C91 with nearest centres is false for a point that is a centre: point 0 is centre 1, but is put into cluster 0,
    whose centre is elsewhere, because both memberships are 1 *)
Theorem C91_nearest_refuted : exists data initial clusters centers membership, of_dim 1 data /\ of_dim 1 initial /\ fcm_process data 2 initial 0 1 = Ok (clusters, centers, membership) /\
  In 0%nat (nth 0 clusters []) /\ nth 0 data [] = nth 1 initial [] /\ nth 0 data [] <> nth 0 initial [].
Proof.
  exists [[0]; [1]; [5]], [[5]; [0]]. eexists _, _, _. split; [intros q [<-|[<-|[<-|[]]]]; auto|]. split; [intros q [<-|[<-|[]]]; auto|]. split; [reflexivity|]. split; [|split; [reflexivity|simpl; intros H; injection H; lra]].
  set (mb := fst _). unfold extract_clusters. rewrite push_groups. assert (Lm : length mb = 3%nat) by reflexivity. rewrite Lm. match goal with |- context [groups_of _ 3 ?k] => change k with 2%nat end. unfold groups_of. rewrite nth_map_seq0 by lia. apply filter_In. split; [left; auto|]. apply Nat.eqb_eq.
  assert (Er : nth 0 mb [] = point_membership 2 [[5]; [0]] [0]) by reflexivity. rewrite Er. 
  assert (Z : difference [0] [0] = 0) by (apply difference_zero; auto). assert (F : difference [0] [5] <> 0) by (intros Q; apply difference_zero in Q; auto; injection Q; lra).
  assert (P1 : nth 1 (point_membership 2 [[5]; [0]] [0]) 0 <= 1) by (apply (row_bounds 2 [[5]; [0]] [0]), nth_In; rewrite row_length; simpl; lia).
  assert (P0 : nth 0 (point_membership 2 [[5]; [0]] [0]) 0 = 1). { rewrite row_nth by (simpl; lia). cbn [nth map]. unfold member, divider. cbn [filter]. assert (D1 : differs (difference [0] [5]) = true) by (apply differs_true; auto). assert (D0 : differs (difference [0] [0]) = false) by (rewrite Z; unfold differs; destruct (Req_EM_T 0 0); congruence). rewrite D1, D0. unfold rtotal. cbn [map fold_right].
    unfold Rdiv. rewrite Rinv_r by auto. unfold rpow. destruct (Req_EM_T 1 0); [lra|]. unfold Rpower. rewrite ln_1, Rmult_0_r, exp_0, Rplus_0_r. destruct (Req_EM_T 1 0); [lra|field]. }
  destruct (argmax_spec (point_membership 2 [[5]; [0]] [0])) as (A1 & A2 & A3); [intros Q; apply (f_equal (@length R)) in Q; rewrite row_length in Q; discriminate|]. rewrite row_length in A1. cbn [length] in A1.
  destruct (argmax (point_membership 2 [[5]; [0]] [0])) as [|[|x]] eqn:Ea; [reflexivity| |lia]. specialize (A3 0%nat ltac:(lia)). lra.
Qed.

Print Assumptions C32_membership_sum_partial.
Print Assumptions C89_centres_in_box.
Print Assumptions C90_membership_formula.
Print Assumptions C91_clusters.
Print Assumptions C91_nearest_refuted.
