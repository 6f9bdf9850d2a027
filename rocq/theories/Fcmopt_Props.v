(** What the two half-steps of fuzzy c-means minimise: C248. *)
From Verif Require Import Base Kmeans_Model Kmeans_Proofs Elbow_Model Metric_Model Fcm_Model Fcm_Proofs Fcm_Props.
From Coq Require Import Reals Lra.
Local Open Scope R_scope.

(** w to the power e for w >= 0 and e > 0 *)
Definition power (w e : R) : R := if Req_EM_T w 0 then 0 else Rpower w e.
(** the part of the documented objective that belongs to one point: its memberships to the power e times the squared distances *)
Definition cost (e : R) (centers : list rpoint) (p : rpoint) (row : list R) : R := sum (map2 (fun w c => power w e * norm p c ^ 2) row centers).
Definition objective (e : R) (data : list rpoint) (membership : list (list R)) (centers : list rpoint) : R := sum (map2 (fun row p => cost e centers p row) membership data).

Lemma power_tangent u t a : 1 < a -> 0 < u -> 0 <= t -> Rpower u a + a * Rpower u (a - 1) * (t - u) <= power t a.
Proof.
  intros Ha Hu Ht. assert (E : Rpower u a = Rpower u (a - 1) * u). { replace a with (a - 1 + 1) at 1 by ring. rewrite Rpower_plus, Rpower_1; auto. }
  assert (P : 0 < Rpower u (a - 1)) by apply exp_pos. unfold power. destruct (Req_EM_T t 0) as [->|Hn].
  - rewrite E. assert (0 < Rpower u (a - 1) * u) by (apply Rmult_lt_0_compat; auto). nra.
  - assert (Hz : 0 < t / u) by (apply Rmult_lt_0_compat; [lra|apply Rinv_0_lt_compat; auto]). set (L := ln (t / u)).
    assert (Et : t = u * exp L) by (unfold L; rewrite exp_ln by auto; field; lra).
    assert (Ep : Rpower t a = Rpower u a * exp (a * L)). { unfold Rpower. rewrite <- exp_plus. f_equal. rewrite Et at 1. rewrite ln_mult, ln_exp by (auto; apply exp_pos). ring. }
    rewrite Ep, E. rewrite Et at 1.
    assert (Ee : exp (a * L) = exp L * exp ((a - 1) * L)) by (rewrite <- exp_plus; f_equal; ring).
    pose proof (exp_ineq1_le ((a - 1) * L)) as I1. pose proof (exp_ineq1_le (- L)) as I2. pose proof (exp_pos L) as PL.
    assert (I3 : exp L * exp (- L) = 1) by (rewrite <- exp_plus; replace (L + - L) with 0 by ring; apply exp_0).
    assert (I4 : exp L * (1 + - L) <= 1) by (rewrite <- I3; apply Rmult_le_compat_l; lra).
    assert (I5 : exp L * (1 + (a - 1) * L) <= exp (a * L)) by (rewrite Ee; apply Rmult_le_compat_l; lra).
    assert (I6 : 1 + a * (exp L - 1) <= exp (a * L)). { apply Rle_trans with (2 := I5). assert ((a - 1) * (exp L * (1 + - L)) <= (a - 1) * 1) by (apply Rmult_le_compat_l; lra). lra. }
    assert (I7 : 0 < Rpower u (a - 1) * u) by (apply Rmult_lt_0_compat; auto). apply (Rmult_le_compat_l (Rpower u (a - 1) * u)) in I6; [|lra]. lra.
Qed.

Lemma cost_tangent a K centers p : 1 < a -> forall row row', length row = length centers -> length row' = length centers ->
  (forall w, In w row -> 0 < w) -> (forall w, In w row' -> 0 <= w) ->
  (forall k, (k < length centers)%nat -> Rpower (nth k row 0) (a - 1) * norm p (nth k centers []) ^ 2 = K) ->
  cost a centers p row + a * K * (sum row' - sum row) <= cost a centers p row'.
Proof.
  intros Ha. unfold cost. induction centers as [|c l IH]; intros [|w row] [|w' row'] L L' H H' HK; simpl in L, L'; try discriminate; [simpl; lra|].
  specialize (IH row row' ltac:(lia) ltac:(lia) ltac:(intros; apply H; right; auto) ltac:(intros; apply H'; right; auto) ltac:(intros k Hk; apply (HK (S k)); simpl; lia)).
  pose proof (HK 0%nat ltac:(simpl; lia)) as K0. cbn [nth] in K0. pose proof (H w (or_introl eq_refl)) as Hw. pose proof (power_tangent w w' a Ha Hw (H' w' (or_introl eq_refl))) as T.
  cbn [map2]. unfold sum in *. cbn [fold_right]. unfold power at 1. destruct (Req_EM_T w 0); [lra|]. pose proof (pow2_ge_0 (norm p c)) as Hx.
  apply (Rmult_le_compat_r (norm p c ^ 2)) in T; auto. rewrite <- K0 in *. lra.
Qed.

(** C248, memberships.  For a point that is no centre the memberships computed by the code minimise, among all rows of non-negative numbers
    that add up to one, the sum of the memberships to the power (m + 1) / 2 times the squared distances to the centres. *)
Theorem C248_memberships D m centers p row : 1 < m -> length p = D -> of_dim D centers -> ~ In p centers -> centers <> [] ->
  length row = length centers -> (forall w, In w row -> 0 <= w) -> sum row = 1 ->
  cost ((m + 1) / 2) centers p (point_membership m centers p) <= cost ((m + 1) / 2) centers p row.
Proof.
  intros Hm Lp Hc Hn Hne L Hw Hs. set (ds := map (difference p) centers). set (g := degree m).
  assert (Np : forall c, In c centers -> 0 < norm p c /\ norm p c * norm p c = difference p c /\ 0 < difference p c) by (intros c Ic; apply (norm_pos D); auto; intros ->; auto).
  assert (Sp : 0 < S_of m ds). { destruct centers as [|c l]; [congruence|]. destruct (Np c (or_introl eq_refl)) as (_ & _ & P). apply (S_pos m) with (d := difference p c); [left; auto|lra]. }
  assert (Hg : 0 < g) by (apply degree_pos; auto). assert (Ga : (m + 1) / 2 - 1 = / g) by (unfold g, degree; field; lra).
  assert (S1 : sum (point_membership m centers p) = 1).
  { destruct (C32_membership_sum_partial D m [p] centers p Hm ltac:(intros q [<-|[]]; auto) Hc Hne (or_introl eq_refl)) as (r & _ & -> & _ & _ & E & _). apply E. unfold coincident. clear - Hn. induction centers as [|c l IH]; auto. cbn [filter]. destruct (list_eq_dec Req_EM_T p c) as [->|]; [exfalso; apply Hn; left; auto|]. apply IH. intros H; apply Hn; right; auto. }
  pose proof (cost_tangent ((m + 1) / 2) (Rpower (S_of m ds) (- / g)) centers p ltac:(lra) (point_membership m centers p) row (row_length m centers p) L ltac:(intros w H; apply (row_bounds m) in H; lra) Hw) as T.
  rewrite Hs, S1 in T. cut (forall k, (k < length centers)%nat -> Rpower (nth k (point_membership m centers p) 0) ((m + 1) / 2 - 1) * norm p (nth k centers []) ^ 2 = Rpower (S_of m ds) (- / g)); [intros H; specialize (T H); lra|]. clear T. intros k Hk. rewrite row_nth by auto. set (c := nth k centers []). assert (Ic : In c centers) by (apply nth_In; auto). destruct (Np c Ic) as (N1 & N2 & N3).
  rewrite (proj1 (member_far m (map (difference p) centers) (difference p c) (differences_nonneg p centers) ltac:(apply in_map; auto) ltac:(lra))). fold ds. rewrite Ga. unfold wt. fold g.
  replace (norm p c ^ 2) with (difference p c) by (rewrite <- N2; ring). unfold Rdiv.
  assert (A : Rpower (difference p c) (- g) * / S_of m ds = exp (- g * ln (difference p c) + - ln (S_of m ds))). { rewrite exp_plus, exp_Ropp, (exp_ln (S_of m ds)) by auto. reflexivity. }
  rewrite A. unfold Rpower at 1. rewrite ln_exp. rewrite <- (exp_ln (difference p c) N3) at 2. rewrite <- exp_plus. unfold Rpower. f_equal. field. lra.
Qed.
Print Assumptions C248_memberships.

Lemma sum_swap {A} (f : A -> nat -> R) D : forall l, sum (map (fun a => sum (map (f a) (seq 0 D))) l) = sum (map (fun d => sum (map (fun a => f a d) l)) (seq 0 D)).
Proof.
  unfold sum. induction l as [|a l IH]; cbn [map fold_right]; [induction (seq 0 D) as [|x s IHs]; simpl; [auto|rewrite <- IHs; ring]|]. rewrite IH. clear IH. induction (seq 0 D) as [|x s IHs]; simpl; [ring|]. rewrite <- IHs. ring.
Qed.
Lemma difference_coords : forall D p c, length p = D -> length c = D -> difference p c = sum (map (fun d => (nth d p 0 - nth d c 0) ^ 2) (seq 0 D)).
Proof.
  induction D as [|D IH]; intros [|a p] [|b c] Lp Lc; simpl in Lp, Lc; try discriminate; [reflexivity|]. unfold difference, rtotal. cbn [map2 fold_right]. change (fold_right Rplus 0 (map2 (fun a b => (a - b) ^ 2) p c)) with (difference p c). rewrite (IH p c) by lia.
  cbn [seq map]. rewrite <- seq_shift, map_map. unfold sum. cbn [fold_right nth]. reflexivity.
Qed.
Lemma mean_best (w x : rpoint -> R) c c' l : (forall p, In p l -> 0 <= w p) -> c * sum (map w l) = sum (map (fun p => w p * x p) l) ->
  sum (map (fun p => w p * (x p - c) ^ 2) l) <= sum (map (fun p => w p * (x p - c') ^ 2) l).
Proof.
  intros Hw E. assert (P : 0 <= sum (map w l)) by (apply rtotal_nonneg; intros y Hy; apply in_map_iff in Hy as (p & <- & Hp); auto).
  assert (I : sum (map (fun p => w p * (x p - c') ^ 2) l) = sum (map (fun p => w p * (x p - c) ^ 2) l) + 2 * (c - c') * (sum (map (fun p => w p * x p) l) - c * sum (map w l)) + (c - c') ^ 2 * sum (map w l)).
  { clear E P Hw. unfold sum. induction l as [|p l IH]; simpl; [ring|]. simpl in IH. rewrite IH. ring. }
  rewrite I, <- E. pose proof (pow2_ge_0 (c - c')). assert (0 <= (c - c') ^ 2 * sum (map w l)) by (apply Rmult_le_pos; auto). lra.
Qed.

(** C248, centres.  Centre j computed by the code minimises, among all points of the space, the sum of the memberships in cluster j (to the
    power one) times the squared distances to the points. *)
Theorem C248_centres D data m prev j c' : 1 < m -> of_dim D data -> data <> [] -> (j < length prev)%nat -> length c' = D ->
  let w p := nth j (point_membership m prev p) 0 in let c := nth j (calculate_centers data (update_membership data m prev) (length prev)) [] in
  length c = D /\ sum (map (fun p => w p * norm p c ^ 2) data) <= sum (map (fun p => w p * norm p c' ^ 2) data).
Proof.
  intros Hm Hd Hne Hj Lc' w c. assert (D0 : length (nth 0 data []) = D) by (destruct data; [congruence|apply Hd; left; auto]).
  assert (Lc : length c = D). { unfold c, calculate_centers. rewrite nth_map_seq0 by auto. rewrite map_length, seq_length. auto. } split; auto.
  assert (Q : forall q, length q = D -> sum (map (fun p => w p * norm p q ^ 2) data) = sum (map (fun d => sum (map (fun p => w p * (nth d p 0 - nth d q 0) ^ 2) data)) (seq 0 D))).
  { intros q Lq. rewrite <- (sum_swap (fun p d => w p * (nth d p 0 - nth d q 0) ^ 2)). f_equal. apply map_ext_in. intros p Hp. assert (N : norm p q ^ 2 = difference p q) by (unfold norm; apply pow2_sqrt; apply difference_nonneg). rewrite N, (difference_coords D) by auto. unfold sum. induction (seq 0 D) as [|x s IH]; simpl; [ring|]. simpl in IH. rewrite <- IH. ring. }
  rewrite !Q by auto. assert (G : forall s, (forall d, In d s -> (d < D)%nat) -> sum (map (fun d => sum (map (fun p => w p * (nth d p 0 - nth d c 0) ^ 2) data)) s) <= sum (map (fun d => sum (map (fun p => w p * (nth d p 0 - nth d c' 0) ^ 2) data)) s)).
  { induction s as [|d s IH]; intros H; unfold sum in *; cbn [map fold_right]; [lra|]. apply Rplus_le_compat; [|apply IH; intros; apply H; right; auto]. apply (mean_best w (fun p => nth d p 0)).
    - intros p _. left. apply (row_bounds m prev p), nth_In. rewrite row_length. auto.
    - destruct (C90_centres data m prev j d Hj ltac:(pose proof (H d (or_introl eq_refl)); unfold rpoint in *; lia) Hne Hm) as [E _]. etransitivity; [exact E|]. change (fun p => nth j (point_membership m prev p) 0) with w. unfold sum. clearbody w. clear. induction data as [|p l IH]; simpl; auto. simpl in IH. rewrite IH. reflexivity. }
  apply G. intros d Hd'. apply in_seq in Hd'. lia.
Qed.
Print Assumptions C248_centres.
Example C248_example : (1 < 3) /\ of_dim 1 [[2]; [4]] /\ ~ In [0] [[2]; [4]] /\ sum [1 / 4; 3 / 4] = 1 /\ of_dim 1 [[0]; [1]; [5]].
Proof. split; [lra|]. split; [intros q [<-|[<-|[]]]; auto|]. split; [intros [H|[H|[]]]; injection H; lra|]. split; [unfold sum; simpl; lra|intros q [<-|[<-|[<-|[]]]]; auto]. Qed.

(** C248 for the documented objective (the memberships to the power m) is false.  With m = 2 the update of the centres raises it, and a second
    iteration of the algorithm returns a result with a larger objective than the first. *)
Lemma power2 w : 0 < w -> power w 2 = w ^ 2.
Proof. intros H. unfold power. destruct (Req_EM_T w 0); [lra|]. replace 2 with (INR 2) by (simpl; ring). apply Rpower_pow; auto. Qed.
Lemma row2 p a b : p <> a -> p <> b -> point_membership 2 [[a]; [b]] [p] =
  [ (p - b) ^ 4 / ((p - a) ^ 4 + (p - b) ^ 4); (p - a) ^ 4 / ((p - a) ^ 4 + (p - b) ^ 4) ].
Proof.
  intros Ha Hb. unfold point_membership, difference, rtotal. cbn [map map2 fold_right]. set (x := (p - a) ^ 2 + 0). set (y := (p - b) ^ 2 + 0). assert (Px : 0 < x) by (unfold x; assert (Z := Rsqr_pos_lt (p - a) ltac:(lra)); unfold Rsqr in Z; lra). assert (Py : 0 < y) by (unfold y; assert (Z := Rsqr_pos_lt (p - b) ltac:(lra)); unfold Rsqr in Z; lra).
  assert (M : forall z, 0 < z -> member 2 [x; y] z = 1 / ((z / x) ^ 2 + (z / y) ^ 2)).
  { intros z Pz. unfold member, divider, rtotal. cbn [filter]. assert (Dx : differs x = true) by (apply differs_true; lra). assert (Dy : differs y = true) by (apply differs_true; lra). rewrite Dx, Dy. cbn [map fold_right]. unfold rpow, degree. replace (2 / (2 - 1)) with (INR 2) by (simpl; field).
    assert (A : 0 < z / x) by (apply Rmult_lt_0_compat; auto; apply Rinv_0_lt_compat; auto). assert (B : 0 < z / y) by (apply Rmult_lt_0_compat; auto; apply Rinv_0_lt_compat; auto). destruct (Req_EM_T (z / x) 0); [lra|]. destruct (Req_EM_T (z / y) 0); [lra|]. rewrite !Rpower_pow by auto.
    assert (0 < (z / x) ^ 2) by (apply pow_lt; auto). assert (0 < (z / y) ^ 2) by (apply pow_lt; auto). destruct (Req_EM_T ((z / x) ^ 2 + ((z / y) ^ 2 + 0)) 0); [lra|]. f_equal. ring. }
  rewrite !M by auto. replace ((p - a) ^ 4) with (x ^ 2) by (unfold x; ring). replace ((p - b) ^ 4) with (y ^ 2) by (unfold y; ring). assert (0 < x ^ 2) by (apply pow_lt; auto). assert (0 < y ^ 2) by (apply pow_lt; auto). f_equal; [|f_equal]; field; repeat split; nra.
Qed.
Definition four : list rpoint := [[0]; [1]; [1]; [2]].
Lemma objective4 u v a b : 0 < u -> 0 < v -> objective 2 four [[u; v]; [1 / 2; 1 / 2]; [1 / 2; 1 / 2]; [v; u]] [[a]; [b]] =
  u ^ 2 * a ^ 2 + v ^ 2 * b ^ 2 + ((1 - a) ^ 2 + (1 - b) ^ 2) / 2 + v ^ 2 * (2 - a) ^ 2 + u ^ 2 * (2 - b) ^ 2.
Proof.
  intros Hu Hv. unfold objective, four, cost, sum. cbn [map2 fold_right]. rewrite !power2 by lra. rewrite !norm1. assert (A : forall x, Rabs x ^ 2 = x ^ 2) by (intros; apply pow2_abs). rewrite !A. field.
Qed.
Lemma centers4 u v : u + v = 1 -> calculate_centers four [[u; v]; [1 / 2; 1 / 2]; [1 / 2; 1 / 2]; [v; u]] 2 = [[(1 + 2 * v) / 2]; [(1 + 2 * u) / 2]].
Proof.
  intros H. unfold calculate_centers, dim, four, column, rtotal. cbn [nth length seq map map2 fold_right]. repeat (f_equal; try lra).
Qed.
Theorem C248_objective_refuted : exists data initial u1 c1 k1 u2 c2 k2, of_dim 1 data /\ of_dim 1 initial /\ (forall p, In p data -> ~ In p initial) /\
  fcm_process data 2 initial 0 1 = Ok (k1, c1, u1) /\ fcm_process data 2 initial 0 2 = Ok (k2, c2, u2) /\
  objective 2 data u1 initial < objective 2 data u1 c1 /\ objective 2 data u1 c1 < objective 2 data u2 c2.
Proof.
  set (i0 := [[1 / 2]; [3 / 2]]). set (m1 := [[81 / 82; 1 / 82]; [1 / 2; 1 / 2]; [1 / 2; 1 / 2]; [1 / 82; 81 / 82]]). set (i1 := [[(1 + 2 * (1 / 82)) / 2]; [(1 + 2 * (81 / 82)) / 2]]).
  set (u := 13845841 / 14040322). set (v := 194481 / 14040322). set (m2 := [[u; v]; [1 / 2; 1 / 2]; [1 / 2; 1 / 2]; [v; u]]). set (i2 := [[(1 + 2 * v) / 2]; [(1 + 2 * u) / 2]]).
  assert (M1 : update_membership four 2 i0 = m1). { unfold update_membership, four, i0. cbn [map]. rewrite !row2 by lra. unfold m1. repeat (f_equal; try field). }
  assert (C1 : calculate_centers four m1 2 = i1) by (apply centers4; lra).
  assert (M2 : update_membership four 2 i1 = m2). { unfold update_membership, four, i1. cbn [map]. rewrite !row2 by lra. unfold m2, u, v. repeat (f_equal; try field). }
  assert (C2 : calculate_centers four m2 2 = i2) by (apply centers4; unfold u, v; lra).
  assert (Ch : 0 < calculate_changes i0 i1). { unfold calculate_changes, i0, i1, difference, rtotal. cbn [map2 fold_right]. apply Rlt_le_trans with (2 := Rmax_l _ _). assert (Z := Rsqr_pos_lt (1 / 2 - (1 + 2 * (1 / 82)) / 2) ltac:(lra)). unfold Rsqr in Z. lra. }
  exists four, i0, m1, i1. eexists. exists m2, i2. eexists. split; [intros p [<-|[<-|[<-|[<-|[]]]]]; auto|]. split; [intros p [<-|[<-|[]]]; auto|]. split.
  { intros p [<-|[<-|[<-|[<-|[]]]]] [H|[H|[]]]; injection H; lra. }
  split; [|split; [|split]].
  - unfold fcm_process. change (length four =? 0)%nat with false. change (length i0 =? 0)%nat with false. cbv iota zeta. cbn [fcm_loop]. rewrite M1. change (length i0) with 2%nat. rewrite C1. reflexivity.
  - unfold fcm_process. change (length four =? 0)%nat with false. change (length i0 =? 0)%nat with false. cbv iota zeta. cbn [fcm_loop]. rewrite M1. change (length i0) with 2%nat. rewrite C1. destruct (Rlt_dec 0 (calculate_changes i0 i1)); [|contradiction]. rewrite M2. change (length i1) with 2%nat. rewrite C2. reflexivity.
  - unfold m1, i0, i1. rewrite !objective4 by lra. lra.
  - unfold m1, m2, i1, i2. rewrite !objective4 by (unfold u, v; lra). unfold u, v. lra.
Qed.
Print Assumptions C248_objective_refuted.
