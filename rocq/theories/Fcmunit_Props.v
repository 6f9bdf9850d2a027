(** C270: fuzzy c-means does not depend on the unit and the origin of the coordinates. *)
From Verif Require Import Base Kmeans_Model Kmeans_Proofs Metric_Model Fcm_Model Fcm_Proofs Unit_Props Fcmorder_Props.
From Coq Require Import Reals Lra Lia.
Local Open Scope R_scope.

(** ** specification *)
(** a point in another unit (one for all coordinates) and from another origin *)
Definition in_unit (s : R) (ts : list R) (p : rpoint) : rpoint := map2 (fun t x => s * x + t) ts p.
(** the same clusters and memberships, the centres in the new coordinates *)
Definition in_other_unit (s : R) (ts : list R) (r r' : list (list nat) * list rpoint * list (list R)) : Prop :=
  let '(cl, ce, me) := r in let '(cl', ce', me') := r' in cl' = cl /\ me' = me /\ ce' = map (in_unit s ts) ce.

Section Unit.
Variables (s : R) (ts : list R) (data : list rpoint) (m : R).
Hypothesis Hs : 0 < s.
Hypothesis HD : forall p, In p data -> length p = length ts.
Hypothesis Hne : data <> [].
Notation mv := (in_unit s ts).

Lemma unit_length p : length p = length ts -> length (mv p) = length ts.
Proof. unfold in_unit. clear. revert p. induction ts as [|t l IH]; intros [|x p] H; cbn in *; try lia. rewrite IH; lia. Qed.
Lemma unit_nth p d : (d < length ts)%nat -> length p = length ts -> nth d (mv p) 0 = s * nth d p 0 + nth d ts 0.
Proof. unfold in_unit. clear. revert p d. induction ts as [|t l IH]; intros [|x p] [|d] H L; cbn in *; try lia; [reflexivity|]. apply IH; lia. Qed.
Lemma unit_difference p q : length p = length ts -> length q = length ts -> difference (mv p) (mv q) = s ^ 2 * difference p q.
Proof.
  unfold in_unit, difference. clear. revert p q. induction ts as [|t l IH]; intros [|x p] [|y q] H L; cbn [length] in *; try lia; [cbn; lra|].
  cbn [map2 rtotal fold_right]. fold (rtotal (map2 (fun a b => (a - b) ^ 2) (map2 (fun t x => s * x + t) l p) (map2 (fun t x => s * x + t) l q))).
  fold (rtotal (map2 (fun a b => (a - b) ^ 2) p q)). rewrite IH by lia. ring.
Qed.
Lemma s2_pos : 0 < s ^ 2. Proof. cbn. nra. Qed.
Lemma rpow_same a b : rpow m (s ^ 2 * a / (s ^ 2 * b)) = rpow m (a / b).
Proof.
  pose proof s2_pos as P. destruct (Req_EM_T b 0) as [-> | Hb].
  - unfold Rdiv. now rewrite !Rmult_0_r, Rinv_0, !Rmult_0_r.
  - f_equal. field. split; [exact Hb|lra].
Qed.
Lemma differs_same d : differs (s ^ 2 * d) = differs d.
Proof. pose proof s2_pos as P. unfold differs. destruct (Req_EM_T (s ^ 2 * d) 0) as [E | E], (Req_EM_T d 0) as [F | F]; auto; exfalso; [apply Rmult_integral in E; lra|subst; apply E; ring]. Qed.
Lemma divider_same ds d : divider m (map (fun x => s ^ 2 * x) ds) (s ^ 2 * d) = divider m ds d.
Proof.
  unfold divider. f_equal. induction ds as [|x t IH]; [reflexivity|]. cbn [map filter]. rewrite differs_same. destruct (differs x); [|exact IH]. cbn [map]. now rewrite rpow_same, IH.
Qed.
Lemma row_same centers p : (forall c, In c centers -> length c = length ts) -> length p = length ts -> point_membership m (map mv centers) (mv p) = point_membership m centers p.
Proof.
  intros Hc Hp. unfold point_membership. assert (E : map (difference (mv p)) (map mv centers) = map (fun x => s ^ 2 * x) (map (difference p) centers)).
  { rewrite !map_map. apply map_ext_in. intros c Hi. apply unit_difference; auto. }
  rewrite E. rewrite (map_map (fun x => s ^ 2 * x)). apply map_ext. intro d. unfold member. now rewrite divider_same.
Qed.
Lemma membership_same centers : (forall c, In c centers -> length c = length ts) -> update_membership (map mv data) m (map mv centers) = update_membership data m centers.
Proof. intro Hc. unfold update_membership. rewrite map_map. apply map_ext_in. intros p Hp. apply row_same; auto. Qed.
Lemma dim_is : dim data = length ts.
Proof. unfold dim. apply HD, nth_In. destruct data; [congruence|cbn; lia]. Qed.
Lemma dim_unit : dim (map mv data) = length ts.
Proof.
  unfold dim. destruct data as [|p t] eqn:E; [congruence|]. cbn [map nth]. apply unit_length, HD. left. reflexivity.
Qed.
Lemma weighted_unit d : (d < length ts)%nat -> forall (ws : list R) (ps : list rpoint), length ws = length ps -> (forall p, In p ps -> length p = length ts) ->
  rtotal (map2 (fun w p => w * nth d p 0) ws (map mv ps)) = s * rtotal (map2 (fun w p => w * nth d p 0) ws ps) + nth d ts 0 * rtotal ws.
Proof.
  intro Hd. induction ws as [|w ws IH]; intros [|p ps] L HP; cbn [length] in L; try lia; [cbn; lra|]. cbn [map map2 rtotal fold_right].
  fold (rtotal (map2 (fun w p => w * nth d p 0) ws (map mv ps))). fold (rtotal (map2 (fun w p => w * nth d p 0) ws ps)). fold (rtotal ws).
  rewrite IH by (auto; try lia; intros q Hq; apply HP; right; exact Hq). rewrite unit_nth by (auto; apply HP; left; reflexivity). ring.
Qed.
Lemma centers_unit prev : let mem := update_membership data m prev in calculate_centers (map mv data) mem (length prev) = map mv (calculate_centers data mem (length prev)).
Proof.
  intro mem. unfold calculate_centers. rewrite dim_unit, dim_is, map_map. apply map_ext_in. intros j Hj. apply in_seq in Hj.
  assert (Lm : length mem = length data) by apply map_length. set (col := column mem j). assert (Lc : length col = length data) by (unfold col; rewrite column_length; exact Lm).
  assert (P : 0 < rtotal col).
  { assert (Q : forall w, In w col -> 0 < w) by (intros w Hw; eapply column_pos; [|exact Hw]; lia). destruct col as [|w t] eqn:E; [destruct data; [congruence|cbn in Lc; lia]|].
    apply Rlt_le_trans with w; [apply Q; left; reflexivity|]. apply rtotal_in; [intros y Hy; apply Rlt_le, Q, Hy|left; reflexivity]. }
  apply (nth_ext _ _ 0 0).
  - rewrite map_length, seq_length, unit_length; [reflexivity|]. now rewrite map_length, seq_length.
  - intros d Hd. rewrite map_length, seq_length in Hd. rewrite unit_nth by (auto; now rewrite map_length, seq_length). rewrite !nth_map_seq0 by exact Hd.
    rewrite weighted_unit by auto. field. lra.
Qed.
Lemma centers_dim mem k c : In c (calculate_centers data mem k) -> length c = length ts.
Proof. unfold calculate_centers. intro H. apply in_map_iff in H as (j & <- & _). rewrite map_length, seq_length. apply dim_is. Qed.
Lemma changes_unit : forall centers updated : list rpoint, (forall c, In c centers -> length c = length ts) -> (forall c, In c updated -> length c = length ts) ->
  calculate_changes (map mv centers) (map mv updated) = s ^ 2 * calculate_changes centers updated.
Proof.
  unfold calculate_changes. induction centers as [|a l IH]; intros [|b k] H1 H2; cbn [map map2 fold_right]; try lra.
  rewrite IH; [|intros c Hc; apply H1; right; exact Hc|intros c Hc; apply H2; right; exact Hc]. rewrite unit_difference; [|apply H1; left; reflexivity|apply H2; left; reflexivity].
  pose proof s2_pos. unfold Rmax. destruct (Rle_dec (s ^ 2 * difference a b) (s ^ 2 * fold_right (fun x y => if Rle_dec x y then y else x) 0 (map2 difference l k))) as [U | U], (Rle_dec (difference a b) (fold_right (fun x y => if Rle_dec x y then y else x) 0 (map2 difference l k))) as [V | V]; try reflexivity; exfalso; nra.
Qed.
Definition same_change (x y : option R) : Prop := match x, y with None, None => True | Some a, Some b => b = s ^ 2 * a | _, _ => False end.
Lemma goes_same tolerance x y : same_change x y ->
  match y with None => true | Some c => if Rlt_dec (s ^ 2 * tolerance) c then true else false end = match x with None => true | Some c => if Rlt_dec tolerance c then true else false end.
Proof.
  pose proof s2_pos as P. destruct x as [a|], y as [b|]; cbn [same_change]; try tauto. intros ->. destruct (Rlt_dec (s ^ 2 * tolerance) (s ^ 2 * a)) as [U | U], (Rlt_dec tolerance a) as [V | V]; try reflexivity; exfalso.
  - apply V. apply (Rmult_lt_reg_l (s ^ 2)); [exact P|exact U].
  - apply U. apply Rmult_lt_compat_l; [exact P|exact V].
Qed.
Lemma loop_unit tolerance : forall left x y mem centers, same_change x y -> (forall c, In c centers -> length c = length ts) ->
  fcm_loop (map mv data) m (s ^ 2 * tolerance) left y mem (map mv centers) = (let r := fcm_loop data m tolerance left x mem centers in (fst r, map mv (snd r))).
Proof.
  induction left as [|left IH]; intros x y mem centers C HC; cbn [fcm_loop]; [reflexivity|]. rewrite (goes_same _ _ _ C).
  destruct (match x with None => true | Some c => if Rlt_dec tolerance c then true else false end); [|reflexivity].
  rewrite membership_same by exact HC. rewrite map_length, centers_unit. apply IH; [|intros c; apply centers_dim].
  cbn [same_change]. apply changes_unit; [exact HC|intros c; apply centers_dim].
Qed.
End Unit.

Theorem C270_unit (data initial : list rpoint) m (s : R) (ts : list R) tolerance itermax : 0 < s ->
  (forall p, In p data -> length p = length ts) -> (forall c, In c initial -> length c = length ts) ->
  same_run (in_other_unit s ts) (fcm_process data m initial tolerance itermax) (fcm_process (map (in_unit s ts) data) m (map (in_unit s ts) initial) (s ^ 2 * tolerance) itermax).
Proof.
  intros Hs HD HI. unfold fcm_process. rewrite !map_length. destruct (length data =? 0)%nat eqn:E; [reflexivity|]. destruct (length initial =? 0)%nat; [reflexivity|].
  assert (Hne : data <> []) by (intros ->; discriminate).
  replace (map (fun _ : rpoint => map (fun _ => 0) (map (in_unit s ts) initial)) (map (in_unit s ts) data)) with (map (fun _ : rpoint => map (fun _ : rpoint => 0) initial) data) by (rewrite map_map; apply map_ext; intros _; now rewrite map_map).
  rewrite (loop_unit s ts data m Hs HD Hne tolerance itermax None None _ initial I HI). cbn [same_run in_other_unit fst snd]. rewrite map_length. auto.
Qed.
Print Assumptions C270_unit.

(** no conversion is needed when only the origin moves *)
Theorem C270_origin (data initial : list rpoint) m (ts : list R) tolerance itermax :
  (forall p, In p data -> length p = length ts) -> (forall c, In c initial -> length c = length ts) ->
  same_run (in_other_unit 1 ts) (fcm_process data m initial tolerance itermax) (fcm_process (map (in_unit 1 ts) data) m (map (in_unit 1 ts) initial) tolerance itermax).
Proof. intros HD HI. replace tolerance with (1 ^ 2 * tolerance) at 2 by ring. apply C270_unit; auto. lra. Qed.
Print Assumptions C270_origin.

(** ** the tolerance is a squared distance: it has to be converted *)
Lemma rpow_one m : rpow m 1 = 1.
Proof. unfold rpow. destruct (Req_EM_T 1 0); [lra|]. unfold Rpower. rewrite ln_1, Rmult_0_r. apply exp_0. Qed.
Lemma rpow_nil m : rpow m 0 = 0.
Proof. unfold rpow. destruct (Req_EM_T 0 0); [reflexivity|lra]. Qed.
(** two centres at the same distance from a point *)
Lemma row_even m (p a b : rpoint) x : difference p a = x -> difference p b = x -> x <> 0 -> point_membership m [a; b] p = [1 / 2; 1 / 2].
Proof.
  intros A B H. unfold point_membership, member, divider. cbn [map]. rewrite A, B. unfold differs. cbn [filter map]. destruct (Req_EM_T x 0); [lra|]. cbn [map rtotal fold_right].
  replace (x / x) with 1 by (field; exact H). rewrite rpow_one. destruct (Req_EM_T (1 + (1 + 0)) 0); [lra|]. f_equal; [lra|f_equal; lra].
Qed.
(** the first centre at the point *)
Lemma row_hit m (p a b : rpoint) x : difference p a = 0 -> difference p b = x -> x <> 0 -> point_membership m [a; b] p = [1; 1].
Proof.
  intros A B H. unfold point_membership, member, divider. cbn [map]. rewrite A, B. unfold differs. cbn [filter map]. destruct (Req_EM_T 0 0); [|lra]. destruct (Req_EM_T x 0); [lra|]. cbn [map rtotal fold_right].
  replace (0 / x) with 0 by (field; exact H). replace (x / x) with 1 by (field; exact H). rewrite rpow_one, rpow_nil. destruct (Req_EM_T (0 + 0) 0); [|lra]. destruct (Req_EM_T (1 + 0) 0); [lra|]. f_equal. f_equal. field.
Qed.
Definition low (u : R) : list rpoint := [[0]; [u]].
Definition begin (u : R) : list rpoint := [[0]; [2 * u]].
Lemma one_difference a b : difference [a] [b] = (a - b) ^ 2. Proof. unfold difference. cbn. ring. Qed.
Lemma first_step m u : 0 < u -> update_membership (low u) m (begin u) = [[1; 1]; [1 / 2; 1 / 2]] /\ calculate_centers (low u) [[1; 1]; [1 / 2; 1 / 2]] 2 = [[u / 3]; [u / 3]].
Proof.
  intro Hu. split.
  - unfold update_membership, low, begin. cbn [map]. f_equal; [apply (row_hit m [0] [0] [2 * u] ((2 * u) ^ 2))|f_equal; apply (row_even m [u] [0] [2 * u] (u ^ 2))]; rewrite ?one_difference; try ring; apply pow_nonzero; lra.
  - unfold calculate_centers, low, column. cbn. f_equal; [f_equal; field|f_equal; f_equal; field].
Qed.
Lemma second_step m u : 0 < u -> update_membership (low u) m [[u / 3]; [u / 3]] = [[1 / 2; 1 / 2]; [1 / 2; 1 / 2]] /\ calculate_centers (low u) [[1 / 2; 1 / 2]; [1 / 2; 1 / 2]] 2 = [[u / 2]; [u / 2]].
Proof.
  intro Hu. split.
  - unfold update_membership, low. cbn [map]. f_equal; [apply (row_even m [0] [u / 3] [u / 3] ((0 - u / 3) ^ 2))|f_equal; apply (row_even m [u] [u / 3] [u / 3] ((u - u / 3) ^ 2))]; rewrite ?one_difference; try ring; apply pow_nonzero; lra.
  - unfold calculate_centers, low, column. cbn. f_equal; [f_equal; field|f_equal; f_equal; field].
Qed.
Lemma first_change u : calculate_changes (begin u) [[u / 3]; [u / 3]] = 25 / 9 * u ^ 2.
Proof.
  unfold calculate_changes, begin. cbn [map2 fold_right]. rewrite !one_difference. pose proof (pow2_ge_0 u) as P. rewrite (Rmax_left ((2 * u - u / 3) ^ 2) 0) by apply pow2_ge_0.
  rewrite Rmax_right; [field|]. replace ((0 - u / 3) ^ 2) with (u ^ 2 / 9) by field. replace ((2 * u - u / 3) ^ 2) with (25 * u ^ 2 / 9) by field. lra.
Qed.
Lemma second_change u : calculate_changes [[u / 3]; [u / 3]] [[u / 2]; [u / 2]] = u ^ 2 / 36.
Proof.
  unfold calculate_changes. cbn [map2 fold_right]. rewrite !one_difference. rewrite (Rmax_left _ 0) by apply pow2_ge_0. rewrite Rmax_left by apply Rle_refl. field.
Qed.
Lemma loop_goes data m tolerance n change mem centers : match change with None => True | Some c => tolerance < c end ->
  fcm_loop data m tolerance (S n) change mem centers = (let mem' := update_membership data m centers in let up := calculate_centers data mem' (length centers) in fcm_loop data m tolerance n (Some (calculate_changes centers up)) mem' up).
Proof. intro H. cbn [fcm_loop]. destruct change as [c|]; [|reflexivity]. destruct (Rlt_dec tolerance c); [reflexivity|contradiction]. Qed.
Lemma loop_stops data m tolerance n c mem centers : c <= tolerance -> fcm_loop data m tolerance n (Some c) mem centers = (mem, centers).
Proof. intro H. destruct n as [|n]; cbn [fcm_loop]; [reflexivity|]. destruct (Rlt_dec tolerance c); [lra|reflexivity]. Qed.
Lemma run_one m n : exists cl me, fcm_process (low 1) m (begin 1) 3 (S (S (S n))) = Ok (cl, [[1 / 3]; [1 / 3]], me).
Proof.
  unfold fcm_process. change (length (low 1) =? 0)%nat with false. change (length (begin 1) =? 0)%nat with false. cbv iota.
  destruct (first_step m 1 Rlt_0_1) as (A & B). rewrite loop_goes by exact I. cbv zeta. rewrite A. change (length (begin 1)) with 2%nat. rewrite B. rewrite loop_stops by (rewrite first_change; lra).
  cbn [fst snd]. eauto.
Qed.
Lemma run_ten m n : exists cl me, fcm_process (low 10) m (begin 10) 3 (S (S (S n))) = Ok (cl, [[10 / 2]; [10 / 2]], me).
Proof.
  assert (P : 0 < 10) by lra. unfold fcm_process. change (length (low 10) =? 0)%nat with false. change (length (begin 10) =? 0)%nat with false. cbv iota.
  destruct (first_step m 10 P) as (A & B). destruct (second_step m 10 P) as (A' & B'). rewrite loop_goes by exact I. cbv zeta. rewrite A. change (length (begin 10)) with 2%nat. rewrite B.
  rewrite loop_goes by (rewrite first_change; lra). cbv zeta. rewrite A'. match goal with |- context [length ?l] => change (length l) with 2%nat end. rewrite B'. rewrite loop_stops by (rewrite second_change; lra). cbn [fst snd]. eauto.
Qed.
Theorem C270_tolerance_refuted : exists (data initial : list rpoint) m s ts tolerance itermax, 1 < m /\ 0 < s /\ 0 < tolerance /\
  (forall p, In p data -> length p = length ts) /\ (forall c, In c initial -> length c = length ts) /\
  ~ same_run (in_other_unit s ts) (fcm_process data m initial tolerance itermax) (fcm_process (map (in_unit s ts) data) m (map (in_unit s ts) initial) tolerance itermax).
Proof.
  exists (low 1), (begin 1), 2, 10, [0], 3, (S (S (S 97))). split; [lra|]. split; [lra|]. split; [lra|].
  split; [intros p [<- | [<- | []]]; reflexivity|]. split; [intros p [<- | [<- | []]]; reflexivity|].
  replace (map (in_unit 10 [0]) (low 1)) with (low 10) by (unfold low, in_unit; cbn; f_equal; [f_equal; ring|f_equal; f_equal; ring]). replace (map (in_unit 10 [0]) (begin 1)) with (begin 10) by (unfold begin, in_unit; cbn; f_equal; [f_equal; ring|f_equal; f_equal; ring]).
  destruct (run_one 2 97) as (c1 & m1 & ->). destruct (run_ten 2 97) as (c2 & m2 & ->). cbn [same_run in_other_unit]. intros (_ & _ & E). unfold in_unit in E. cbn in E. injection E as E _. lra.
Qed.
Print Assumptions C270_tolerance_refuted.

(** points of the plane in tenths and from another origin *)
Example C270_example : (forall p, In p [[0; 1]; [2; 3]; [8; 9]] -> length p = length [5; -1]) /\ map (in_unit 10 [5; -1]) [[0; 1]; [2; 3]; [8; 9]] = [[5; 9]; [25; 29]; [85; 89]].
Proof. split; [intros p [<- | [<- | [<- | []]]]; reflexivity|]. unfold in_unit. cbn [map map2]. f_equal; [|f_equal; [|f_equal]]; (f_equal; [ring|f_equal; ring]). Qed.
