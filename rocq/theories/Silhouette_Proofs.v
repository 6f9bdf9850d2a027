(** Silhouette: specification and proofs. *)
From Verif Require Import Base Kmeans_Model Kmeans_Proofs Silhouette_Model.

(** * Specification *)
Definition dist (rows : list (list Q)) (i j : nat) : Q := nth j (nth i rows []) 0%Q.
(** sum of the distances from [i] to the points of [l] *)
Definition dsum (rows : list (list Q)) (i : nat) (l : list nat) : Q := fold_right Qplus 0%Q (map (dist rows i) l).
Definition count (l : list nat) : Q := inject_Z (Z.of_nat (length l)).
(** mean distance of [i] to a group of points *)
Definition mean_distance (rows : list (list Q)) (i : nat) (l : list nat) : Q := (dsum rows i l / count l)%Q.
(** smallest mean distance to another cluster *)
Definition nearest_mean (rows : list (list Q)) (clusters : list (list nat)) (i own : nat) (b : Q) : Prop :=
  (exists c, c < length clusters /\ c <> own /\ (b == mean_distance rows i (nth c clusters []))%Q) /\
  forall c, c < length clusters -> c <> own -> (b <= mean_distance rows i (nth c clusters []))%Q.
Definition fl_eq (a b : fl) : Prop := match a, b with Fin x, Fin y => (x == y)%Q | NaN, NaN => True | PInf, PInf => True | NInf, NInf => True | _, _ => False end.

Section S.
Variable rows : list (list Q).
Variable clusters : list (list nat).
Hypothesis Hsq : forall r, In r rows -> length r = length rows.
Hypothesis Hvalid : forall c i, In c clusters -> In i c -> i < length rows.
Hypothesis Hdisj : NoDup (concat clusters).
Hypothesis Hnonempty : forall c, In c clusters -> c <> [].

Lemma difference_spec row l : forall acc, (forall i, In i l -> i < length row) -> exists s, cluster_difference acc row l = Ok s /\ (s == acc + fold_right Qplus 0 (map (fun j => nth j row 0) l))%Q.
Proof.
  induction l as [|i l IH]; intros acc H; cbn [cluster_difference map fold_right]; [exists acc; split; auto; lra|].
  destruct (Nat.ltb_spec i (length row)) as [_|Hi]; [|specialize (H i (or_introl eq_refl)); lia]. destruct (IH (acc + nth i row 0)%Q) as (s & E & Es); [intros; apply H; right; auto|]. exists s. split; auto. lra.
Qed.
Lemma row_length i : i < length rows -> length (nth i rows []) = length rows.
Proof. intros H. apply Hsq, nth_In, H. Qed.
Lemma cluster_in c : c < length clusters -> In (nth c clusters []) clusters.
Proof. apply nth_In. Qed.
Lemma count_pos l : l <> [] -> (0 < count l)%Q.
Proof. intros H. unfold count. destruct l; [congruence|]. unfold Qlt. simpl. lia. Qed.

Lemma cluster_score_spec i c : i < length rows -> c < length clusters -> exists s, cluster_score clusters c (nth i rows []) = Ok s /\ (s == mean_distance rows i (nth c clusters []))%Q.
Proof.
  intros Hi Hc. unfold cluster_score. destruct (difference_spec (nth i rows []) (nth c clusters []) 0%Q) as (s & E & Es).
  { intros j Hj. rewrite row_length by auto. eapply Hvalid; [apply cluster_in, Hc|auto]. }
  rewrite E. cbn [bind]. pose proof (Hnonempty _ (cluster_in c Hc)) as Hne. destruct (Nat.eqb_spec (length (nth c clusters [])) 0) as [E0|E0]; [destruct (nth c clusters []); [congruence|discriminate]|].
  eexists. split; [reflexivity|]. unfold mean_distance, dsum, dist. fold (count (nth c clusters [])). rewrite Es, Qplus_0_l. reflexivity.
Qed.

Lemma neighbor_loop_spec i own : i < length rows -> forall cs o, (forall c, In c cs -> c < length clusters) -> exists o', neighbor_loop clusters own (nth i rows []) cs o = Ok o' /\
  (match o' with None => o = None /\ forall c, In c cs -> c = own
   | Some b => ((exists o0, o = Some o0 /\ b = o0) \/ exists c, In c cs /\ c <> own /\ (b == mean_distance rows i (nth c clusters []))%Q) /\
     (forall o0, o = Some o0 -> (b <= o0)%Q) /\ forall c, In c cs -> c <> own -> (b <= mean_distance rows i (nth c clusters []))%Q end).
Proof.
  intros Hi. induction cs as [|c cs IH]; intros o Hc; cbn [neighbor_loop].
  - exists o. split; auto. destruct o as [b|]; [|split; auto; intros c []]. split; [left; eauto|]. split; [intros o0 [= ->]; lra|intros c []].
  - destruct (Nat.eqb_spec own c) as [->|Hne].
    + destruct (IH o) as (o' & E & H); [intros; apply Hc; right; auto|]. exists o'. split; auto. destruct o' as [b|].
      * destruct H as (H1 & H2 & H3). split; [|split; [auto|]]. { destruct H1 as [|(x & Hx & A)]; [auto|right; exists x; split; [right; auto|auto]]. } intros x [<-|Hx] Hn; [congruence|auto].
      * destruct H as [H1 H2]. split; auto. intros x [<-|Hx]; auto.
    + destruct (cluster_score_spec i c Hi (Hc c (or_introl eq_refl))) as (s & Es & Ms). rewrite Es. cbn [bind].
      set (o1 := match o with None => Some s | Some o => if Qltb s o then Some s else Some o end).
      destruct (IH o1) as (o' & E & H); [intros; apply Hc; right; auto|]. exists o'. split; [exact E|].
      assert (H1s : exists b1, o1 = Some b1 /\ (b1 <= s)%Q /\ (b1 = s \/ o = Some b1) /\ forall o0, o = Some o0 -> (b1 <= o0)%Q).
      { unfold o1. destruct o as [q|]; [destruct (Qltb s q) eqn:El; [apply Qltb_true in El|apply Qltb_false in El]|]; eexists; (split; [reflexivity|]); (split; [lra|]); (split; [auto|]); intros o0 [= <-]; lra. }
      destruct H1s as (b1 & Eb1 & L1 & O1 & M1). destruct o' as [b|]; [|destruct H; congruence]. destruct H as (H1 & H2 & H3). pose proof (H2 b1 Eb1) as Lb. split; [|split].
      * destruct H1 as [(o0 & A & ->)|(x & Hx & A)]; [|right; exists x; split; [right; auto|auto]]. rewrite Eb1 in A. injection A as <-. destruct O1 as [->|O1]; [right; exists c; split; [left; auto|split; auto]|left; eauto].
      * intros o0 Ho. specialize (M1 o0 Ho). lra.
      * intros x [<-|Hx] Hn; [|auto]. lra.
Qed.

Lemma dsum_remove i l : NoDup l -> In i l -> (dist rows i i == 0)%Q -> (dsum rows i l == dsum rows i (remove Nat.eq_dec i l))%Q.
Proof.
  intros N H Hz. unfold dsum. induction l as [|j l IH]; [destruct H|]. inversion N; subst. simpl. destruct (Nat.eq_dec i j) as [<-|Hne].
  - rewrite notin_remove by auto. rewrite Hz. lra.
  - destruct H as [->|H]; [congruence|]. simpl. rewrite (IH H3 H). reflexivity.
Qed.
Lemma remove_length i l : NoDup l -> In i l -> length l = S (length (remove Nat.eq_dec i l)).
Proof.
  intros N H. induction l as [|j l IH]; [destruct H|]. inversion N; subst. simpl. destruct (Nat.eq_dec i j) as [<-|Hne]; [rewrite notin_remove by auto; auto|]. destruct H as [->|H]; [congruence|]. simpl. rewrite <- IH by auto. reflexivity.
Qed.
Lemma in_concat_nodup c : In c clusters -> NoDup c.
Proof.
  clear -Hdisj. intros H. apply in_split in H as (l1 & l2 & ->). rewrite concat_app in Hdisj. cbn [concat] in Hdisj. apply NoDup_app_inv in Hdisj as (_ & H & _). apply NoDup_app_inv in H. tauto.
Qed.

(** the score of one point *)
Definition others (i own : nat) : list nat := remove Nat.eq_dec i (nth own clusters []).
Definition right_score (i own : nat) (s : fl) : Prop :=
  (length (nth own clusters []) = 1 /\ s = NaN) \/
  (2 <= length (nth own clusters []) /\ length clusters = 1 /\ s <> NaN /\ (forall q, s = Fin q -> ~ (-1 <= q)%Q)) \/
  (2 <= length (nth own clusters []) /\ 2 <= length clusters /\ exists a b, (a == mean_distance rows i (others i own))%Q /\ nearest_mean rows clusters i own b /\
     ((a == 0)%Q /\ (b == 0)%Q /\ s = NaN \/ exists q m, s = Fin q /\ (0 < m)%Q /\ (m == a \/ m == b)%Q /\ (a <= m)%Q /\ (b <= m)%Q /\ (q * m == b - a)%Q)).

Hypothesis Hpos : forall i j, i < length rows -> j < length rows -> (0 <= dist rows i j)%Q.
Hypothesis Hzero : forall i, i < length rows -> (dist rows i i == 0)%Q.

Lemma dsum_nonneg i l : i < length rows -> (forall j, In j l -> j < length rows) -> (0 <= dsum rows i l)%Q.
Proof. intros Hi H. unfold dsum. induction l as [|j l IH]; simpl; [lra|]. pose proof (Hpos i j Hi (H j (or_introl eq_refl))). specialize (IH ltac:(intros; apply H; right; auto)). lra. Qed.
Lemma mean_nonneg i l : l <> [] -> i < length rows -> (forall j, In j l -> j < length rows) -> (0 <= mean_distance rows i l)%Q.
Proof. intros Hne Hi H. unfold mean_distance. apply Qle_shift_div_l; [apply count_pos; auto|]. pose proof (dsum_nonneg i l Hi H). lra. Qed.

Lemma calculate_score_spec i own : own < length clusters -> In i (nth own clusters []) -> exists s, calculate_score rows clusters i own = Ok s /\ right_score i own s.
Proof.
  intros Ho Hin. pose proof (cluster_in own Ho) as Hc. pose proof (Hvalid _ _ Hc Hin) as Hi. pose proof (in_concat_nodup _ Hc) as Nd.
  unfold calculate_score. destruct (Nat.ltb_spec i (length rows)); [|lia]. unfold within_cluster_score.
  destruct (difference_spec (nth i rows []) (nth own clusters []) 0%Q) as (sm & E & Es). { intros j Hj. rewrite row_length by auto. eapply Hvalid; eauto. }
  rewrite E. cbn [bind]. unfold neighbor_score. destruct (neighbor_loop_spec i own Hi (seq 0 (length clusters)) None) as (o & Eo & Ho'); [intros c Hc'; apply in_seq in Hc'; lia|]. rewrite Eo.
  destruct (Nat.eqb_spec (length (nth own clusters [])) 1) as [E1|E1]; cbn [bind]; [eexists; split; [reflexivity|]; left; auto|].
  assert (L2 : 2 <= length (nth own clusters [])) by (destruct (nth own clusters []) as [|x [|y t]]; [destruct Hin|simpl in E1; lia|simpl; lia]).
  set (a := (sm / inject_Z (Z.of_nat (length (nth own clusters [])) - 1))%Q).
  assert (Ha : (a == mean_distance rows i (others i own))%Q).
  { unfold a, mean_distance, others, count. rewrite Es, Qplus_0_l. fold (dist rows i). change (fun j : nat => nth j (nth i rows []) 0%Q) with (dist rows i). fold (dsum rows i (nth own clusters [])). rewrite (dsum_remove i _ Nd Hin (Hzero i Hi)).
    rewrite (remove_length i _ Nd Hin). replace (Z.of_nat (S (length (remove Nat.eq_dec i (nth own clusters [])))) - 1)%Z with (Z.of_nat (length (remove Nat.eq_dec i (nth own clusters [])))) by lia. reflexivity. }
  assert (Pa : (0 <= a)%Q). { rewrite Ha. apply mean_nonneg; auto; [|intros j Hj; unfold others in Hj; apply in_remove in Hj; eapply Hvalid; [exact Hc|tauto]]. unfold others. pose proof (remove_length i _ Nd Hin) as R. intros Z. rewrite Z in R. simpl in R. lia. }
  destruct o as [b|].
  - eexists. split; [reflexivity|]. right. right. destruct Ho' as (H1 & _ & H3). split; [auto|]. destruct H1 as [(o0 & A & _)|(c & Hcs & Hne & Eb)]; [discriminate|]. apply in_seq in Hcs. split; [lia|]. exists a, b. split; [auto|].
    split; [split; [exists c; split; [lia|auto]|intros x Hx Hn; apply H3; auto; apply in_seq; lia]|].
    assert (Pb : (0 <= b)%Q). { rewrite Eb. assert (Hcc : In (nth c clusters []) clusters) by (apply cluster_in; lia). apply mean_nonneg; auto. intros j Hj. eapply Hvalid; eauto. }
    assert (Dv : forall m, (0 <= m)%Q -> (m == a \/ m == b)%Q -> (a <= m)%Q -> (b <= m)%Q -> (a == 0)%Q /\ (b == 0)%Q /\ ndiv (b - a) m = NaN \/ (exists q m0, ndiv (b - a) m = Fin q /\ (0 < m0)%Q /\ (m0 == a \/ m0 == b)%Q /\ (a <= m0)%Q /\ (b <= m0)%Q /\ (q * m0 == b - a)%Q)).
    { intros m Pm Om Lam Lbm. unfold ndiv. destruct (Qeq_bool m 0) eqn:Em.
      - apply Qeq_bool_iff in Em. left. split; [lra|]. split; [lra|]. assert (Eba : (b - a == 0)%Q) by lra. apply Qeq_bool_iff in Eba. rewrite Eba. reflexivity.
      - apply Qeq_bool_false in Em. right. eexists _, m. split; [reflexivity|]. split; [lra|]. split; [auto|]. split; [auto|]. split; [auto|]. field. auto. }
    destruct (Qltb a b) eqn:El; [apply Qltb_true in El|apply Qltb_false in El]; apply Dv; first [lra | right; reflexivity | left; reflexivity].
  - eexists. split; [reflexivity|]. right. left. destruct Ho' as [_ H2]. split; [auto|].
    assert (Lc : length clusters = 1). { destruct (Nat.eq_dec (length clusters) 1) as [|Hn]; auto. exfalso. assert (X0 : In 0 (seq 0 (length clusters))) by (apply in_seq; lia). assert (X1 : In 1 (seq 0 (length clusters))) by (apply in_seq; lia). apply H2 in X0. apply H2 in X1. lia. }
    split; [auto|]. assert (El : Qltb a (-1) = false) by (apply Qltb_false; lra). rewrite El. unfold ndiv. destruct (Qeq_bool a 0) eqn:Ea.
    + apply Qeq_bool_iff in Ea. assert (Ex : Qeq_bool (-1 - a) 0 = false) by (apply Qeq_bool_false; lra). rewrite Ex. assert (Ey : Qltb 0 (-1 - a) = false) by (apply Qltb_false; lra). rewrite Ey. split; [discriminate|intros; discriminate].
    + apply Qeq_bool_false in Ea. split; [discriminate|]. intros q [= <-]. intros Hq. assert (Pa' : (0 < a)%Q) by lra. assert (Z : ((-1 - a) / a * a == -1 - a)%Q) by (field; lra). set (y := ((-1 - a) / a)%Q) in *. nra.
Qed.

Lemma score_cluster_spec own : own < length clusters -> forall l score, incl l (nth own clusters []) -> NoDup l -> length score = length rows ->
  exists score', score_cluster rows clusters own l score = Ok score' /\ length score' = length rows /\
    (forall i, In i l -> exists s, nth i score' NaN = s /\ right_score i own s) /\ (forall i, ~ In i l -> nth i score' NaN = nth i score NaN).
Proof.
  intros Ho. induction l as [|i l IH]; intros score Hl Nd Ls; cbn [score_cluster]; [exists score; split; auto; split; auto; split; auto; intros i []|].
  inversion Nd; subst. destruct (calculate_score_spec i own Ho (Hl i (or_introl eq_refl))) as (s & E & R). rewrite E. cbn [bind].
  destruct (IH (upd score i s)) as (sc & E' & L' & A & B); [intros x Hx; apply Hl; right; auto|auto|rewrite upd_length; auto|]. exists sc. split; auto. split; auto. split.
  - intros x [<-|Hx]; [|auto]. exists s. split; auto. rewrite B by auto. apply upd_nth_eq. rewrite Ls. eapply Hvalid; [apply cluster_in, Ho|apply Hl; left; auto].
  - intros x Hx. rewrite B by (intros Hc; apply Hx; right; auto). apply upd_nth_neq. intros ->. apply Hx. left. auto.
Qed.

Lemma concat_nth_disjoint c c' i : c < length clusters -> c' < length clusters -> In i (nth c clusters []) -> In i (nth c' clusters []) -> c = c'.
Proof.
  clear -Hdisj. revert c c'. induction clusters as [|x l IH]; intros c c' Hc Hc' A B; [simpl in Hc; lia|]. cbn [concat] in Hdisj. apply NoDup_app_inv in Hdisj as (_ & N & D).
  destruct c as [|c], c' as [|c']; auto; cbn [nth] in A, B; simpl in Hc, Hc'.
  - exfalso. apply (D i A). apply in_concat. exists (nth c' l []). split; [apply nth_In; lia|auto].
  - exfalso. apply (D i B). apply in_concat. exists (nth c l []). split; [apply nth_In; lia|auto].
  - f_equal. apply IH; auto; lia.
Qed.

Lemma score_clusters_spec : forall cs score, (forall c, In c cs -> c < length clusters) -> NoDup cs -> length score = length rows ->
  exists score', score_clusters rows clusters cs score = Ok score' /\ length score' = length rows /\
    (forall c i, In c cs -> In i (nth c clusters []) -> right_score i c (nth i score' NaN)) /\
    (forall i, (forall c, In c cs -> ~ In i (nth c clusters [])) -> nth i score' NaN = nth i score NaN).
Proof.
  induction cs as [|c cs IH]; intros score Hc Nd Ls; cbn [score_clusters]; [exists score; split; auto; split; auto; split; auto; intros c i []|].
  inversion Nd as [|? ? Nc Ncs]; subst. pose proof (Hc c (or_introl eq_refl)) as Hcl.
  destruct (score_cluster_spec c Hcl (nth c clusters []) score) as (s1 & E1 & L1 & A1 & B1); [intros x Hx; auto|apply in_concat_nodup, cluster_in; auto|auto|]. rewrite E1. cbn [bind].
  destruct (IH s1) as (s2 & E2 & L2 & A2 & B2); [intros; apply Hc; right; auto|auto|auto|]. exists s2. split; auto. split; auto. split.
  - intros x i [<-|Hx] Hi; [|auto]. rewrite B2; [destruct (A1 i Hi) as (s & <- & R); auto|]. intros y Hy Hiy. assert (c = y) by (eapply concat_nth_disjoint; eauto; apply Hc; right; auto). subst. auto.
  - intros i Hi. rewrite B2 by (intros y Hy; apply Hi; right; auto). apply B1. apply Hi. left. auto.
Qed.

Theorem process_spec : rows <> [] -> clusters <> [] -> exists score, process rows clusters = Ok score /\ length score = length rows /\
  (forall c i, c < length clusters -> In i (nth c clusters []) -> right_score i c (nth i score NaN)) /\
  (forall i, i < length rows -> ~ In i (concat clusters) -> nth i score NaN = Fin 0).
Proof.
  intros Hr Hc. unfold process. destruct (Nat.eqb_spec (length rows) 0) as [E|_]; [destruct rows; [congruence|discriminate]|]. destruct (Nat.eqb_spec (length clusters) 0) as [E|_]; [destruct clusters; [congruence|discriminate]|].
  destruct (score_clusters_spec (seq 0 (length clusters)) (repeat (Fin 0) (length rows))) as (sc & E & L & A & B); [intros c H; apply in_seq in H; lia|apply seq_NoDup|apply repeat_length|].
  exists sc. split; auto. split; auto. split; [intros c i Hcl Hi; apply A; auto; apply in_seq; lia|]. intros i Hi Hn. rewrite B.
  - rewrite (nth_indep _ NaN (Fin 0)) by (rewrite repeat_length; auto). apply nth_repeat.
  - intros c Hcs Hin. apply Hn. apply in_seq in Hcs. apply in_concat. exists (nth c clusters []). split; [apply nth_In; lia|auto].
Qed.
End S.

(** * Search of the amount of clusters *)
(** what the search measures for [k]: nothing when the algorithm did not return [k] clusters *)
Definition measured (data : list point) (calc : nat -> list (list nat)) (k : nat) (m : fl) : Prop :=
  (length (calc k) <> k /\ m = NaN) \/ (length (calc k) = k /\ exists sc, process (point_rows data) (calc k) = Ok sc /\ m = mean sc).
(** [a] is a number (or plus infinity) above [b] *)
Definition above (a b : fl) : Prop := match a, b with Fin x, Fin y => (y < x)%Q | Fin _, NInf => True | PInf, Fin _ => True | PInf, NInf => True | _, _ => False end.

Lemma better_spec a b : better a b = true <-> above a b.
Proof. destruct a, b; simpl; try (split; [discriminate|tauto]); try tauto. apply Qltb_true. Qed.
Lemma measured_fun data calc k m m' : measured data calc k m -> measured data calc k m' -> m = m'.
Proof. intros [[A ->]|[A (s & E & ->)]] [[B ->]|[B (s' & E' & ->)]]; auto; try lia. rewrite E in E'. injection E' as ->. reflexivity. Qed.
Lemma above_irrefl a : ~ above a a.
Proof. destruct a; simpl; auto; lra. Qed.
Lemma above_trans a b c : above a b -> ~ above c b -> ~ above c a.
Proof. destruct a, b, c; simpl; auto; lra. Qed.

Lemma search_spec data calc : forall ks st st', search data calc ks st = Ok st' ->
  exists ms, scores st' = scores st ++ combine ks ms /\ length ms = length ks /\ Forall2 (measured data calc) ks ms /\
    ((amount st' = amount st /\ best st' = best st) \/ exists k m, In (k, m) (combine ks ms) /\ amount st' = Some k /\ best st' = m /\ above m (best st)) /\
    (forall m, In m ms -> ~ above m (best st')).
Proof.
  induction ks as [|k ks IH]; intros st st' E; cbn [search] in E.
  - apply Ok_inj in E. subst st'. exists []. simpl. rewrite app_nil_r. repeat split; auto.
  - destruct (Nat.eqb_spec (length (calc k)) k) as [Ek|Ek]; cbn [negb] in E.
    + destruct (process (point_rows data) (calc k)) as [sc|] eqn:Ep; cbn [bind] in E; [|discriminate].
      destruct (better (mean sc) (best st)) eqn:Eb; apply IH in E; destruct E as (ms & A & L & F & B & M); cbn [scores amount best] in *; exists (mean sc :: ms).
      * split; [rewrite A, <- app_assoc; reflexivity|]. split; [simpl; auto|]. split; [apply Forall2_cons; auto; right; split; eauto|].
        apply better_spec in Eb. split.
        -- right. destruct B as [[B1 B2]|(k' & m & H & B1 & B2 & B3)]; [exists k, (mean sc); split; [left; auto|auto]|]. exists k', m. split; [right; auto|]. split; [auto|]. split; [auto|].
           clear -Eb B3. destruct m, (mean sc), (best st); simpl in *; auto; try tauto; lra.
        -- intros m [<-|Hm]; [|auto]. destruct B as [[_ ->]|(k' & m & _ & _ & -> & B3)]; [apply above_irrefl|]. eapply above_trans; [exact B3|apply above_irrefl].
      * split; [rewrite A, <- app_assoc; reflexivity|]. split; [simpl; auto|]. split; [apply Forall2_cons; auto; right; split; eauto|].
        assert (Nb : ~ above (mean sc) (best st)) by (intros H; apply better_spec in H; congruence). split.
        -- destruct B as [B|(k' & m & H & B)]; [left; auto|right; exists k', m; split; [right; auto|auto]].
        -- intros m [<-|Hm]; [|auto]. destruct B as [[_ ->]|(k' & m & _ & _ & -> & B3)]; [auto|]. eapply above_trans; eauto.
    + apply IH in E. destruct E as (ms & A & L & F & B & M); cbn [scores amount best] in *. exists (NaN :: ms).
      split; [rewrite A, <- app_assoc; reflexivity|]. split; [simpl; auto|]. split; [apply Forall2_cons; auto; left; auto|]. split.
      * destruct B as [B|(k' & m & H & B)]; [left; auto|right; exists k', m; split; [right; auto|auto]].
      * intros m [<-|Hm]; [|auto]. destruct (best st'); simpl; auto.
Qed.

Lemma ksearch_spec data calc kmin kmax self st : ksearch_process data calc kmin kmax self = Ok st ->
  2 <= kmin /\ kmax <= length data /\ exists ms, scores st = combine (seq kmin (kmax - kmin)) ms /\ length ms = kmax - kmin /\ Forall2 (measured data calc) (seq kmin (kmax - kmin)) ms /\
    ((amount st = amount self /\ best st = best self) \/ exists k m, In (k, m) (combine (seq kmin (kmax - kmin)) ms) /\ amount st = Some k /\ best st = m /\ above m (best self)) /\
    (forall m, In m ms -> ~ above m (best st)).
Proof.
  unfold ksearch_process. destruct (Nat.ltb_spec (length data) kmax); [discriminate|]. destruct (Nat.leb_spec kmin 1); [discriminate|]. intros E. apply search_spec in E. destruct E as (ms & A & L & F & B & M). cbn [scores amount best] in *.
  rewrite seq_length in L. split; [lia|]. split; [auto|]. exists ms. auto.
Qed.
Lemma Forall2_combine {A B} (P : A -> B -> Prop) l l' a b : Forall2 P l l' -> In (a, b) (combine l l') -> P a b.
Proof. induction 1; simpl; [tauto|]. intros [[= <- <-]|H']; auto. Qed.
Lemma Forall2_in {A B} (P : A -> B -> Prop) l l' a : Forall2 P l l' -> In a l -> exists b, In b l' /\ P a b.
Proof. induction 1; simpl; [tauto|]. intros [<-|H']; [eauto|]. destruct (IHForall2 H') as (b & ? & ?). eauto. Qed.

Theorem ksearch_best data calc kmin kmax st k : ksearch_process data calc kmin kmax ksearch_initial = Ok st -> amount st = Some k ->
  kmin <= k < kmax /\ measured data calc k (best st) /\ above (best st) (Fin (-1)) /\ forall k' m, kmin <= k' < kmax -> measured data calc k' m -> ~ above m (best st).
Proof.
  intros E Ek. apply ksearch_spec in E. destruct E as (H2 & Hk & ms & A & L & F & B & M). destruct B as [[B _]|(k0 & m & Hin & B1 & B2 & B3)]; [simpl in B; congruence|]. rewrite B1 in Ek. injection Ek as ->. subst m.
  pose proof (Forall2_combine _ _ _ _ _ F Hin) as Hm. apply in_combine_l in Hin. apply in_seq in Hin. split; [lia|]. split; [auto|]. split; [exact B3|].
  intros k' m Hk' Hm'. destruct (Forall2_in _ _ _ k' F) as (m' & I & P); [apply in_seq; lia|]. rewrite (measured_fun _ _ _ _ _ Hm' P). auto.
Qed.
Theorem ksearch_none data calc kmin kmax st : ksearch_process data calc kmin kmax ksearch_initial = Ok st -> amount st = None ->
  best st = Fin (-1) /\ forall k m, kmin <= k < kmax -> measured data calc k m -> ~ above m (Fin (-1)).
Proof.
  intros E Ek. apply ksearch_spec in E. destruct E as (H2 & Hk & ms & A & L & F & B & M). destruct B as [[_ B]|(k0 & m & Hin & B1 & _)]; [|congruence]. split; [exact B|]. intros k' m Hk' Hm'. destruct (Forall2_in _ _ _ k' F) as (m' & I & P); [apply in_seq; lia|]. rewrite (measured_fun _ _ _ _ _ Hm' P). specialize (M _ I). rewrite B in M. exact M.
Qed.
Theorem ksearch_scores data calc kmin kmax self st : ksearch_process data calc kmin kmax self = Ok st ->
  map fst (scores st) = seq kmin (kmax - kmin) /\ forall k m, In (k, m) (scores st) -> measured data calc k m.
Proof.
  intros E. apply ksearch_spec in E. destruct E as (H2 & Hk & ms & A & L & F & B & M). rewrite A. split.
  - assert (Ll : length (seq kmin (kmax - kmin)) = length ms) by (rewrite seq_length; auto). clear -Ll. revert ms Ll. induction (seq kmin (kmax - kmin)) as [|x l IH]; intros [|m ms] L; simpl in *; try discriminate; auto. f_equal. apply IH. lia.
  - intros k m Hin. eapply Forall2_combine; eauto.
Qed.

(** ** the mean of finite scores *)
Lemma fold_fin l : forall a, Forall (fun s => exists q, s = Fin q /\ (-1 <= q <= 1)%Q) l -> exists q, fold_left fadd l (Fin a) = Fin q /\ (a - inject_Z (Z.of_nat (length l)) <= q <= a + inject_Z (Z.of_nat (length l)))%Q.
Proof.
  induction l as [|s l IH]; intros a H; cbn [fold_left length]; [exists a; split; auto; change (inject_Z (Z.of_nat 0)) with 0%Q; lra|]. inversion H as [|? ? (q & -> & Hq) Hl]; subst. cbn [fadd]. destruct (IH (a + q)%Q Hl) as (r & E & Hr). exists r. split; auto. rewrite Nat2Z.inj_succ, <- Z.add_1_l, inject_Z_plus. change (inject_Z 1) with 1%Q. lra.
Qed.

(** ** the rows of a set of points *)
Lemma point_rows_square data r : In r (point_rows data) -> length r = length (point_rows data).
Proof. unfold point_rows. intros H. apply in_map_iff in H as (p & <- & _). rewrite !map_length. reflexivity. Qed.
Lemma point_rows_length data : length (point_rows data) = length data.
Proof. apply map_length. Qed.
Lemma point_rows_dist data i j : i < length data -> j < length data -> dist (point_rows data) i j = sqdist (nth j data []) (nth i data []).
Proof.
  intros Hi Hj. unfold dist, point_rows. rewrite (nth_indep _ [] (map (fun q => sqdist q []) data)) by (rewrite map_length; auto). rewrite (map_nth (fun p => map (fun q => sqdist q p) data) data []).
  rewrite (nth_indep _ 0%Q (sqdist [] (nth i data []))) by (rewrite map_length; auto). rewrite (map_nth (fun q => sqdist q (nth i data []))). reflexivity.
Qed.
