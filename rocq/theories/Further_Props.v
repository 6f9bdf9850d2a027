(** C88 and C108: what remains true.  The elbow that the code takes is never before the documented one, and SOM-SC predicts the
    last point of the data into the cluster that holds it. *)
From Verif Require Import Base Kmeans_Model Kmeans_Proofs Small_Model Topology_Model Topology_Proofs Som_Model Som_Proofs Somstep_Proofs.
From Coq Require Import Lqa Lia.
Open Scope nat_scope.

Lemma argmin_from_first l : forall best bv i all, best < i -> (nth best all 0 == bv)%Q -> i <= length all -> skipn i all = l ->
  (forall k, k < i -> (bv <= nth k all 0)%Q) -> (forall k, k < best -> (bv < nth k all 0)%Q) ->
  forall k, k < argmin_from best bv i l -> (nth (argmin_from best bv i l) all 0 < nth k all 0)%Q.
Proof.
  induction l as [|v t IH]; intros best bv i all Hb Hv Hl Hs Hm Hf k Hk; cbn [argmin_from] in *; [rewrite Hv; auto|].
  assert (Hi : i < length all) by (destruct (le_lt_dec (length all) i) as [C|C]; auto; rewrite skipn_all2 in Hs by exact C; discriminate).
  assert (Nv : nth i all 0%Q = v). { rewrite <- (firstn_skipn i all), Hs. rewrite app_nth2; rewrite firstn_length, Nat.min_l by lia; [now rewrite Nat.sub_diag|lia]. }
  assert (Ht : skipn (S i) all = t). { clear - Hs. revert i Hs. induction all as [|a all IHa]; intros [|i] Hs; cbn in *; try discriminate; [now injection Hs as _ <-|]. apply IHa. exact Hs. }
  destruct (Qltb v bv) eqn:E.
  - apply Qltb_true in E. apply (IH i v (S i) all); auto; try lia; [rewrite Nv; reflexivity| |].
    + intros j Hj. destruct (Nat.eq_dec j i) as [->|]; [rewrite Nv; lra|]. specialize (Hm j ltac:(lia)). lra.
    + intros j Hj. specialize (Hm j Hj). lra.
  - apply Qltb_false in E. apply (IH best bv (S i) all); auto; try lia. intros j Hj. destruct (Nat.eq_dec j i) as [->|]; [rewrite Nv; exact E|]. apply Hm. lia.
Qed.

Lemma argmin_first l k : k < argmin l -> (nth (argmin l) l 0 < nth k l 0)%Q.
Proof.
  destruct l as [|v t]; [cbn; lia|]. unfold argmin. intro H. apply (argmin_from_first t 0 v 1 (v :: t)).
  - lia.
  - reflexivity.
  - cbn; lia.
  - reflexivity.
  - intros j Hj. assert (j = 0) as -> by lia. cbn. lra.
  - intros j Hj. lia.
  - exact H.
Qed.

Lemma argmin_unique l i : i < length l -> (forall k, k < length l -> (nth i l 0 <= nth k l 0)%Q) -> (forall k, k < i -> (nth i l 0 < nth k l 0)%Q) -> argmin l = i.
Proof.
  intros Hi Hm Hf. assert (Hne : l <> []) by (destruct l; cbn in Hi; [lia|discriminate]). destruct (argmin_spec l Hne) as [A B].
  destruct (Nat.lt_trichotomy (argmin l) i) as [C|[C|C]]; auto; exfalso.
  - specialize (Hf _ C). specialize (B i Hi). lra.
  - pose proof (argmin_first l i C). specialize (Hm _ A). lra.
Qed.

(** ** C108 *)
Lemma sqdist_moved : forall D k w x w', length w = D -> length x = D -> moved D k w x w' -> (sqdist w' x == (1 - k) * (1 - k) * sqdist w x)%Q.
Proof.
  induction D as [|D IH]; intros k w x w' Lw Lx [Lw' M]; destruct w as [|a w], x as [|b x], w' as [|c w']; cbn in Lw, Lx, Lw'; try lia; cbn [sqdist]; [ring|].
  assert (M' : moved D k w x w') by (split; [lia|]; intros i Hi; exact (M (S i) ltac:(lia))).
  pose proof (M 0 ltac:(lia)) as M0. unfold coord in M0. cbn [nth] in M0. rewrite M0, (IH k w x w') by (auto; lia). ring.
Qed.

Lemma shrink r p a b : (0 <= r)%Q -> (r < 1)%Q -> (0 <= p)%Q -> (p <= r)%Q -> (0 <= a)%Q -> (a <= b)%Q ->
  ((1 - r) * (1 - r) * a <= (1 - p) * (1 - p) * b)%Q /\ (a < b -> (1 - r) * (1 - r) * a < (1 - p) * (1 - p) * b)%Q.
Proof.
  intros R0 R1 P0 P1 A B. assert (H1 : (0 < (1 - r) * (1 - r))%Q) by (apply Qmult_lt_0_compat; lra).
  assert (H2 : (0 <= (r - p) * ((1 - r) + (1 - p)))%Q) by (apply Qmult_le_0_compat; lra).
  assert (H3 : (0 <= (r - p) * ((1 - r) + (1 - p)) * b)%Q) by (apply Qmult_le_0_compat; lra).
  assert (E : ((1 - p) * (1 - p) * b - (1 - r) * (1 - r) * a == (r - p) * ((1 - r) + (1 - p)) * b + (1 - r) * (1 - r) * (b - a))%Q) by ring.
  split; [|intro L].
  - assert (H4 : (0 <= (1 - r) * (1 - r) * (b - a))%Q) by (apply Qmult_le_0_compat; lra). lra.
  - assert (H4 : (0 < (1 - r) * (1 - r) * (b - a))%Q) by (apply Qmult_lt_0_compat; lra). lra.
Qed.

Section Last.
Variables (cols : nat) (influence : Q -> Q -> Q).
Hypothesis Hinfl : forall d r, (0 <= d)%Q -> (d < r)%Q -> in_unit (influence d r).

(** the winner approaches the point at least as much as the others, so that it stays the winner *)
Lemma winner_stays D radius rate x weights k : (0 <= rate)%Q -> (rate < 1)%Q -> length x = D -> length weights = cols -> Forall (fun w => length w = D) weights ->
  competition weights x = Ok k -> competition (adaptation 1 cols SGridFour influence radius rate k x weights) x = Ok k.
Proof.
  intros R0 R1 Lx Lw HD E. unfold competition in *. destruct weights as [|w0 ws] eqn:Ew; [discriminate|]. rewrite <- Ew in *. apply Ok_inj in E.
  set (f := fun w => sqdist w x) in *. assert (Hne : map f weights <> []) by (rewrite Ew; discriminate).
  destruct (argmin_spec _ Hne) as [Hk Hmin]. pose proof (argmin_first (map f weights)) as Hfirst. rewrite E in Hk, Hmin, Hfirst. rewrite map_length in Hk, Hmin.
  assert (Hd : length (hd [] weights) = D) by (rewrite Ew in HD |- *; inversion HD; auto).
  set (W := adaptation 1 cols SGridFour influence radius rate k x weights). assert (LW : length W = length weights) by apply adaptation_length.
  assert (Hn : forall (l : list point) j, j < length l -> nth j (map f l) 0%Q = sqdist (nth j l []) x).
  { intros l j Hj. rewrite (nth_indep _ 0%Q (f [])) by (rewrite map_length; exact Hj). rewrite map_nth. reflexivity. }
  assert (Share : forall j, j < length weights -> exists q, (0 <= q)%Q /\ (q <= rate)%Q /\ (sqdist (nth j W []) x == (1 - q) * (1 - q) * sqdist (nth j weights []) x)%Q /\ (j = k -> q = rate)).
  { intros j Hj. rewrite Forall_forall in HD. assert (Hk1 : k < cols) by (rewrite <- Lw; exact Hk). assert (Hj1 : j < cols) by (rewrite <- Lw; exact Hj). assert (Lj : length (nth j weights []) = D) by (apply HD, (nth_In (A:=point)); exact Hj).
    pose proof (adaptation_spec 1 cols SGridFour influence D radius rate k x weights j (eq_ind_r (fun z => k < z) Hk1 (Nat.mul_1_l cols)) (eq_ind_r (fun z => j < z) Hj1 (Nat.mul_1_l cols)) (eq_trans Lw (eq_sym (Nat.mul_1_l cols))) Hd) as S. cbv zeta in S. fold W in S. destruct S as (S1 & S2 & S3).
    destruct (Nat.eq_dec j k) as [Ej|Nj]; [exists rate; repeat split; auto; try lra; apply (sqdist_moved D); auto|].
    destruct (classic_adjacent SGridFour (Z.of_nat cols) (Z.of_nat k) (Z.of_nat j)) as [A|A];
      [destruct (Qlt_le_dec (loc_distance cols k j) radius) as [B|B]|].
    - destruct (Hinfl _ radius (loc_distance_nonneg cols k j) B) as [I0 I1]. exists (rate * influence (loc_distance cols k j) radius)%Q. split; [apply Qmult_le_0_compat; auto|]. split; [nra|]. split; [apply (sqdist_moved D); auto|lia].
    - exists 0%Q. rewrite S3 by (auto; intros [_ X]; lra). split; [lra|]. split; [lra|]. split; [ring|lia].
    - exists 0%Q. rewrite S3 by (auto; tauto). split; [lra|]. split; [lra|]. split; [ring|lia]. }
  destruct (Share k Hk) as (q & _ & _ & Ek & Eq). rewrite Eq in Ek by reflexivity.
  assert (X : argmin (map f W) = k).
  { apply argmin_unique; rewrite ?map_length, ?LW; auto.
    - intros j Hj. rewrite !Hn by (unfold point in *; lia). destruct (Share j Hj) as (p & P0 & P1 & P2 & _). rewrite Ek, P2. specialize (Hmin j Hj). rewrite !Hn in Hmin by (unfold point in *; lia).
      apply shrink; auto. apply sqdist_nonneg.
    - intros j Hj. rewrite !Hn by (unfold point in *; lia). destruct (Share j ltac:(unfold point in *; lia)) as (p & P0 & P1 & P2 & _). rewrite Ek, P2. specialize (Hfirst j Hj). rewrite !Hn in Hfirst by (unfold point in *; lia).
      apply shrink; auto; [apply sqdist_nonneg|apply Qlt_le_weak; exact Hfirst]. }
  destruct W as [|v W'] eqn:EW; [rewrite Ew in LW; discriminate|]. f_equal. exact X.
Qed.

Lemma epoch_pass_app radius rate rec a b : forall i s, epoch_pass 1 cols SGridFour influence radius rate rec (a ++ b) i s =
  do s1 <- epoch_pass 1 cols SGridFour influence radius rate rec a i s; epoch_pass 1 cols SGridFour influence radius rate rec b (i + length a) s1.
Proof.
  induction a as [|x a IH]; intros i s; cbn [app epoch_pass bind length]; [now rewrite Nat.add_0_r|]. destruct (competition _ _); cbn [bind]; [|reflexivity]. rewrite IH. rewrite Nat.add_succ_r. reflexivity.
Qed.

Lemma adaptation_dim D radius rate index x weights : length (hd [] weights) = D -> Forall (fun w => length w = D) weights ->
  Forall (fun w => length w = D) (adaptation 1 cols SGridFour influence radius rate index x weights).
Proof.
  intros Hd H. apply (adaptation_forall 1 cols SGridFour influence (fun w => length w = D) D); auto.
  - intros w _. unfold move. now rewrite map_length, seq_length.
  - intros w k _ _. unfold move. now rewrite map_length, seq_length.
Qed.
Lemma hd_dim D (weights : list point) : weights <> [] -> Forall (fun w => length w = D) weights -> length (hd [] weights) = D.
Proof. destruct weights; [congruence|]. intros _ H. inversion H. auto. Qed.

Lemma epoch_pass_dim D radius rate rec data : forall i s s', 1 <= cols -> length (s_weights s) = cols -> Forall (fun w => length w = D) (s_weights s) ->
  epoch_pass 1 cols SGridFour influence radius rate rec data i s = Ok s' -> length (s_weights s') = cols /\ Forall (fun w => length w = D) (s_weights s').
Proof.
  induction data as [|x data IH]; intros i s s' Hc L H E; cbn [epoch_pass] in E; [apply Ok_inj in E; subst; auto|].
  destruct (competition _ _) as [k|]; cbn [bind] in E; [|discriminate]. apply IH in E; auto; destruct rec; cbn [s_weights]; rewrite ?adaptation_length; auto;
    apply adaptation_dim; auto; apply hd_dim; auto; intros C; rewrite C in L; cbn in L; lia.
Qed.

Lemma epoch_pass_captured radius rate pre : forall i s0 s1, sized cols s0 -> epoch_pass 1 cols SGridFour influence radius rate true pre i s0 = Ok s1 -> length (s_captured s1) = cols.
Proof.
  induction pre as [|y pre IH]; intros i s0 s1 S0 E1; cbn [epoch_pass] in E1; [apply Ok_inj in E1; subst; apply S0|].
  destruct (competition _ _); cbn [bind] in E1; [|discriminate]. apply IH in E1; auto. destruct S0 as (A & B & C). repeat split; cbn [s_weights s_award s_captured]; unfold push; rewrite ?adaptation_length, ?upd_length; auto.
Qed.

Variables (radius rate : nat -> Q) (threshold : Q).
Lemma train_last data D epochs : forall left epoch previous s e s', 1 <= cols -> sized cols s -> Forall (fun w => length w = D) (s_weights s) -> 0 < left -> epoch + left = S epochs ->
  train_loop 1 cols SGridFour influence radius rate threshold true data epochs epoch left previous s = Ok (e, s') ->
  exists ep s0, sized cols s0 /\ Forall (fun w => length w = D) (s_weights s0) /\ epoch_pass 1 cols SGridFour influence (radius ep) (rate ep) true data 0 s0 = Ok s'.
Proof.
  induction left as [|left IH]; intros epoch previous s e s' Hc Hs HD Hl He E; [lia|]. cbn [train_loop orb] in E.
  assert (Sc : sized cols (clear_statistics s)) by (destruct Hs as (A & B & C); split; [exact A|]; cbn; rewrite !map_length; auto).
  assert (Dc : Forall (fun w => length w = D) (s_weights (clear_statistics s))) by exact HD.
  destruct (epoch_pass 1 cols SGridFour influence (radius epoch) (rate epoch) true data 0 (clear_statistics s)) as [s1|] eqn:E1; cbn [bind] in E; [|discriminate].
  assert (Here : s1 = s' -> exists ep s0, sized cols s0 /\ Forall (fun w => length w = D) (s_weights s0) /\ epoch_pass 1 cols SGridFour influence (radius ep) (rate ep) true data 0 s0 = Ok s').
  { intros <-. exists epoch, (clear_statistics s). auto. }
  assert (On : forall previous, train_loop 1 cols SGridFour influence radius rate threshold true data epochs (S epoch) left previous s1 = Ok (e, s') -> exists ep s0, sized cols s0 /\ Forall (fun w => length w = D) (s_weights s0) /\ epoch_pass 1 cols SGridFour influence (radius ep) (rate ep) true data 0 s0 = Ok s').
  { intros pv Er. destruct left as [|left]; [cbn [train_loop] in Er; apply Ok_inj in Er; injection Er as _ ->; apply Here; reflexivity|].
    destruct (epoch_pass_dim D _ _ _ _ _ _ _ Hc (proj1 Sc) Dc E1) as [L1 D1].
    apply (IH (S epoch) pv s1 e s'); auto; try lia.
    assert (St : exists s2, epoch_pass 1 cols SGridFour influence (radius epoch) (rate epoch) true data 0 (clear_statistics s) = Ok s2 /\ stats cols (0 + length data) s2).
    { apply epoch_pass_record; [lia|]. rewrite (clear_fresh cols s Hs). apply stats_fresh. exact (proj1 Hs). }
    destruct St as (s2 & E2 & St). rewrite E1 in E2. apply Ok_inj in E2. subst s2. apply (stats_sized cols (0 + length data)). exact St. }
  destruct previous as [w|]; [destruct (Qltb _ _); [apply Ok_inj in E; injection E as _ <-; apply Here; reflexivity|]|]; eapply On; exact E.
Qed.
End Last.

(** the last point of the data is predicted into the cluster that lists it *)
Theorem C108_last_point_partial influence radius rate threshold data amount epouch s : data <> [] -> (forall p, In p data -> length p = length (hd [] data)) ->
  (forall d r, (0 <= d)%Q -> (d < r)%Q -> in_unit (influence d r)) -> (forall e, 0 <= rate e < 1)%Q -> (1 <= epouch)%Z ->
  somsc_process influence radius rate threshold data amount epouch = Ok s ->
  exists clusters labels, somsc_clusters (Some s) = Ok clusters /\ somsc_predict (Some s) data = Ok labels /\
    In (length data - 1) (nth (nth (length data - 1) labels 0) clusters []).
Proof.
  intros Hne Hu Hi Hr He E. unfold somsc_process in E. destruct (somsc_verify data amount epouch) eqn:V; cbn [bind] in E; [|discriminate].
  assert (Ha : (1 <= amount)%Z) by (unfold somsc_verify in V; destruct (_ =? 0); [discriminate|]; destruct (Z.leb_spec amount 0); [discriminate|lia]).
  set (cols := Z.to_nat amount) in *. assert (Hc : 1 <= cols) by (unfold cols; lia). rewrite Nat.mul_1_l in E.
  destruct (train 1 cols SGridFour influence radius rate threshold UniformGrid data (Z.to_nat epouch) true (som_create cols)) as [[e s']|] eqn:Et; cbn [bind snd] in E; [|discriminate]. apply Ok_inj in E. subst s'.
  unfold train in Et. destruct (create_initial_ok 1 cols UniformGrid data Hne) as (w & Ew & Lw). rewrite Ew in Et. cbn [bind] in Et. rewrite Nat.mul_1_l in Lw.
  set (D := length (hd [] data)) in *.
  assert (Dw : Forall (fun v => length v = D) w).
  { unfold create_initial_weights in Ew. destruct (dimension_minmax data); cbn [bind] in Ew; [|discriminate]. destruct (dimension_width data); cbn [bind] in Ew; [|discriminate]. destruct (dimension_center data); cbn [bind] in Ew; [|discriminate]. apply Ok_inj in Ew. subst w.
    apply Forall_forall. intros v Hv. apply in_map_iff in Hv as (i & <- & _). rewrite map_length, seq_length. reflexivity. }
  apply (train_last cols influence radius rate threshold data D) in Et; auto; try lia; [|repeat split; cbn; rewrite ?map_length, ?repeat_length; auto].
  destruct Et as (ep & s0 & S0 & D0 & Ee). destruct (exists_last Hne) as (pre & x & Ed). rewrite Ed in Ee. rewrite epoch_pass_app in Ee.
  destruct (epoch_pass 1 cols SGridFour influence (radius ep) (rate ep) true pre 0 s0) as [s1|] eqn:E1; cbn [bind] in Ee; [|discriminate].
  destruct (epoch_pass_dim cols influence D _ _ _ _ _ _ _ Hc (proj1 S0) D0 E1) as [L1 D1]. cbn [epoch_pass] in Ee. destruct (competition (s_weights s1) x) as [k|] eqn:Ek; cbn [bind] in Ee; [|discriminate].
  apply Ok_inj in Ee.
  assert (Lx : length x = D) by (apply Hu; rewrite Ed; apply in_or_app; right; left; reflexivity).
  pose proof (winner_stays cols influence Hi D (radius ep) (rate ep) x (s_weights s1) k (proj1 (Hr ep)) (proj2 (Hr ep)) Lx L1 D1 Ek) as Es.
  assert (Hk : k < cols). { destruct (competition_ok (s_weights s1) x) as (k' & Ek' & Hk' & _); [intros C; rewrite C in L1; cbn in L1; lia|]. rewrite Ek in Ek'. apply Ok_inj in Ek'. subst k'. lia. }
  assert (Lc : length (s_captured s1) = cols) by (eapply epoch_pass_captured; [exact S0|exact E1]).
  assert (Hw : s_weights s <> []) by (rewrite <- Ee; cbn [s_weights]; intros C; apply (f_equal (@length point)) in C; rewrite adaptation_length in C; cbn in C; lia).
  assert (Hp : exists labels, somsc_predict (Some s) data = Ok labels /\ nth (length data - 1) labels 0 = k).
  { unfold somsc_predict. destruct (collect_ok (map (fun x => simulate s x) data) 0) as [labels (El & Ll & N)].
    - intros r Hr'. apply in_map_iff in Hr' as [y [<- _]]. destruct (competition_ok (s_weights s) y Hw) as (i & Ei & _). exists i. exact Ei.
    - exists labels. split; [exact El|]. rewrite map_length in N. assert (Hn : length data - 1 < length data) by (destruct data; [congruence|cbn; lia]). specialize (N _ Hn).
      rewrite nth_indep with (d' := simulate s ([] : point)) in N by (rewrite map_length; auto). rewrite (map_nth (simulate s)) in N. unfold point in *.
      assert (Ex : nth (length data - 1) data ([] : point) = x) by (rewrite Ed, app_length; cbn [length]; rewrite Nat.add_sub, app_nth2, Nat.sub_diag; [reflexivity|lia]).
      rewrite Ex in N. unfold simulate in N. rewrite <- Ee in N. cbn [s_weights] in N. rewrite Es in N. apply Ok_inj in N. auto. }
  destruct Hp as (labels & El & En). exists (s_captured s), labels. split; [reflexivity|]. split; [exact El|]. rewrite En, <- Ee. cbn [s_captured]. unfold push. rewrite upd_nth_eq by lia. apply in_or_app. right. left.
  assert (Ln : length data = length pre + 1) by (rewrite Ed, app_length; reflexivity). rewrite Ln. cbn. rewrite Nat.add_sub. reflexivity.
Qed.
Print Assumptions C108_last_point_partial.

Example C108_case_last : exists s clusters labels, somsc_process (fun _ _ => 1 # 2)%Q (fun _ => 2%Q) (fun _ => 1 # 2)%Q (1 # 1000) [[0; 0]; [0; 5]; [0; 4]]%Q 2 1 = Ok s /\
  somsc_clusters (Some s) = Ok clusters /\ somsc_predict (Some s) [[0; 0]; [0; 5]; [0; 4]]%Q = Ok labels /\ In 2 (nth (nth 2 labels 0) clusters []) /\ length clusters = 2.
Proof. do 3 eexists. split; [vm_compute; reflexivity|]. split; [reflexivity|]. split; [vm_compute; reflexivity|]. split; [vm_compute; tauto|reflexivity]. Qed.

(** ** C88 *)
From Verif Require Import Elbow_Model Elbow_Proofs Elbow_Props.
From Coq Require Import Reals Qreals Lra.
Local Open Scope nat_scope.

(** how far the i-th of n errors lies below the segment from the first to the last of them, vertically and multiplied by n - 1:
    this is the distance to the documented line times the length of that line *)
Definition below (w : list Q) (i : nat) : R :=
  (INR (length w - 1) * (Q2R (nth 0 w 0%Q) - Q2R (nth i w 0%Q)) - INR i * (Q2R (nth 0 w 0%Q) - Q2R (nth (length w - 1) w 0%Q)))%R.

(** [below] measures the documented distance *)
Lemma below_distance w i d : 2 <= length w -> (0 <= below w i)%R ->
  line_distance 0 (Q2R (nth 0 w 0%Q)) (INR (length w - 1)) (Q2R (nth (length w - 1) w 0%Q)) (INR i) (Q2R (nth i w 0%Q)) d ->
  (d * sqrt (INR (length w - 1) ^ 2 + (Q2R (nth (length w - 1) w 0%Q) - Q2R (nth 0 w 0%Q)) ^ 2) = below w i)%R.
Proof.
  intros Hl Hb Hd. assert (Hn : (0 < INR (length w - 1))%R) by (apply lt_0_INR; lia).
  rewrite (line_distance_fun _ _ _ _ _ _ d _ Hn Hd (elbow_length_spec _ _ _ _ _ _ Hn)). unfold elbow_length.
  replace ((INR (length w - 1) - 0) ^ 2)%R with (INR (length w - 1) ^ 2)%R by ring.
  set (N := sqrt _). assert (HN : (0 < N)%R). { unfold N. apply sqrt_lt_R0. assert (0 < INR (length w - 1) ^ 2)%R by (apply pow_lt; exact Hn). pose proof (pow2_ge_0 (Q2R (nth (length w - 1) w 0%Q) - Q2R (nth 0 w 0%Q))). lra. }
  replace (Rabs _ / N * N)%R with (Rabs ((Q2R (nth 0 w 0%Q) - Q2R (nth (length w - 1) w 0%Q)) * INR i + (INR (length w - 1) - 0) * Q2R (nth i w 0%Q) + (0 * Q2R (nth (length w - 1) w 0%Q) - INR (length w - 1) * Q2R (nth 0 w 0%Q)))) by (field; lra).
  rewrite <- (Rabs_right (below w i)) by lra. rewrite <- (Rabs_Ropp (below w i)). f_equal. unfold below. ring.
Qed.

(** when no error lies above the segment from the first to the last, and the last is not greater than the first, the returned
    amount is never less than the documented one; it is the documented one if its lead over every greater amount exceeds the
    share of the fall of the errors between the two *)
Theorem C88_not_fewer data init kmin kmax kstep st i : elbow_process data init kmin kmax kstep elbow_initial = Ok st ->
  let w := wce st in let n := length w in
  (Q2R (nth (n - 1) w 0%Q) <= Q2R (nth 0 w 0%Q))%R -> (forall j, 1 <= j < n - 1 -> (0 <= below w j)%R) ->
  1 <= i < n - 1 -> (forall j, 1 <= j < n - 1 -> (below w j <= below w i)%R) -> (forall j, 1 <= j < i -> (below w j < below w i)%R) ->
  exists k, kvalue st = Some k /\ kmin + i * kstep <= k /\
    ((forall j, i < j < n - 1 -> (INR (j - i) * (Q2R (nth 0 w 0%Q) - Q2R (nth (n - 1) w 0%Q)) < INR n * (below w i - below w j))%R) -> k = kmin + i * kstep).
Proof.
  intros E w n Hfall Hpos Hi Hmax Hfirst. destruct (C31_elbow _ _ _ _ _ _ E) as (L & _ & m & Ek & Hm & _ & d & Hd & Hbest). cbv zeta in *. fold w in L, Hd, Hbest. rewrite <- L in *. fold n in Hm, Hd, Hbest.
  exists (kmin + m * kstep). split; [exact Ek|].
  assert (Hn : (0 < INR n)%R) by (apply lt_0_INR; lia). assert (Hn1 : (0 < INR (n - 1))%R) by (apply lt_0_INR; lia).
  assert (EN : INR n = (INR (n - 1) + 1)%R) by (rewrite minus_INR by lia; cbn [INR]; lra).
  set (c j := (INR n * (Q2R (nth 0 w 0%Q) - Q2R (nth j w 0%Q)) - INR j * (Q2R (nth 0 w 0%Q) - Q2R (nth (n - 1) w 0%Q)))%R).
  assert (Ec : forall j, (INR (n - 1) * c j = INR n * below w j + INR j * (Q2R (nth 0 w 0%Q) - Q2R (nth (n - 1) w 0%Q)))%R).
  { intro j. unfold c, below. fold n. rewrite EN. ring. }
  assert (Hc : forall j, 1 <= j < n - 1 -> (0 <= c j)%R).
  { intros j Hj. apply (Rmult_le_reg_l (INR (n - 1))); [exact Hn1|]. rewrite Rmult_0_r, Ec. apply Rplus_le_le_0_compat; apply Rmult_le_pos; try lra; [apply Hpos; exact Hj|apply pos_INR]. }
  assert (Len : forall j, 1 <= j < n - 1 -> forall d', line_distance 0 (Q2R (nth 0 w 0%Q)) (INR n) (Q2R (nth (n - 1) w 0%Q)) (INR j) (Q2R (nth j w 0%Q)) d' -> (d' * sqrt ((INR n - 0) ^ 2 + (Q2R (nth (n - 1) w 0%Q) - Q2R (nth 0 w 0%Q)) ^ 2) = c j)%R).
  { intros j Hj d' Hd'. rewrite (line_distance_fun _ _ _ _ _ _ d' _ Hn Hd' (elbow_length_spec _ _ _ _ _ _ Hn)). unfold elbow_length.
    set (N := sqrt _). assert (HN : (0 < N)%R). { unfold N. apply sqrt_lt_R0. assert (0 < (INR n - 0) ^ 2)%R by (apply pow_lt; lra). pose proof (pow2_ge_0 (Q2R (nth (n - 1) w 0%Q) - Q2R (nth 0 w 0%Q))). lra. }
    replace (Rabs _ / N * N)%R with (Rabs ((Q2R (nth 0 w 0%Q) - Q2R (nth (n - 1) w 0%Q)) * INR j + (INR n - 0) * Q2R (nth j w 0%Q) + (0 * Q2R (nth (n - 1) w 0%Q) - INR n * Q2R (nth 0 w 0%Q)))) by (field; lra).
    rewrite <- (Rabs_right (c j)) by (apply Rle_ge, Hc; exact Hj). rewrite <- (Rabs_Ropp (c j)). f_equal. unfold c. ring. }
  set (N := sqrt ((INR n - 0) ^ 2 + (Q2R (nth (n - 1) w 0%Q) - Q2R (nth 0 w 0%Q)) ^ 2)) in *.
  assert (HN : (0 < N)%R). { unfold N. apply sqrt_lt_R0. assert (0 < (INR n - 0) ^ 2)%R by (apply pow_lt; lra). pose proof (pow2_ge_0 (Q2R (nth (n - 1) w 0%Q) - Q2R (nth 0 w 0%Q))). lra. }
  pose proof (Len m Hm d Hd) as Em.
  assert (Best : forall j, 1 <= j < n - 1 -> (c j <= c m)%R /\ (j < m -> (c j < c m)%R)).
  { intros j Hj. pose proof (elbow_length_spec 0 (Q2R (nth 0 w 0%Q)) (INR n) (Q2R (nth (n - 1) w 0%Q)) (INR j) (Q2R (nth j w 0%Q)) Hn) as Hj'. destruct (Hbest j _ Hj Hj') as [B1 B2].
    rewrite <- (Len j Hj _ Hj'), <- Em. split; [apply Rmult_le_compat_r; lra|]. intro X. apply Rmult_lt_compat_r; [exact HN|apply B2; exact X]. }
  assert (Him : i <= m).
  { destruct (le_lt_dec i m) as [|X]; auto. exfalso. destruct (Best i Hi) as [B _]. specialize (Hfirst m ltac:(lia)). pose proof (Ec i). pose proof (Ec m). assert (INR m < INR i)%R by (apply lt_INR; lia).
    assert (INR (n - 1) * c i <= INR (n - 1) * c m)%R by (apply Rmult_le_compat_l; lra). assert (INR m * (Q2R (nth 0 w 0%Q) - Q2R (nth (n - 1) w 0%Q)) <= INR i * (Q2R (nth 0 w 0%Q) - Q2R (nth (n - 1) w 0%Q)))%R by (apply Rmult_le_compat_r; lra).
    assert (INR n * below w m < INR n * below w i)%R by (apply Rmult_lt_compat_l; lra). lra. }
  split; [apply Nat.add_le_mono_l, Nat.mul_le_mono_r; exact Him|]. intro Hlead. f_equal. f_equal. destruct (Nat.eq_dec m i) as [|X]; auto. exfalso.
  specialize (Hlead m ltac:(lia)). destruct (Best i Hi) as [_ B]. destruct (Best i Hi) as [B1 _]. pose proof (Ec i). pose proof (Ec m).
  assert (INR (n - 1) * c i <= INR (n - 1) * c m)%R by (apply Rmult_le_compat_l; lra). rewrite minus_INR in Hlead by lia. lra.
Qed.
Print Assumptions C88_not_fewer.

(** with three amounts there is only one amount between the ends, and it is returned *)
Theorem C88_three_amounts_partial data init kmin kmax kstep st : elbow_process data init kmin kmax kstep elbow_initial = Ok st -> length (wce st) = 3 -> kvalue st = Some (kmin + kstep).
Proof.
  intros E L. destruct (C31_elbow _ _ _ _ _ _ E) as (L' & _ & m & Ek & Hm & _). cbv zeta in *. rewrite L' in L. rewrite L in Hm. assert (m = 1) by lia. subst m. rewrite Ek. f_equal. lia.
Qed.
Print Assumptions C88_three_amounts_partial.

(** the documented amount is 2 here, and the code returns 3 *)
Example C88_case : exists st, elbow_process data5 init5 1 4 1 elbow_initial = Ok st /\ length (wce st) = 4 /\
  (Q2R (nth 3 (wce st) 0%Q) <= Q2R (nth 0 (wce st) 0%Q))%R /\ (0 <= below (wce st) 2 < below (wce st) 1)%R.
Proof.
  destruct (errors5 []) as (a & b & c & d & E & Ea & Eb & Ec & Ed). cbn [app] in E. apply q2r in Ea, Eb, Ec, Ed. rewrite Q42 in Ea. rewrite Q19 in Eb. rewrite Q11 in Ec. rewrite Q12 in Ed.
  destruct (process_total data5 init5 1 4 1 elbow_initial [a; b; c; d] eq_refl E ltac:(simpl; lia)) as (k & m & P & _).
  eexists. split; [exact P|]. split; [reflexivity|]. cbn [wce]. unfold below. cbn [length Nat.sub nth]. rewrite Ea, Eb, Ec, Ed. simpl INR. repeat split; lra.
Qed.
(** the least interval of amounts: 1, 2, 3 *)
Example C88_case_three : exists st, elbow_process data5 init5 1 3 1 elbow_initial = Ok st /\ length (wce st) = 3.
Proof.
  assert (E : exists a b c, errors data5 init5 (amounts 1 3 1) [] = Ok [a; b; c]).
  { change (amounts 1 3 1) with [1; 2; 3]. cbn [errors]. set (r1 := kmeans_process sqdist data5 (init5 1) (1 # 1000) 200). vm_compute in r1. set (r2 := kmeans_process sqdist data5 (init5 2) (1 # 1000) 200). vm_compute in r2.
    set (r3 := kmeans_process sqdist data5 (init5 3) (1 # 1000) 200). vm_compute in r3. unfold r1, r2, r3. cbn [bind snd app]. do 3 eexists. reflexivity. }
  destruct E as (a & b & c & E). destruct (process_total data5 init5 1 3 1 elbow_initial [a; b; c] eq_refl E ltac:(simpl; lia)) as (k & m & P & _). eexists. split; [exact P|reflexivity].
Qed.
