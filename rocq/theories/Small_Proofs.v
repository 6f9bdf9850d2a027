(** Small utilities: specifications and proofs. *)
From Verif Require Import Base Small_Model.
From Coq Require Import Qround.

(** * Specifications *)
(** [x] and [y] differ by a whole number of periods *)
Definition congruent (period x y : Q) : Prop := exists k : Z, (x == y + inject_Z k * period)%Q.

(** [lo], [hi] are the exact bounds of coordinate [d] over the points *)
Definition tight (pts : list point) (d : nat) (lo hi : Q) : Prop :=
  (exists p, In p pts /\ coord p d = lo) /\ (exists p, In p pts /\ coord p d = hi) /\
  forall p, In p pts -> (lo <= coord p d <= hi)%Q.

Definition zero_one_square (data : list (list Z)) : Prop :=
  Forall (fun r => length r = length data /\ Forall (fun e => e = 0%Z \/ e = 1%Z) r) data.

(** * Phase normalisation *)
Lemma phase_up period k : forall teta f, (0 < period)%Q -> (period < teta)%Q -> (teta <= inject_Z (Z.of_nat k) * period)%Q ->
  k <= f -> exists r, phase_normalization period f teta = Ok r /\ (0 <= r <= period)%Q /\ congruent period r teta.
Proof.
  induction k as [|k IH]; intros teta f Hp Ht Hk Hf.
  - simpl in Hk. exfalso. unfold inject_Z in Hk. lra.
  - destruct f as [|f]; [lia|]. cbn [phase_normalization].
    rewrite (proj2 (Qltb_true _ _) Ht). cbn [orb].
    rewrite Nat2Z.inj_succ, <- Z.add_1_r, inject_Z_plus in Hk.
    assert (Hk' : (teta - period <= inject_Z (Z.of_nat k) * period)%Q).
    { change (inject_Z 1) with 1%Q in Hk. lra. }
    destruct (Qlt_le_dec period (teta - period)) as [H|H].
    + destruct (IH (teta - period)%Q f Hp H Hk' ltac:(lia)) as [r (E & Hr & [z Hz])]. exists r. split; auto. split; auto.
      exists (z - 1)%Z. rewrite Hz. unfold Z.sub. rewrite inject_Z_plus. change (inject_Z (- (1))) with (-(1))%Q. ring.
    + exists (teta - period)%Q. split; [|split; [lra|]].
      * assert (E1 : Qltb period (teta - period) = false) by (apply Qltb_false; auto).
        assert (E2 : Qltb (teta - period) 0 = false) by (apply Qltb_false; lra).
        destruct f; cbn [phase_normalization]; rewrite E1, E2; reflexivity.
      * exists (-1)%Z. change (inject_Z (-1)) with (-(1))%Q. ring.
Qed.

Lemma phase_down period k : forall teta f, (0 < period)%Q -> (teta < 0)%Q -> (- (inject_Z (Z.of_nat k) * period) <= teta)%Q ->
  k <= f -> exists r, phase_normalization period f teta = Ok r /\ (0 <= r <= period)%Q /\ congruent period r teta.
Proof.
  induction k as [|k IH]; intros teta f Hp Ht Hk Hf.
  - simpl in Hk. exfalso. unfold inject_Z in Hk. lra.
  - destruct f as [|f]; [lia|]. cbn [phase_normalization].
    rewrite (proj2 (Qltb_true _ _) Ht), orb_true_r.
    assert (E0 : Qltb period teta = false) by (apply Qltb_false; lra). rewrite E0.
    rewrite Nat2Z.inj_succ, <- Z.add_1_r, inject_Z_plus in Hk.
    assert (Hk' : (- (inject_Z (Z.of_nat k) * period) <= teta + period)%Q).
    { change (inject_Z 1) with 1%Q in Hk. lra. }
    destruct (Qlt_le_dec (teta + period) 0) as [H|H].
    + destruct (IH (teta + period)%Q f Hp H Hk' ltac:(lia)) as [r (E & Hr & [z Hz])]. exists r. split; auto. split; auto.
      exists (z + 1)%Z. rewrite Hz. rewrite inject_Z_plus. change (inject_Z 1) with 1%Q. ring.
    + exists (teta + period)%Q. split; [|split; [lra|]].
      * assert (E1 : Qltb period (teta + period) = false) by (apply Qltb_false; lra).
        assert (E2 : Qltb (teta + period) 0 = false) by (apply Qltb_false; lra).
        destruct f; cbn [phase_normalization]; rewrite E1, E2; reflexivity.
      * exists 1%Z. change (inject_Z 1) with 1%Q. ring.
Qed.

Lemma archimedes (x period : Q) : (0 < period)%Q -> exists k : nat, (x <= inject_Z (Z.of_nat k) * period)%Q.
Proof.
  intros Hp. exists (Z.to_nat (Qceiling (x / period))).
  destruct (Z.le_gt_cases 0 (Qceiling (x / period))) as [H|H].
  - rewrite Z2Nat.id by auto. pose proof (Qle_ceiling (x / period)) as Hc.
    apply (Qmult_le_compat_r _ _ period) in Hc; [|lra].
    setoid_replace (x / period * period)%Q with x in Hc by (field; lra). auto.
  - replace (Z.to_nat (Qceiling (x / period))) with 0 by lia. change (inject_Z (Z.of_nat 0)) with 0%Q.
    pose proof (Qle_ceiling (x / period)) as Hc.
    assert (Hz : (inject_Z (Qceiling (x / period)) <= 0)%Q) by (change 0%Q with (inject_Z 0); rewrite <- Zle_Qle; lia).
    assert (Hx : (x / period <= 0)%Q) by lra.
    apply (Qmult_le_compat_r _ _ period) in Hx; [|lra].
    setoid_replace (x / period * period)%Q with x in Hx by (field; lra). lra.
Qed.

Theorem phase_normalization_spec period teta : (0 < period)%Q ->
  exists fuel, forall f, fuel <= f ->
    exists r, phase_normalization period f teta = Ok r /\ (0 <= r <= period)%Q /\ congruent period r teta.
Proof.
  intros Hp. destruct (Qlt_le_dec period teta) as [H|H].
  - destruct (archimedes teta period Hp) as [k Hk]. exists k. intros f Hf. eapply phase_up; eauto.
  - destruct (Qlt_le_dec teta 0) as [H0|H0].
    + destruct (archimedes (- teta) period Hp) as [k Hk]. exists k. intros f Hf. apply (phase_down period k); auto. lra.
    + exists 0. intros f _. exists teta. split; [|split; [lra|]].
      * assert (E1 : Qltb period teta = false) by (apply Qltb_false; lra).
        assert (E2 : Qltb teta 0 = false) by (apply Qltb_false; lra).
        destruct f; cbn [phase_normalization]; rewrite E1, E2; reflexivity.
      * exists 0%Z. change (inject_Z 0) with 0%Q. ring.
Qed.

(** * Bounding boxes *)
Lemma coord_map (f : nat -> Q) n d : d < n -> coord (map f (seq 0 n)) d = f d.
Proof.
  intros H. unfold coord. rewrite (nth_indep _ 0%Q (f 0)) by (rewrite map_length, seq_length; auto).
  rewrite map_nth, seq_nth; auto.
Qed.

Lemma tight_one p d : tight [p] d (coord p d) (coord p d).
Proof.
  repeat split; try (exists p; simpl; auto; fail).
  - destruct H as [<-|[]]. lra.
  - destruct H as [<-|[]]. lra.
Qed.

(** one more point *)
Lemma tight_corner pts d lo hi p : tight pts d lo hi ->
  tight (pts ++ [p]) d (fst (corner_coord d p (lo, hi))) (snd (corner_coord d p (lo, hi))).
Proof.
  intros ((a & Ha & Ea) & (b & Hb & Eb) & Hall). unfold corner_coord. cbn [fst snd].
  assert (Hlh : (lo <= hi)%Q) by (specialize (Hall a Ha); rewrite Ea in Hall; lra).
  destruct (Qltb hi (coord p d)) eqn:E1; destruct (Qltb (coord p d) lo) eqn:E2;
    rewrite ?Qltb_true, ?Qltb_false in *; try (exfalso; lra);
    (split; [|split]).
  all:
    try (exists p; split; [apply in_app_iff; simpl; auto|reflexivity]);
    try (exists a; split; [apply in_app_iff; auto|auto; fail]);
    try (exists b; split; [apply in_app_iff; auto|auto; fail]).
  all: intros q Hq; apply in_app_iff in Hq as [Hq|[<-|[]]]; try lra; specialize (Hall q Hq); lra.
Qed.

Lemma dimension_corner d p lo hi : (lo <= hi)%Q -> dimension_coord d p (lo, hi) = corner_coord d p (lo, hi).
Proof.
  intros H. unfold dimension_coord, corner_coord.
  destruct (Qltb hi (coord p d)) eqn:E1; destruct (Qltb (coord p d) lo) eqn:E2; auto.
  rewrite ?Qltb_true in *. exfalso. lra.
Qed.

Definition box (dims : nat) (pts : list point) (c : point * point) : Prop :=
  length (fst c) = dims /\ length (snd c) = dims /\
  forall d, d < dims -> tight pts d (coord (fst c) d) (coord (snd c) d).

Lemma tight_le pts d lo hi : tight pts d lo hi -> (lo <= hi)%Q.
Proof. intros ((a & Ha & Ea) & _ & Hall). specialize (Hall a Ha). lra. Qed.

Lemma box_corner dims pts c p : box dims pts c -> box dims (pts ++ [p]) (corner_point dims c p).
Proof.
  intros (H1 & H2 & H3). unfold corner_point, box. cbn [fst snd].
  rewrite !map_length, seq_length. repeat split; auto; rewrite !map_map, !coord_map by auto;
    destruct (tight_corner pts d _ _ p (H3 d H)) as (A & B & C); auto; apply C; auto.
Qed.

Lemma dimension_point_eq dims pts c p : box dims pts c -> dimension_point dims c p = corner_point dims c p.
Proof.
  intros (_ & _ & H). unfold dimension_point, corner_point.
  assert (E : map (fun d => dimension_coord d p (coord (fst c) d, coord (snd c) d)) (seq 0 dims) =
              map (fun d => corner_coord d p (coord (fst c) d, coord (snd c) d)) (seq 0 dims)).
  { apply map_ext_in. intros d Hd. apply in_seq in Hd. apply dimension_corner. eapply tight_le. apply H. lia. }
  rewrite E. reflexivity.
Qed.

Lemma box_fold dims ps : forall pts c, box dims pts c ->
  box dims (pts ++ ps) (fold_left (corner_point dims) ps c) /\
  fold_left (dimension_point dims) ps c = fold_left (corner_point dims) ps c.
Proof.
  induction ps as [|p ps IH]; intros pts c H; cbn [fold_left]; [rewrite app_nil_r; auto|].
  pose proof (box_corner dims pts c p H) as Hb. rewrite (dimension_point_eq dims pts c p H).
  destruct (IH _ _ Hb) as [H1 H2]. rewrite <- app_assoc in H1. auto.
Qed.

Lemma box_dup dims p ps c : box dims ((p :: nil) ++ p :: ps) c -> box dims (p :: ps) c.
Proof.
  intros (H1 & H2 & H3). repeat split; auto; destruct (H3 d H) as ((a & Ha & Ea) & (b & Hb & Eb) & Hall).
  - exists a. simpl in *. intuition.
  - exists b. simpl in *. intuition.
  - apply Hall. simpl in *; intuition.
  - apply Hall. simpl in *; intuition.
Qed.

Lemma box_one dims p : length p = dims -> box dims [p] (p, p).
Proof. intros H. split; [exact H|]. split; [exact H|]. intros d _. apply tight_one. Qed.

Theorem data_corners_spec data filt dims :
  data <> [] -> (forall p, In p data -> length p = dims) ->
  (forall f, filt = Some f -> f <> [] /\ forall i, In i f -> i < length data) ->
  exists c, data_corners data filt = Ok c /\
    box dims (match filt with None => data | Some f => map (fun i => nth i data []) f end) c.
Proof.
  intros Hne Hd Hf. unfold data_corners. destruct data as [|p0 t]; [congruence|].
  remember (p0 :: t) as data eqn:Edata.
  set (bypass := match filt with None => seq 0 (length data) | Some f => f end).
  assert (Hin : forall i, In i bypass -> i < length data).
  { intros i Hi. unfold bypass in Hi. destruct filt as [f|].
    - destruct (Hf f eq_refl) as [_ H]. auto.
    - apply in_seq in Hi. lia. }
  assert (Hp0 : length p0 = dims) by (apply Hd; rewrite Edata; simpl; auto).
  assert (Hpts : match filt with None => data | Some f => map (fun i => nth i data []) f end = map (fun i => nth i data []) bypass).
  { unfold bypass. destruct filt; auto. clear. symmetry. apply nth_ext with (d := []) (d' := []).
    - now rewrite map_length, seq_length.
    - intros k Hk. rewrite map_length, seq_length in Hk.
      rewrite (nth_indep _ [] (nth 0 data [])) by (rewrite map_length, seq_length; auto).
      rewrite (map_nth (fun i => nth i data [])), seq_nth; auto. }
  unfold point in *. rewrite Hpts. fold bypass. destruct bypass as [|b0 bt] eqn:Eb.
  { exfalso. unfold bypass in Eb. destruct filt as [f|].
    - destruct (Hf f eq_refl). auto.
    - rewrite Edata in Eb. discriminate. }
  rewrite (proj2 (forallb_forall _ _)).
  2:{ intros i Hi. apply Nat.ltb_lt. auto. }
  eexists; split; [reflexivity|]. rewrite Hp0. cbn [map].
  assert (Hb0 : length (nth b0 data []) = dims).
  { apply Hd, nth_In, Hin. simpl; auto. }
  apply box_dup. apply box_fold. apply box_one; auto.
Qed.

Theorem dimension_minmax_spec data dims :
  data <> [] -> (forall p, In p data -> length p = dims) ->
  exists c, dimension_minmax data = Ok c /\ box dims data c.
Proof.
  intros Hne Hd. unfold dimension_minmax. destruct data as [|p0 t]; [congruence|].
  eexists; split; [reflexivity|]. rewrite (Hd p0) by (simpl; auto).
  destruct (box_fold dims (p0 :: t) [p0] (p0, p0)) as [H1 H2]; [apply box_one; apply Hd; simpl; auto|].
  unfold point in *. rewrite H2. apply box_dup. auto.
Qed.

(** * Graph *)
Lemma graph_fold_vector row : fold_left (fun ty e => if negb (Z.eqb e 0) || negb (Z.eqb e 1) then GRAPH_VECTOR_DESCR else ty) row GRAPH_VECTOR_DESCR = GRAPH_VECTOR_DESCR.
Proof. induction row as [|e row IH]; cbn [fold_left]; auto. destruct (negb _ || negb _); auto. Qed.

Lemma graph_fold row ty : row <> [] ->
  fold_left (fun ty e => if negb (Z.eqb e 0) || negb (Z.eqb e 1) then GRAPH_VECTOR_DESCR else ty) row ty = GRAPH_VECTOR_DESCR.
Proof.
  destruct row as [|e row]; [congruence|]. intros _. cbn [fold_left].
  assert (E : negb (e =? 0)%Z || negb (e =? 1)%Z = true).
  { destruct (Z.eqb_spec e 0) as [->|]; auto. }
  rewrite E. apply graph_fold_vector.
Qed.

Lemma graph_scan_vector size rows : graph_scan size rows GRAPH_VECTOR_DESCR = GRAPH_VECTOR_DESCR.
Proof. induction rows as [|r rows IH]; cbn [graph_scan]; auto. destruct (negb _); auto. rewrite graph_fold_vector. auto. Qed.

Theorem graph_type_actual data : graph_type data = match data with [] => GRAPH_MATRIX_DESCR | _ => GRAPH_VECTOR_DESCR end.
Proof.
  destruct data as [|r t]; [reflexivity|]. unfold graph_type. cbn [graph_scan].
  destruct (Nat.eqb_spec (length r) (length (r :: t))) as [E|E]; cbn [negb]; auto.
  rewrite graph_fold; [apply graph_scan_vector|]. destruct r; [simpl in E; lia|congruence].
Qed.
