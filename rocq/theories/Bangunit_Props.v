(** C269: BANG does not depend on the units and the origin of the coordinates, each coordinate with a unit of its own. *)
From Verif Require Import Base Small_Model Small_Proofs Kmeans_Model Kmeans_Proofs Scaled_Proofs Unit_Props Unitmore_Props Reorder_Props Clique_Model Cliqorder_Props Bang_Model Bang_Proofs Bang_Props Bangorder_Props.
Open Scope nat_scope.

(** ** specification *)
(** the points differ in coordinate [d] *)
Definition differ (data : list point) (d : nat) : bool := existsb (fun p => negb (Qeq_bool (coord p d) (coord (nth 0 data []) d))) data.
(** the unit of volume in the new coordinates: the product of the units of those coordinates in which the points differ *)
Definition unit_volume (ss : point) (data : list point) : Q :=
  fold_right (fun d f => if differ data d then (coord ss d * f)%Q else f) 1%Q (seq 0 (length ss)).
(** the same box in the new coordinates *)
Definition moved_block (ss v : point) (b b' : block) : Prop :=
  rescaled ss v (bmax b) (bmax b') /\ rescaled ss v (bmin b) (bmin b') /\ region b' = region b /\ level b' = level b.
Definition moved_bang (ss v : point) (b b' : bang) : Prop :=
  Bang_Model.clusters b' = Bang_Model.clusters b /\ Bang_Model.noise b' = Bang_Model.noise b /\ dendro b' = dendro b /\ leaf_marks b' = leaf_marks b /\
  match dir b, dir b' with
  | Some d, Some d' => Forall2 (moved_block ss v) (leafs d) (leafs d') /\ Forall2 (Forall2 (moved_block ss v)) (level_blocks d) (level_blocks d') /\ size d' = size d
  | _, _ => False
  end.

(** ** proof *)
Lemma Qeq_bool_same x y : (x == y)%Q -> Qeq_bool x 0 = Qeq_bool y 0.
Proof. intro H. now rewrite H. Qed.
Lemma nth_both {A B} (R : A -> B -> Prop) l l' d d' : Forall2 R l l' -> forall i, i < length l -> R (nth i l d) (nth i l' d').
Proof. induction 1; intros [|i] Hi; cbn [length nth] in *; try lia; auto. apply IHForall2. lia. Qed.

Lemma in_left {A B} (R : A -> B -> Prop) l l' : Forall2 R l l' -> forall x, In x l -> exists y, In y l' /\ R x y.
Proof. induction 1 as [|x0 y l l' H Hl IH]; intros x Hx; [destruct Hx|]; destruct Hx as [<-|Hp]; [exists y; split; [left; reflexivity|exact H]|]. destruct (IH x Hp) as (q' & A1 & B1). exists q'. split; [right; exact A1|exact B1]. Qed.
Lemma in_right {A B} (R : A -> B -> Prop) l l' : Forall2 R l l' -> forall y, In y l' -> exists x, In x l /\ R x y.
Proof. induction 1 as [|x y0 l l' H Hl IH]; intros y Hy; [destruct Hy|]; destruct Hy as [<-|Hp]; [exists x; split; [left; reflexivity|exact H]|]. destruct (IH y Hp) as (q' & A1 & B1). exists q'. split; [right; exact A1|exact B1]. Qed.

Section Unit.
Variable order : list nat -> list nat.
Hypothesis order_perm : forall l, Permutation (order l) l.
Variables (ss v : point) (data data' : list point).
Variables (levels athr : nat) (dthr dthr' : Q).
Hypothesis Hdata : Forall2 (rescaled ss v) data data'.
Hypothesis Hne : data <> [].
Notation D := (length v).
Notation F := (unit_volume ss data).
Hypothesis Hthr : (dthr' == dthr / F)%Q.

Lemma new_point p : In p data -> exists q, In q data' /\ rescaled ss v p q.
Proof. apply in_left, Hdata. Qed.
Lemma old_point q : In q data' -> exists p, In p data /\ rescaled ss v p q.
Proof. apply in_right, Hdata. Qed.
Lemma first_in : In (nth 0 data []) data.
Proof. apply nth_In. destruct (length data) eqn:E; [|lia]. apply length_zero_iff_nil in E. contradiction. Qed.
Lemma ss_length : length ss = D.
Proof. destruct (new_point _ first_in) as (q & _ & _ & _ & H & _). exact H. Qed.
Lemma ss_pos d : d < D -> (0 < coord ss d)%Q.
Proof. destruct (new_point _ first_in) as (q & _ & _ & _ & _ & H & _). apply H. Qed.
Lemma data_length' : length data' = length data.
Proof. apply (both_length _ _ _ Hdata). Qed.
Lemma dim p : In p data -> length p = D.
Proof. intro H. destruct (new_point p H) as (q & _ & E & _). exact E. Qed.
Lemma dim' p : In p data' -> length p = D.
Proof. intro H. destruct (old_point p H) as (q & _ & _ & E & _). exact E. Qed.

(** the boxes that occur: flat exactly where the data are *)
Definition shaped (b : block) : Prop := forall d, d < D -> (side b d == 0 <-> differ data d = false)%Q.
Definition rel (b b' : block) : Prop := moved_block ss v b b' /\ shaped b.

Lemma rel_dims b b' : rel b b' -> length (bmax b) = D /\ length (bmax b') = D /\ length (bmin b) = D /\ length (bmin b') = D.
Proof. intros (((A & B & _) & (C & E & _) & _) & _). auto. Qed.
Lemma rel_side b b' d : rel b b' -> d < D -> (side b' d == coord ss d * side b d)%Q.
Proof. intros (((_ & _ & _ & _ & A) & (_ & _ & _ & _ & B) & _) & _) Hd. unfold side. rewrite (A d Hd), (B d Hd). ring. Qed.

Lemma contains_rel b b' p q : rel b b' -> rescaled ss v p q -> Bang_Model.contains b' q = Bang_Model.contains b p.
Proof.
  intros (((_ & _ & _ & _ & A) & (_ & _ & _ & _ & B) & _) & _) (L & L' & _ & P & E). unfold Bang_Model.contains. unfold point in *. rewrite L, L'.
  assert (G : forall l, (forall d, In d l -> d < D) -> forallb (fun i => negb (Qltb (coord q i) (coord (bmin b') i) || Qltb (coord (bmax b') i) (coord q i))) l = forallb (fun i => negb (Qltb (coord p i) (coord (bmin b) i) || Qltb (coord (bmax b) i) (coord p i))) l).
  { induction l as [|d t IH]; intro Hl; cbn [forallb]; [reflexivity|]. assert (Hd : d < D) by (apply Hl; left; reflexivity). rewrite IH by (intros; apply Hl; right; assumption). do 2 f_equal.
    f_equal; apply (corner_ltb ss v d); auto. }
  apply G. intros d Hd. apply in_seq in Hd. lia.
Qed.
Lemma points_rel b b' : rel b b' -> points data' b' = points data b.
Proof.
  intro H. unfold points. rewrite data_length'. apply filter_ext_in. intros i Hi. apply in_seq in Hi. apply contains_rel; [exact H|]. apply nth_both; [exact Hdata|unfold point in *; lia].
Qed.

(** volumes *)
Local Notation vol s := (fun v i => if Qeq_bool (s i) 0 then v else if Qeq_bool v 0 then s i else Qmult v (s i)).
Notation unitf := (fun d f => if differ data d then (coord ss d * f)%Q else f).
Lemma volume_going (s s' : nat -> Q) l : (forall d, In d l -> (s' d == coord ss d * s d)%Q /\ (0 < coord ss d)%Q /\ (s d == 0 <-> differ data d = false)%Q) ->
  forall x x' f, ~ (x == 0)%Q -> (0 < f)%Q -> (x' == f * x)%Q -> (fold_left (vol s') l x' == f * fold_right unitf 1%Q l * fold_left (vol s) l x)%Q.
Proof.
  induction l as [|d l IH]; intros Hl x x' f Hx Hf E; cbn [fold_left fold_right]; [rewrite E; ring|].
  destruct (Hl d (or_introl eq_refl)) as (H1 & H2 & H3). assert (Hl' : forall e, In e l -> (s' e == coord ss e * s e)%Q /\ (0 < coord ss e)%Q /\ (s e == 0 <-> differ data e = false)%Q) by (intros; apply Hl; right; assumption).
  destruct (differ data d) eqn:Ed.
  - assert (Hs : ~ (s d == 0)%Q) by (intro W; apply H3 in W; discriminate).
    assert (Z1 : Qeq_bool (s d) 0 = false) by (apply not_true_iff_false; rewrite Qeq_bool_iff; exact Hs).
    assert (Z2 : Qeq_bool (s' d) 0 = false). { apply not_true_iff_false. rewrite Qeq_bool_iff, H1. intro W. apply Qmult_integral in W as [W|W]; [rewrite W in H2; lra|contradiction]. }
    assert (Z3 : Qeq_bool x 0 = false) by (apply not_true_iff_false; rewrite Qeq_bool_iff; exact Hx).
    assert (Z4 : Qeq_bool x' 0 = false). { apply not_true_iff_false. rewrite Qeq_bool_iff, E. intro W. apply Qmult_integral in W as [W|W]; [rewrite W in Hf; lra|contradiction]. }
    rewrite Z1, Z2, Z3, Z4. rewrite (IH Hl' (x * s d)%Q (x' * s' d)%Q (f * coord ss d)%Q); [ring| | |rewrite E, H1; ring].
    + intro W. apply Qmult_integral in W as [W|W]; contradiction.
    + clear - Hf H2. nra.
  - assert (Hs : (s d == 0)%Q) by (apply H3; reflexivity). assert (Z1 : Qeq_bool (s d) 0 = true) by (apply Qeq_bool_iff; exact Hs).
    assert (Z2 : Qeq_bool (s' d) 0 = true) by (apply Qeq_bool_iff; rewrite H1, Hs; ring). rewrite Z1, Z2. apply IH; assumption.
Qed.
Lemma volume_start (s s' : nat -> Q) l : (forall d, In d l -> (s' d == coord ss d * s d)%Q /\ (0 < coord ss d)%Q /\ (s d == 0 <-> differ data d = false)%Q) ->
  (fold_left (vol s') l 0 == fold_right unitf 1 l * fold_left (vol s) l 0)%Q.
Proof.
  induction l as [|d l IH]; intros Hl; [reflexivity|]. cbn [fold_left fold_right].
  destruct (Hl d (or_introl eq_refl)) as (H1 & H2 & H3). assert (Hl' : forall e, In e l -> (s' e == coord ss e * s e)%Q /\ (0 < coord ss e)%Q /\ (s e == 0 <-> differ data e = false)%Q) by (intros; apply Hl; right; assumption).
  destruct (differ data d) eqn:Ed.
  - assert (Hs : ~ (s d == 0)%Q) by (intro W; apply H3 in W; discriminate).
    assert (Z1 : Qeq_bool (s d) 0 = false) by (apply not_true_iff_false; rewrite Qeq_bool_iff; exact Hs).
    assert (Z2 : Qeq_bool (s' d) 0 = false). { apply not_true_iff_false. rewrite Qeq_bool_iff, H1. intro W. apply Qmult_integral in W as [W|W]; [rewrite W in H2; lra|contradiction]. }
    rewrite Z1, Z2. change (Qeq_bool 0 0) with true. cbn match. apply volume_going; assumption.
  - assert (Hs : (s d == 0)%Q) by (apply H3; reflexivity). assert (Z1 : Qeq_bool (s d) 0 = true) by (apply Qeq_bool_iff; exact Hs).
    assert (Z2 : Qeq_bool (s' d) 0 = true) by (apply Qeq_bool_iff; rewrite H1, Hs; ring). rewrite Z1, Z2. apply IH; assumption.
Qed.
Lemma unit_positive : (0 < F)%Q.
Proof.
  unfold unit_volume. rewrite ss_length. assert (H : forall l, (forall d, In d l -> (0 < coord ss d)%Q) -> (0 < fold_right unitf 1 l)%Q).
  { induction l as [|d l IH]; intro Hl; cbn [fold_right]; [reflexivity|]. assert (A : (0 < fold_right unitf 1 l)%Q) by (apply IH; intros; apply Hl; right; assumption). destruct (differ data d); [|exact A].
    pose proof (Hl d (or_introl eq_refl)) as B. clear - A B. nra. }
  apply H. intros d Hd. apply in_seq in Hd. apply ss_pos. lia.
Qed.
Lemma volume_rel b b' : rel b b' -> (volume b' == F * volume b)%Q.
Proof.
  intro H. unfold volume, unit_volume. destruct (rel_dims b b' H) as (L1 & L2 & _). unfold point in *. rewrite L1, L2, ss_length. apply volume_start. intros d Hd. apply in_seq in Hd.
  split; [apply rel_side; [exact H|lia]|]. split; [apply ss_pos; lia|]. apply (proj2 H). lia.
Qed.
Lemma density_rel b b' : rel b b' -> (density data' b' == density data b / F)%Q.
Proof.
  intro H. pose proof unit_positive as P. assert (NF : ~ (F == 0)%Q) by (intro W; rewrite W in P; lra). unfold density, amount. rewrite (points_rel b b' H).
  destruct (Qeq_bool (volume b) 0) eqn:E.
  - apply Qeq_bool_iff in E. assert (Z : Qeq_bool (volume b') 0 = true) by (apply Qeq_bool_iff; rewrite (volume_rel b b' H), E; ring). rewrite Z. field. exact NF.
  - apply Qeq_bool_neq in E. assert (Z : Qeq_bool (volume b') 0 = false). { apply not_true_iff_false. rewrite Qeq_bool_iff, (volume_rel b b' H). intro W. apply Qmult_integral in W as [W|W]; contradiction. }
    rewrite Z, (volume_rel b b' H). field. split; assumption.
Qed.
Lemma over_le x y x' y' : (x' == x / F)%Q -> (y' == y / F)%Q -> Qle_bool x' y' = Qle_bool x y.
Proof.
  intros H1 H2. pose proof unit_positive as P. rewrite (Qle_bool_same _ _ _ _ H1 H2). pose proof (Qinv_lt_0_compat _ P) as I. unfold Qdiv. destruct (Qle_bool x y) eqn:E.
  - apply Qle_bool_iff in E. apply Qle_bool_iff. clear - E I. nra.
  - destruct (Qle_bool (x * / F) (y * / F)) eqn:E2; [|reflexivity]. apply Qle_bool_iff in E2. rewrite <- E. symmetry. apply Qle_bool_iff. clear - E2 I. nra.
Qed.
Lemma below_rel b b' : rel b b' -> Qle_bool (density data' b') dthr' = Qle_bool (density data b) dthr.
Proof. intro H. apply over_le; [now apply density_rel|exact Hthr]. Qed.
Lemma is_sparse_rel b b' : rel b b' -> is_sparse data' dthr' athr b' = is_sparse data dthr athr b.
Proof. intro H. unfold is_sparse, amount. now rewrite (below_rel b b' H), (points_rel b b' H). Qed.

Lemma split_rel b b' d : d < D -> rel b b' -> rel (fst (split b d)) (fst (split b' d)) /\ rel (snd (split b d)) (snd (split b' d)).
Proof.
  intros Hd H. pose proof (rel_dims b b' H) as (L1 & L2 & L3 & L4). destruct H as (((A1 & A2 & A3 & A4 & A) & (B1 & B2 & B3 & B4 & B) & R1 & R2) & Sh). unfold split. cbn [fst snd].
  set (m := ((coord (bmax b) d + coord (bmin b) d) / 2)%Q). set (m' := ((coord (bmax b') d + coord (bmin b') d) / 2)%Q).
  assert (M : (m' == coord ss d * m + coord v d)%Q) by (unfold m, m'; rewrite (A d Hd), (B d Hd); field).
  assert (U : forall p q, length p = D -> length q = D -> (forall e, e < D -> (coord q e == coord ss e * coord p e + coord v e)%Q) -> rescaled ss v (upd p d m) (upd q d m')).
  { intros p q Lp Lq E. split; [now rewrite upd_length|]. split; [now rewrite upd_length|]. split; [exact A3|]. split; [exact A4|]. intros e He. unfold point in *. rewrite !coord_upd by (unfold point in *; lia). destruct (Nat.eqb_spec d e) as [<-|]; [exact M|now apply E]. }
  split; (split; [split; [|split; [|split]]|]); cbn [bmax bmin region level]; try (rewrite ?R1, ?R2; reflexivity); try (apply U; assumption); try (split; [assumption|split; [assumption|split; [assumption|split; assumption]]]);
    intros e He; specialize (Sh e He); rewrite <- Sh; unfold side; cbn [bmax bmin]; unfold point in *; rewrite !coord_upd by (unfold point in *; lia); destruct (Nat.eqb_spec d e) as [<-|]; try reflexivity; unfold m.
  - assert (X : ((coord (bmax b) d + coord (bmin b) d) / 2 - coord (bmin b) d == (1 # 2) * (coord (bmax b) d - coord (bmin b) d))%Q) by field. rewrite X. split; intro W; [|rewrite W; ring]. apply Qmult_integral in W as [W|W]; [discriminate|exact W].
  - assert (X : (coord (bmax b) d - (coord (bmax b) d + coord (bmin b) d) / 2 == (1 # 2) * (coord (bmax b) d - coord (bmin b) d))%Q) by field. rewrite X. split; intro W; [|rewrite W; ring]. apply Qmult_integral in W as [W|W]; [discriminate|exact W].
Qed.
Lemma is_neighbor_rel b b' c c' : rel b b' -> rel c c' -> is_neighbor b' c' = is_neighbor b c.
Proof.
  intros H Hc. unfold is_neighbor. destruct (rel_dims c c' Hc) as (L1 & L2 & _). unfold point in *. rewrite L1, L2. f_equal. f_equal. apply filter_ext_in. intros d Hd. apply in_seq in Hd.
  assert (Hd' : d < D) by lia. pose proof (ss_pos d Hd') as P. pose proof (rel_side b b' d H Hd') as E. destruct H as (((_ & _ & _ & _ & A) & _) & _). destruct Hc as (((_ & _ & _ & _ & C) & _) & _). specialize (A d Hd'). specialize (C d Hd').
  assert (X : (coord (bmax c') d - coord (bmax b') d == coord ss d * (coord (bmax c) d - coord (bmax b) d))%Q) by (rewrite A, C; ring).
  assert (Y : (Qabs (coord (bmax c') d - coord (bmax b') d) == coord ss d * Qabs (coord (bmax c) d - coord (bmax b) d))%Q).
  { rewrite (Qabs_wd _ _ X), Qabs_Qmult, (Qabs_pos (coord ss d)) by lra. reflexivity. }
  assert (Z : (side b' d + side b' d * (1 # 10000) == coord ss d * (side b d + side b d * (1 # 10000)))%Q) by (rewrite E; ring).
  rewrite (Qle_bool_same _ _ _ _ Y Z). generalize (Qabs (coord (bmax c) d - coord (bmax b) d)), (side b d + side b d * (1 # 10000))%Q. intros x y. clear - P.
  destruct (Qle_bool x y) eqn:E; [apply Qle_bool_iff in E; apply Qle_bool_iff; nra|]. destruct (Qle_bool (coord ss d * x) (coord ss d * y)) eqn:E2; [|reflexivity]. apply Qle_bool_iff in E2. rewrite <- E. symmetry. apply Qle_bool_iff. nra.
Qed.

(** ** directory *)
Notation blocks := (Forall2 rel).
Definition rel_dir (d d' : directory) : Prop := blocks (leafs d) (leafs d') /\ Forall2 blocks (level_blocks d) (level_blocks d') /\ size d' = size d.
Lemma rel_length l l' : blocks l l' -> length l' = length l.
Proof. clear. induction 1; cbn [length]; congruence. Qed.
Lemma split_blocks_rel d prev prev' : d < D -> blocks prev prev' -> forall lf lf' cur cur', blocks lf lf' -> blocks cur cur' ->
  let r := split_blocks data dthr athr d prev lf cur in let r' := split_blocks data' dthr' athr d prev' lf' cur' in blocks (fst r) (fst r') /\ blocks (snd r) (snd r').
Proof.
  intro Hd. induction 1 as [|b b' t t' H Ht IH]; intros lf lf' cur cur' Hl Hc; cbn [split_blocks]; [split; assumption|]. rewrite (is_sparse_rel b b' H). destruct (is_sparse data dthr athr b).
  - apply IH; [apply Forall2_app; [exact Hl|constructor; [exact H|constructor]]|exact Hc].
  - destruct (split_rel b b' d Hd H). apply IH; [exact Hl|]. apply Forall2_app; [exact Hc|]. constructor; [assumption|]. constructor; [assumption|constructor].
Qed.
Lemma store_level_rel bs bs' d d' : blocks bs bs' -> rel_dir d d' -> rel_dir (store_level bs d) (store_level bs' d').
Proof.
  intros Hb (H1 & H2 & H3). unfold store_level. split; [exact H1|]. cbn [level_blocks size]. split; [apply Forall2_app; [exact H2|constructor; [exact Hb|constructor]]|]. now rewrite H3, (rel_length _ _ Hb).
Qed.
Lemma build_levels_rel levs : 0 < D -> forall prev prev' d d', blocks prev prev' -> rel_dir d d' ->
  rel_dir (build_levels data levels dthr athr D levs prev d) (build_levels data' levels dthr' athr D levs prev' d').
Proof.
  intro HD. induction levs as [|lev t IH]; intros prev prev' d d' Hp Hd; cbn [build_levels]; [exact Hd|]. unfold build_level. destruct Hd as (H1 & H2 & H3).
  assert (Hm : lev mod D < D) by (apply Nat.mod_upper_bound; lia).
  pose proof (split_blocks_rel (lev mod D) prev prev' Hm Hp (leafs d) (leafs d') [] [] H1 (Forall2_nil _)) as W. cbn zeta in W.
  destruct (split_blocks data dthr athr (lev mod D) prev (leafs d) []) as (lf, cur), (split_blocks data' dthr' athr (lev mod D) prev' (leafs d') []) as (lf', cur').
  destruct W as (W1 & W2). cbn [fst snd] in W1, W2. apply IH; [exact W2|]. apply store_level_rel; [exact W2|]. split; [|split; assumption]. cbn [leafs]. destruct (lev =? levels - 1); [now apply Forall2_app|exact W1].
Qed.
Lemma ne_new : data' <> [].
Proof. intro E. apply Hne. pose proof data_length' as L. rewrite E in L. apply length_zero_iff_nil. symmetry. exact L. Qed.
Lemma root_rel : exists c c', data_corners data None = Ok c /\ data_corners data' None = Ok c' /\ rel (mkBlk (snd c) (fst c) 0 0) (mkBlk (snd c') (fst c') 0 0).
Proof.
  destruct (data_corners_spec data None D Hne dim ltac:(discriminate)) as (c & E & L1 & L2 & T).
  destruct (data_corners_spec data' None D ne_new dim' ltac:(discriminate)) as (c' & E' & L1' & L2' & T').
  exists c, c'. split; [exact E|]. split; [exact E'|].
  assert (C : forall d, d < D -> (coord (fst c') d == coord ss d * coord (fst c) d + coord v d)%Q /\ (coord (snd c') d == coord ss d * coord (snd c) d + coord v d)%Q).
  { intros d Hd. pose proof (ss_pos d Hd) as P. destruct (T d Hd) as ((a & Ha & Ea) & (b & Hb & Eb) & Hall), (T' d Hd) as ((a' & Ha' & Ea') & (b' & Hb' & Eb') & Hall').
    destruct (new_point a Ha) as (qa & Hqa & _ & _ & _ & _ & Xa), (new_point b Hb) as (qb & Hqb & _ & _ & _ & _ & Xb), (old_point a' Ha') as (pa & Hpa & _ & _ & _ & _ & Ya), (old_point b' Hb') as (pb & Hpb & _ & _ & _ & _ & Yb).
    specialize (Xa d Hd). specialize (Xb d Hd). specialize (Ya d Hd). specialize (Yb d Hd).
    pose proof (Hall pa Hpa) as K1. pose proof (Hall pb Hpb) as K2. pose proof (Hall' qa Hqa) as K3. pose proof (Hall' qb Hqb) as K4.
    split; apply Qle_antisym.
    - rewrite <- Ea, <- Xa. apply K3.
    - rewrite <- Ea', Ya. destruct K1 as (K1 & _). clear - K1 P. nra.
    - rewrite <- Eb', Yb. destruct K2 as (_ & K2). clear - K2 P. nra.
    - rewrite <- Eb, <- Xb. apply K4. }
  split; [split; [|split; [|split; reflexivity]]; cbn [bmax bmin]|].
  - split; [exact L2|]. split; [exact L2'|]. split; [exact ss_length|]. split; [exact ss_pos|]. intros d Hd. apply C, Hd.
  - split; [exact L1|]. split; [exact L1'|]. split; [exact ss_length|]. split; [exact ss_pos|]. intros d Hd. apply C, Hd.
  - intros d Hd. unfold side. cbn [bmax bmin]. destruct (T d Hd) as ((a & Ha & Ea) & (b & Hb & Eb) & Hall). unfold differ. split.
    + intro Z. apply not_true_iff_false. rewrite existsb_exists. intros (p & Hp & N). apply negb_true_iff, not_true_iff_false in N. apply N, Qeq_bool_iff.
      pose proof first_in as H0. destruct (Hall p Hp), (Hall _ H0). clear - Z H H1 H2 H3. apply Qle_antisym; lra.
    + intro N. assert (G : forall p, In p data -> (coord p d == coord (nth 0 data []) d)%Q).
      { intros p Hp. apply Qeq_bool_iff. destruct (Qeq_bool (coord p d) (coord (nth 0 data []) d)) eqn:W; [reflexivity|]. rewrite <- N. apply existsb_exists. exists p. split; [exact Hp|]. unfold point in *. now rewrite W. }
      rewrite <- Ea, <- Eb, (G a Ha), (G b Hb). ring.
Qed.
Lemma dims_rel : length (nth 0 data []) = D /\ length (nth 0 data' []) = D.
Proof.
  split; [apply dim, first_in|apply dim', nth_In]. rewrite data_length'. destruct (length data) eqn:E; [|lia]. apply length_zero_iff_nil in E. contradiction.
Qed.
Lemma create_rel : same_run rel_dir (create_directory data levels dthr athr) (create_directory data' levels dthr' athr).
Proof.
  unfold create_directory. destruct root_rel as (c & c' & -> & -> & H). cbn [bind]. destruct dims_rel as (E1 & E2). rewrite E1, E2.
  assert (Hrs : blocks [mkBlk (snd c) (fst c) 0 0] [mkBlk (snd c') (fst c') 0 0]) by (constructor; [exact H|constructor]).
  destruct (levels =? 1); [cbn [same_run]; apply store_level_rel; [exact Hrs|split; [exact Hrs|split; [constructor|reflexivity]]]|]. destruct (Nat.eqb_spec D 0) as [|ND]; [reflexivity|]. cbn [same_run].
  assert (W : rel_dir (build_levels data levels dthr athr D (seq 1 (levels - 1)) [mkBlk (snd c) (fst c) 0 0] (mkDir [] [] 0))
     (build_levels data' levels dthr' athr D (seq 1 (levels - 1)) [mkBlk (snd c') (fst c') 0 0] (mkDir [] [] 0))) by (apply build_levels_rel; [lia|exact Hrs|]; repeat split; constructor).
  destruct W as (W1 & W2 & W3). split; [|split; assumption]. cbn [leafs]. apply sort_both; [|exact W1]. intros x y x' y' Hx Hy. apply over_le; now apply density_rel.
Qed.

(** ** allocation *)
Section Allocation.
Variables lb lb' : list block.
Hypothesis Hlb : blocks lb lb'.
Notation n := (length lb).
Definition within (l : list nat) : Prop := forall k, In k l -> k < n.
Lemma nth_rel k : k < n -> rel (nth k lb b0) (nth k lb' b0).
Proof. apply nth_both, Hlb. Qed.
Lemma density_nth k : (density data' (nth k lb' b0) == density data (nth k lb b0) / F)%Q.
Proof.
  destruct (Nat.lt_ge_cases k n) as [H|H]; [apply density_rel, nth_rel, H|]. rewrite !nth_overflow by (rewrite ?(rel_length _ _ Hlb); exact H). reflexivity.
Qed.
Lemma update_rel dg c ks : update_dendrogram data' lb' dg c ks = update_dendrogram data lb dg c ks.
Proof.
  unfold update_dendrogram. destruct (_ <=? c); [reflexivity|]. f_equal. f_equal. f_equal.
  assert (W : Forall2 eq (sort_key (fun k => (- density data (nth k lb b0))%Q) ks) (sort_key (fun k => (- density data' (nth k lb' b0))%Q) ks)).
  { apply sort_both; [|clear; induction ks; constructor; auto]. intros x y ? ? <- <-. apply over_le; rewrite density_nth; unfold Qdiv; ring. }
  clear - W. induction W; congruence.
Qed.
Lemma find_center_rel mk ks : forall unh, find_center data' dthr' lb' mk ks unh = find_center data dthr lb mk ks unh.
Proof.
  induction ks as [|k t IH]; intro unh; cbn [find_center]; [reflexivity|]. rewrite (over_le (density data (nth k lb b0)) dthr); [|apply density_nth|exact Hthr]. destruct (Qle_bool _ _); [reflexivity|]. destruct (nth k mk None); [apply IH|reflexivity].
Qed.
Lemma block_center_rel s : find_block_center data' dthr' lb' s = find_block_center data dthr lb s.
Proof. unfold find_block_center. now rewrite find_center_rel, (rel_length _ _ Hlb). Qed.
Lemma center_within s o s1 : within (unhandled s) -> find_block_center data dthr lb s = Ok (o, s1) -> within (unhandled s1) /\ match o with Some k => k < n | None => True end.
Proof.
  unfold find_block_center. intros Hs E.
  assert (G : forall ks unh r, within unh -> within ks -> find_center data dthr lb (marks s) ks unh = Ok r -> within (snd r) /\ match fst r with Some k => k < n | None => True end).
  { clear. induction ks as [|k t IH]; intros unh r Hu Hk E; cbn [find_center] in E; [apply Ok_inj in E; subst; split; [exact Hu|exact I]|].
    destruct (Qle_bool _ _); [apply Ok_inj in E; subst; split; [exact Hu|exact I]|]. destruct (nth k (marks s) None).
    - apply (IH unh r Hu); [intros j Hj; apply Hk; right; exact Hj|exact E].
    - destruct (existsb (Nat.eqb k) unh); [|discriminate]. apply Ok_inj in E. subst. cbn [fst snd]. split; [|apply Hk; left; reflexivity]. intros j Hj. apply in_remove in Hj as (Hj & _). apply Hu, Hj. }
  destruct (find_center data dthr lb (marks s) (rev (seq 0 n)) (unhandled s)) as [r|e] eqn:Ef; cbn [bind] in E; [|discriminate]. apply Ok_inj in E. injection E as <- <-. cbn [unhandled].
  apply (G _ _ _ Hs) in Ef; [exact Ef|]. intros k Hk. apply in_rev, in_seq in Hk. lia.
Qed.
Lemma take_rel k ks : k < n -> within ks -> forall found, take_neighbors lb' k ks found = take_neighbors lb k ks found.
Proof.
  intro Hk. induction ks as [|j t IH]; intros Hw found; cbn [take_neighbors]; [reflexivity|]. rewrite (is_neighbor_rel _ _ _ _ (nth_rel k Hk) (nth_rel j (Hw j (or_introl eq_refl)))).
  assert (Hw' : within t) by (intros x Hx; apply Hw; right; exact Hx). destruct (is_neighbor _ _); [|now apply IH]. destruct (_ =? 8); [reflexivity|now apply IH].
Qed.
Lemma take_in k ks : forall found j, In j (take_neighbors lb k ks found) -> In j ks \/ In j found.
Proof.
  induction ks as [|x t IH]; intros found j H; cbn [take_neighbors] in H; [right; exact H|]. destruct (is_neighbor _ _).
  - destruct (_ =? 8); [apply in_app_or in H as [H|[<-|[]]]; [right; exact H|left; left; reflexivity]|]. apply IH in H as [H|H]; [left; right; exact H|]. apply in_app_or in H as [H|[<-|[]]]; [right; exact H|left; left; reflexivity].
  - apply IH in H as [H|H]; [left; right; exact H|right; exact H].
Qed.
Lemma block_neighbors_rel k unh : k < n -> within unh -> find_block_neighbors order lb' k unh = find_block_neighbors order lb k unh /\
  within (fst (find_block_neighbors order lb k unh)) /\ within (snd (find_block_neighbors order lb k unh)).
Proof.
  intros Hk Hu. assert (Ho : within (order unh)) by (intros j Hj; apply Hu; apply (Permutation_in _ (order_perm unh)); exact Hj).
  unfold find_block_neighbors. rewrite take_rel by assumption. split; [reflexivity|]. cbn [fst snd]. split.
  - intros j Hj. apply take_in in Hj as [Hj|[]]. apply Ho, Hj.
  - generalize (take_neighbors lb k (order unh) []). clear - Hu. intro l. revert unh Hu. induction l as [|x t IH]; intros unh Hu; cbn [fold_left]; [exact Hu|]. apply IH. intros j Hj. apply in_remove in Hj as (Hj & _). apply Hu, Hj.
Qed.
Lemma expand_rel fuel : forall c queue s, within queue -> within (unhandled s) -> expand order data' lb' fuel c queue s = expand order data lb fuel c queue s /\
  match expand order data lb fuel c queue s with Ok s1 => within (unhandled s1) | Raise _ => True end.
Proof.
  induction fuel as [|f IH]; intros c [|j q] s Hq Hs; cbn [expand]; try (split; [reflexivity|]; try exact Hs; exact I).
  destruct (block_neighbors_rel j (unhandled s) (Hq j (or_introl eq_refl)) Hs) as (E & N1 & N2). rewrite E. destruct (find_block_neighbors order lb j (unhandled s)) as (nb, unh). cbn [fst snd] in N1, N2. rewrite update_rel.
  destruct (update_dendrogram data lb (dendrogram s) c nb); cbn [bind]; [|split; [reflexivity|exact I]]. apply IH; [|exact N2]. intros k Hk. apply in_app_or in Hk as [Hk|Hk]; [apply Hq; right; exact Hk|apply N1, Hk].
Qed.
Lemma expand_cluster_rel k c s : k < n -> within (unhandled s) -> expand_cluster_block order data' lb' k c s = expand_cluster_block order data lb k c s /\
  match expand_cluster_block order data lb k c s with Ok s1 => within (unhandled s1) | Raise _ => True end.
Proof.
  intros Hk Hs. unfold expand_cluster_block. destruct (block_neighbors_rel k (unhandled s) Hk Hs) as (E & N1 & N2). rewrite E, update_rel.
  destruct (update_dendrogram data lb (dendrogram s) c [k]) as [dg|e]; cbn [bind]; [|split; [reflexivity|exact I]].
  destruct (find_block_neighbors order lb k (unhandled s)) as (nb, unh). cbn [fst snd] in N1, N2. rewrite update_rel, (rel_length _ _ Hlb). destruct (update_dendrogram data lb dg c nb); cbn [bind]; [apply expand_rel; assumption|split; [reflexivity|exact I]].
Qed.
Lemma allocate_rel fuel : forall o c s, within (unhandled s) -> match o with Some k => k < n | None => True end ->
  allocate order data' dthr' athr lb' fuel o c s = allocate order data dthr athr lb fuel o c s.
Proof.
  induction fuel as [|f IH]; intros [k|] c s Hs Ho; cbn [allocate]; try reflexivity; rewrite (is_sparse_rel _ _ (nth_rel k Ho)); destruct (is_sparse _ _ _ _); try reflexivity.
  destruct (expand_cluster_rel k c s Ho Hs) as (E & W). rewrite E. destruct (expand_cluster_block order data lb k c s) as [s1|e]; cbn [bind]; [|reflexivity]. rewrite block_center_rel.
  destruct (find_block_center data dthr lb s1) as [(o, s2)|e] eqn:Ec; cbn [bind]; [|reflexivity]. cbn [fst snd]. destruct (center_within s1 o s2 W Ec). apply IH; assumption.
Qed.
Lemma store_rel c mk ns : store_results order data' lb' c mk ns = store_results order data lb c mk ns.
Proof.
  unfold store_results. rewrite (rel_length _ _ Hlb). assert (G : forall ks acc, within ks ->
    fold_left (fun (acc : list (list nat) * list nat) k => match nth k mk None with Some i => (upd (fst acc) i (nth i (fst acc) [] ++ points data' (nth k lb' b0)), snd acc) | None => (fst acc, snd acc ++ points data' (nth k lb' b0)) end) ks acc =
    fold_left (fun (acc : list (list nat) * list nat) k => match nth k mk None with Some i => (upd (fst acc) i (nth i (fst acc) [] ++ points data (nth k lb b0)), snd acc) | None => (fst acc, snd acc ++ points data (nth k lb b0)) end) ks acc).
  { induction ks as [|k t IH]; intros acc Hw; cbn [fold_left]; [reflexivity|]. rewrite (points_rel _ _ (nth_rel k (Hw k (or_introl eq_refl)))). apply IH. intros j Hj. apply Hw. right. exact Hj. }
  rewrite G; [reflexivity|]. intros k Hk. apply in_seq in Hk. lia.
Qed.
End Allocation.

Lemma blocks_moved l l' : blocks l l' -> Forall2 (moved_block ss v) l l'.
Proof. clear. induction 1 as [|b b' l l' H Hl IH]; constructor; auto. apply H. Qed.
Lemma process_rel : same_run (moved_bang ss v) (process order data levels dthr athr initial) (process order data' levels dthr' athr initial).
Proof.
  unfold process. assert (L : forall l : list point, l <> [] -> (length l =? 0) = false) by (intros [|? ?] H; [congruence|reflexivity]). rewrite (L data Hne), (L data' ne_new). destruct (levels <? 1); [reflexivity|].
  assert (E : Qltb dthr' 0 = Qltb dthr 0). { unfold Qltb. f_equal. apply over_le; [unfold Qdiv; ring|exact Hthr]. } rewrite E. destruct (Qltb dthr 0); [reflexivity|].
  pose proof create_rel as W. destruct (create_directory data levels dthr athr) as [d|e], (create_directory data' levels dthr' athr) as [d'|e']; cbn [same_run bind] in W |- *; try exact W; try (destruct W; fail).
  destruct W as (Hlb & Hlev & Hsz). rewrite (rel_length _ _ Hlb), (block_center_rel _ _ Hlb).
  rewrite (filter_ext (fun k => Qltb dthr' (density data' (nth k (leafs d') b0))) (fun k => Qltb dthr (density data (nth k (leafs d) b0)))).
  2:{ intro k. unfold Qltb. f_equal. apply over_le; [apply density_nth, Hlb|exact Hthr]. }
  set (s0 := mkA _ _ _). assert (H0 : within (leafs d) (unhandled s0)). { intros k Hk. cbn in Hk. apply filter_In in Hk as (Hk & _). apply in_seq in Hk. lia. }
  destruct (find_block_center data dthr (leafs d) s0) as [(o, s1)|e] eqn:Ec; cbn [bind]; [|reflexivity]. cbn [fst snd]. destruct (center_within (leafs d) s0 o s1 H0 Ec) as (H1 & H2). rewrite (allocate_rel _ _ Hlb _ _ _ _ H1 H2).
  destruct (allocate order data dthr athr (leafs d) _ _ _ _) as [(c, s)|e]; cbn [bind]; [|reflexivity]. rewrite (store_rel _ _ Hlb). destruct (store_results order data (leafs d) c (marks s) _) as (cl, ns).
  cbn [same_run]. split; [reflexivity|]. split; [reflexivity|]. split; [reflexivity|]. split; [reflexivity|]. cbn [dir]. split; [apply blocks_moved, Hlb|]. split; [|exact Hsz].
  clear - Hlev. induction Hlev; constructor; auto. now apply blocks_moved.
Qed.
End Unit.

Theorem C269_units (order : list nat -> list nat) ss v data data' D levels dthr dthr' athr : (forall l, Permutation (order l) l) -> valid data D levels dthr -> Forall2 (rescaled ss v) data data' ->
  (dthr' == dthr / unit_volume ss data)%Q ->
  exists b b', process order data levels dthr athr initial = Ok b /\ process order data' levels dthr' athr initial = Ok b' /\ moved_bang ss v b b'.
Proof.
  intros Ho (V1 & V2 & V3 & V4 & V5) Hr Ht. destruct (bang_spec order Ho data D levels dthr athr V1 V2 V3 V4 V5) as (b & d & E & _).
  pose proof (process_rel order Ho ss v data data' levels athr dthr dthr' Hr V3 Ht) as W. rewrite E in W. exists b. destruct (process order data' _ _ _ _) as [b'|e]; [|destruct W]. exists b'. auto.
Qed.
Print Assumptions C269_units.

(** the default density threshold 0 needs no conversion; neither does any threshold when only the origin is moved *)
Theorem C269_default (order : list nat -> list nat) ss v data data' D levels athr : (forall l, Permutation (order l) l) -> valid data D levels 0 -> Forall2 (rescaled ss v) data data' ->
  exists b b', process order data levels 0 athr initial = Ok b /\ process order data' levels 0 athr initial = Ok b' /\ Bang_Model.clusters b' = Bang_Model.clusters b /\ Bang_Model.noise b' = Bang_Model.noise b /\ dendro b' = dendro b.
Proof.
  intros Ho V Hr. destruct (C269_units order ss v data data' D levels 0 0 athr Ho V Hr) as (b & b' & E & E' & H1 & H2 & H3 & _); [unfold Qdiv; ring|]. exists b, b'. auto.
Qed.
Print Assumptions C269_default.

Theorem C269_origin (order : list nat -> list nat) v data data' D levels dthr athr : (forall l, Permutation (order l) l) -> valid data D levels dthr -> Forall2 (rescaled (repeat 1%Q (length v)) v) data data' ->
  exists b b', process order data levels dthr athr initial = Ok b /\ process order data' levels dthr athr initial = Ok b' /\ Bang_Model.clusters b' = Bang_Model.clusters b /\ Bang_Model.noise b' = Bang_Model.noise b /\ dendro b' = dendro b.
Proof.
  intros Ho V Hr. assert (E1 : (unit_volume (repeat 1%Q (length v)) data == 1)%Q).
  { unfold unit_volume. assert (G : forall l, (forall d, In d l -> d < length v) -> (fold_right (fun d f => if differ data d then (coord (repeat 1%Q (length v)) d * f)%Q else f) 1%Q l == 1)%Q).
    { induction l as [|d l IH]; intro Hl; cbn [fold_right]; [reflexivity|]. assert (W : forall e, In e l -> e < length v) by (intros; apply Hl; right; assumption). specialize (IH W). destruct (differ data d); [|exact IH]. rewrite IH. unfold coord.
      rewrite (nth_indep _ 0%Q 1%Q) by (rewrite repeat_length; apply Hl; left; reflexivity). rewrite nth_repeat. reflexivity. }
    apply G. intros d Hd. apply in_seq in Hd. rewrite repeat_length in Hd. lia. }
  destruct (C269_units order _ v data data' D levels dthr dthr athr Ho V Hr) as (b & b' & E & E' & H1 & H2 & H3 & _); [rewrite E1; field|]. exists b, b'. auto.
Qed.
Print Assumptions C269_origin.

(** a threshold that is not converted is another threshold: the same points in metres and in centimetres *)
Theorem C269_threshold_refuted : exists data data' ss v levels dthr b b', valid data 1 levels dthr /\ Forall2 (rescaled ss v) data data' /\
  process (fun l => l) data levels dthr 0 initial = Ok b /\ process (fun l => l) data' levels dthr 0 initial = Ok b' /\ Bang_Model.clusters b <> Bang_Model.clusters b'.
Proof.
  exists [[0]; [1]; [2]; [8]]%Q, [[0]; [100]; [200]; [800]]%Q, [100%Q], [0%Q], 3, (1 # 4)%Q. do 2 eexists.
  split; [repeat split; try lia; try discriminate; intros p Hp; repeat (destruct Hp as [<- | Hp]; [reflexivity|]); destruct Hp|].
  split; [repeat constructor; intros [|d] H; cbn in H; try lia; reflexivity|].
  split; [vm_compute; reflexivity|]. split; [vm_compute; reflexivity|]. vm_compute. discriminate.
Qed.
Print Assumptions C269_threshold_refuted.

(** the first coordinate in halves from another origin, the second in units of three; the threshold follows the unit of volume 2/3 *)
Example C269_example : let data := [[0; 0]; [1; 0]; [1; 1]; [8; 8]; [7; 8]; [8; 7]; [0; 8]]%Q in let data' := [[5; 0]; [7; 0]; [7; 1 # 3]; [21; 8 # 3]; [19; 8 # 3]; [21; 7 # 3]; [5; 8 # 3]]%Q in
  valid data 2 5 (1 # 20) /\ Forall2 (rescaled [2; 1 # 3]%Q [5; 0]%Q) data data' /\ (unit_volume [2; 1 # 3]%Q data == 2 # 3)%Q /\
  exists b b', process (fun l => l) data 5 (1 # 20) 1 initial = Ok b /\ process (fun l => l) data' 5 (3 # 40) 1 initial = Ok b' /\ Bang_Model.clusters b = [[3; 4; 5]; [0; 1; 2]] /\ Bang_Model.clusters b' = Bang_Model.clusters b /\ Bang_Model.noise b = [6].
Proof.
  cbn zeta. split; [repeat split; try lia; try discriminate; intros p Hp; repeat (destruct Hp as [<- | Hp]; [reflexivity|]); destruct Hp|].
  split; [repeat constructor; intros [|[|d]] H; cbn in H; try lia; reflexivity|]. split; [vm_compute; reflexivity|]. do 2 eexists. split; [vm_compute; reflexivity|]. split; [vm_compute; reflexivity|]. split; [vm_compute; reflexivity|]. split; vm_compute; reflexivity.
Qed.
