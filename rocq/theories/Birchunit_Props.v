(** C285: BIRCH does not depend on the origin of the coordinates, but on their unit. *)
From Verif Require Import Base Search_Model Kmeans_Model Kmeans_Proofs Encoder_Model Aggl_Model Aggl_Proofs Scaled_Proofs Unit_Props Unitmore_Props Samedist_Props Cure_Model Cftree_Model Birch_Model.
From Verif Require Birch_Proofs.
From Coq Require Import Lqa.
Local Open Scope nat_scope.

(** ** specification *)
(** the feature of the same points measured from the origin [-v]: as many points, their sum, and the
    sum of their squares *)
Definition feature_moved (v : point) (e e' : entry) : Prop :=
  num e' = num e /\ length (lsum e) = length v /\ length (lsum e') = length v /\
  (forall d, d < length v -> (coord (lsum e') d == coord (lsum e) d + inject_Z (Z.of_nat (num e)) * coord v d)%Q) /\
  (ssum e' == ssum e + 2 * dot v (lsum e) + inject_Z (Z.of_nat (num e)) * dot v v)%Q.

Definition birch_same (v : point) (a b : bst) : Prop :=
  clusters b = clusters a /\ cf_clusters b = cf_clusters a /\ Forall2 (feature_moved v) (features a) (features b).

Section Tree.
Variable P : tree -> Prop.
Hypothesis HL : forall id f es, P (Leaf id f es).
Hypothesis HN : forall f kids, Forall P kids -> P (Node f kids).
Fixpoint tree_all (t : tree) : P t :=
  match t with
  | Leaf id f es => HL id f es
  | Node f kids => HN f kids ((fix go (l : list tree) : Forall P l := match l with [] => Forall_nil P | x :: l' => Forall_cons x (tree_all x) (go l') end) kids)
  end.
End Tree.

Section Run.
Variable v : point.
Notation mv := (moved 1 v).

(** ** features *)
Lemma dot_moved (u a a' b b' : point) (n k : Q) : length a = length u -> length a' = length u -> length b = length u -> length b' = length u ->
  (forall d, d < length u -> (coord a' d == coord a d + n * coord u d)%Q) -> (forall d, d < length u -> (coord b' d == coord b d + k * coord u d)%Q) ->
  (dot a' b' == dot a b + k * dot u a + n * dot u b + n * k * dot u u)%Q.
Proof.
  revert a a' b b'. induction u as [|x u IH]; intros [|p a] [|p' a'] [|q b] [|q' b'] H1 H2 H3 H4 A B; cbn [length] in *; try discriminate; [cbn; ring|]. cbn [dot].
  rewrite (IH a a' b b'); try lia; [|intros d Hd; apply (A (S d)); lia|intros d Hd; apply (B (S d)); lia].
  pose proof (A 0 ltac:(lia)) as A0. pose proof (B 0 ltac:(lia)) as B0. unfold coord in A0, B0. cbn [nth] in A0, B0. rewrite A0, B0. ring.
Qed.
Definition es (e e' : entry) : Prop := tag e' = tag e /\ 1 <= num e /\ feature_moved v e e'.
Lemma numq_pos e : 1 <= num e -> (0 < numq e)%Q.
Proof. intro H. unfold numq. change 0%Q with (inject_Z 0). rewrite <- Zlt_Qlt. lia. Qed.
Lemma numq_eq e e' : es e e' -> numq e' = numq e.
Proof. intros (_ & _ & H & _). unfold numq. now rewrite H. Qed.
Lemma es_dot a a' b b' : es a a' -> es b b' -> (dot (lsum a') (lsum b') == dot (lsum a) (lsum b) + numq b * dot v (lsum a) + numq a * dot v (lsum b) + numq a * numq b * dot v v)%Q.
Proof. intros (_ & _ & _ & A1 & A2 & A3 & _) (_ & _ & _ & B1 & B2 & B3 & _). apply dot_moved; assumption. Qed.
Lemma es_ssum a a' : es a a' -> (ssum a' == ssum a + 2 * dot v (lsum a) + numq a * dot v v)%Q.
Proof. intros (_ & _ & _ & _ & _ & _ & H). exact H. Qed.
Lemma es_len a a' : es a a' -> length (lsum a) = length v.
Proof. intros (_ & _ & _ & H & _). exact H. Qed.
Lemma padd_len (a b : point) : length a = length b -> length (padd a b) = length a.
Proof. revert b. induction a as [|x a IH]; intros [|y b] H; cbn in *; try lia. f_equal. apply IH. lia. Qed.
Lemma padd_at (a b : point) d : length a = length b -> (coord (padd a b) d == coord a d + coord b d)%Q.
Proof. unfold coord. revert b d. induction a as [|x a IH]; intros [|y b] [|d] H; cbn in *; try lia; try ring. apply IH. lia. Qed.
Lemma numq_fadd a b : (numq (fadd a b) == numq a + numq b)%Q.
Proof. unfold numq, fadd. cbn [num]. rewrite Nat2Z.inj_add, inject_Z_plus. reflexivity. Qed.
Lemma es_fadd a a' b b' : es a a' -> es b b' -> es (fadd a b) (fadd a' b').
Proof.
  intros A B. pose proof (es_ssum _ _ A) as SA. pose proof (es_ssum _ _ B) as SB. pose proof (numq_fadd a b) as N. destruct A as (A0 & A1 & A2 & A3 & A4 & A5 & _), B as (B0 & B1 & B2 & B3 & B4 & B5 & _).
  split; [reflexivity|]. split; [cbn [num fadd]; lia|]. unfold feature_moved. fold (numq (fadd a b)). split; [cbn [num fadd]; lia|]. cbn [lsum ssum fadd].
  split; [rewrite padd_len; congruence|]. split; [rewrite padd_len; congruence|]. split.
  - intros d Hd. rewrite !padd_at by congruence. rewrite (A5 d Hd), (B5 d Hd), N. unfold numq. ring.
  - rewrite SA, SB, Birch_Proofs.dot_padd, N by congruence. ring.
Qed.
Lemma es_copy a a' : es a a' -> es (copy a) (copy a').
Proof. intros (_ & H). split; [reflexivity|exact H]. Qed.
Lemma es_centroid a a' : es a a' -> mv (centroid a) (centroid a').
Proof.
  intro H. pose proof (numq_eq _ _ H) as N. destruct H as (_ & A1 & A2 & A3 & A4 & A5 & _). pose proof (numq_pos a A1) as Hp. unfold centroid. rewrite N. split; [now rewrite map_length|]. split; [now rewrite map_length|].
  intros d Hd. assert (C : forall l, length l = length v -> coord (map (fun x => (x / numq a)%Q) l) d = (coord l d / numq a)%Q).
  { intros l Hl. unfold coord. rewrite (nth_indep _ 0%Q ((fun x => (x / numq a)%Q) 0%Q)) by (rewrite map_length; lia). apply (map_nth (fun x => (x / numq a)%Q)). }
  rewrite !C by assumption. rewrite (A5 d Hd). fold (numq a). field. lra.
Qed.
Lemma dist_same m a a' b b' : es a a' -> es b b' -> (dist m a' b' == dist m a b)%Q.
Proof.
  intros A B. pose proof (numq_eq _ _ A) as NA. pose proof (numq_eq _ _ B) as NB. pose proof (numq_pos a (proj1 (proj2 A))) as PA. pose proof (numq_pos b (proj1 (proj2 B))) as PB.
  assert (LE : length (lsum a) = length (lsum b)) by (rewrite (es_len _ _ A), (es_len _ _ B); reflexivity). destruct m; cbn [dist].
  - rewrite (moved_sqdist 1 v _ _ _ _ (es_centroid _ _ B) (es_centroid _ _ A)). ring.
  - exact (Qeq_trans _ _ _ (moved_manhattan 1 v ltac:(lra) _ _ _ _ (es_centroid _ _ B) (es_centroid _ _ A)) (Qmult_1_l _)).
  - unfold inter_sq. rewrite NA, NB, (es_dot _ _ _ _ A B), (es_ssum _ _ A), (es_ssum _ _ B). field. split; lra.
  - unfold intra_sq. rewrite NA, NB. pose proof (es_dot _ _ _ _ (es_fadd _ _ _ _ A B) (es_fadd _ _ _ _ A B)) as D. cbn [lsum fadd] in D. rewrite !numq_fadd in D. rewrite (Birch_Proofs.dot_padd v (lsum a) (lsum b) LE) in D.
    assert (E : (2 * (numq a + numq b) * (ssum a' + ssum b') - 2 * dot (padd (lsum a') (lsum b')) (padd (lsum a') (lsum b')) == 2 * (numq a + numq b) * (ssum a + ssum b) - 2 * dot (padd (lsum a) (lsum b)) (padd (lsum a) (lsum b)))%Q).
    { rewrite D, (es_ssum _ _ A), (es_ssum _ _ B). ring. }
    cbv zeta. rewrite E. reflexivity.
  - unfold variance_increase. rewrite NA, NB. cbv zeta. pose proof (es_dot _ _ _ _ (es_fadd _ _ _ _ A B) (es_fadd _ _ _ _ A B)) as D. cbn [lsum fadd] in D. rewrite !numq_fadd in D. rewrite (Birch_Proofs.dot_padd v (lsum a) (lsum b) LE) in D.
    rewrite D, (es_dot _ _ _ _ A A), (es_dot _ _ _ _ B B), (es_ssum _ _ A), (es_ssum _ _ B). field. repeat split; lra.
Qed.
Lemma part_same a a' : es a a' -> (diameter_part a' == diameter_part a)%Q.
Proof. intro A. unfold diameter_part. rewrite (numq_eq _ _ A), (es_dot _ _ _ _ A A), (es_ssum _ _ A). ring. Qed.
Lemma ltb_eq x y x' y' : (x' == x)%Q -> (y' == y)%Q -> Qltb x' y' = Qltb x y.
Proof. intros A B. apply (scale_ltb 1 ltac:(lra)); unfold times; lra. Qed.
Lemma wider_same a a' t : es a a' -> wider a' t = wider a t.
Proof.
  intro A. unfold wider. assert (E : (diameter_sq a' == diameter_sq a)%Q).
  { unfold diameter_sq. rewrite (ltb_eq _ _ _ _ (part_same _ _ A) (Qeq_refl (1 # 1000000000))). destruct (Qltb _ _); [reflexivity|]. rewrite (part_same _ _ A), (numq_eq _ _ A). reflexivity. }
  unfold lt_root. f_equal. apply ltb_eq; [reflexivity|exact E].
Qed.
Lemma min_same {A} (f f' : A -> Q) l : (forall x, In x l -> (f' x == f x)%Q) -> min_by f' l = min_by f l.
Proof. intro H. apply (times_min_by 1 ltac:(lra)). intros x Hx. unfold times. rewrite (H x Hx). ring. Qed.

(** ** the tree *)
Inductive tsm : tree -> tree -> Prop :=
| leaf_sm id f f' l l' : es f f' -> Forall2 es l l' -> tsm (Leaf id f l) (Leaf id f' l')
| node_sm f f' k k' : es f f' -> Forall2 tsm k k' -> tsm (Node f k) (Node f' k').
Lemma tsm_feat t t' : tsm t t' -> es (feat t) (feat t').
Proof. destruct 1; assumption. Qed.
Lemma nth_both {A} (R : A -> A -> Prop) l l' d i : Forall2 R l l' -> i < length l -> R (nth i l d) (nth i l' d).
Proof. intro H. revert i. induction H; intros [|i] Hi; cbn [nth length] in *; auto; try lia. apply IHForall2. lia. Qed.

Variable m : measure.
Section Kind.
Context {A : Type}.
Variables (R : A -> A -> Prop) (key : A -> entry) (d : A).
Hypothesis HR : forall x x', R x x' -> es (key x) (key x').
Lemma both_far l l' : Forall2 R l l' -> farthest m key d l' = farthest m key d l.
Proof.
  intro H. unfold farthest. rewrite (both_length _ _ _ H).
  assert (G : forall ps, (forall i j, In (i, j) ps -> i < length l /\ j < length l) -> forall b b' : option (nat * nat) * Q, fst b' = fst b -> (snd b' == snd b)%Q ->
    fst (fold_left (fun best ij => let v := dist m (key (nth (fst ij) l' d)) (key (nth (snd ij) l' d)) in if Qltb (snd best) v then (Some ij, v) else best) ps b') =
    fst (fold_left (fun best ij => let v := dist m (key (nth (fst ij) l d)) (key (nth (snd ij) l d)) in if Qltb (snd best) v then (Some ij, v) else best) ps b)).
  { induction ps as [|[i j] ps IH]; intros B b b' B1 B2; cbn [fold_left]; [exact B1|]. destruct (B i j (or_introl eq_refl)) as (Bi & Bj). cbn [fst snd]. cbv zeta.
    assert (E : (dist m (key (nth i l' d)) (key (nth j l' d)) == dist m (key (nth i l d)) (key (nth j l d)))%Q) by (apply dist_same; apply HR; apply nth_both; assumption).
    rewrite (ltb_eq _ _ _ _ B2 E). apply IH; [intros; apply B; right; assumption| |]; destruct (Qltb (snd b) _); auto. }
  apply G; [|reflexivity|reflexivity]. intros i j Hij. apply pairs_in in Hij. lia.
Qed.
Definition psm (p p' : entry * list A) : Prop := es (fst p) (fst p') /\ Forall2 R (snd p) (snd p').
Lemma both_distribute skip skip' : (forall k x x', R x x' -> skip' k x' = skip k x) -> forall l l', Forall2 R l l' -> forall k n1 n1' n2 n2', psm n1 n1' -> psm n2 n2' ->
  psm (fst (distribute m key skip k l n1 n2)) (fst (distribute m key skip' k l' n1' n2')) /\ psm (snd (distribute m key skip k l n1 n2)) (snd (distribute m key skip' k l' n1' n2')).
Proof.
  intro HS. induction 1 as [|x x' l l' Hx Hl IH]; intros k n1 n1' n2 n2' H1 H2; cbn [distribute]; [split; assumption|]. rewrite (HS k x x' Hx). destruct (skip k x); [apply IH; assumption|].
  rewrite (ltb_eq _ _ _ _ (dist_same m _ _ _ _ (proj1 H1) (HR _ _ Hx)) (dist_same m _ _ _ _ (proj1 H2) (HR _ _ Hx))).
  destruct (Qltb _ _); apply IH; auto; (split; cbn [fst snd]; [apply es_fadd; [first [apply H1|apply H2]|apply HR; exact Hx]|apply Forall2_app; [first [apply H1|apply H2]|constructor; [exact Hx|constructor]]]).
Qed.
End Kind.
Lemma far_range {A} (key : A -> entry) d l i j : farthest m key d l = Some (i, j) -> i < length l /\ j < length l.
Proof.
  unfold farthest. assert (G : forall ps, (forall i j, In (i, j) ps -> i < length l /\ j < length l) -> forall b : option (nat * nat) * Q, (forall i j, fst b = Some (i, j) -> i < length l /\ j < length l) ->
    forall i j, fst (fold_left (fun best ij => let v := dist m (key (nth (fst ij) l d)) (key (nth (snd ij) l d)) in if Qltb (snd best) v then (Some ij, v) else best) ps b) = Some (i, j) -> i < length l /\ j < length l).
  { induction ps as [|[a c] ps IH]; intros B b Hb; cbn [fold_left]; [exact Hb|]. apply IH; [intros; apply B; right; assumption|]. cbv zeta. destruct (Qltb _ _); [|exact Hb]. cbn [fst]. intros x y [= <- <-]. apply B. left. reflexivity. }
  apply G; [|discriminate]. intros a c H. apply pairs_in in H. lia.
Qed.
Lemma same_obj_both a a' b b' : es a a' -> es b b' -> same_object a' b' = same_object a b.
Proof. intros (A & _) (B & _). unfold same_object. now rewrite A, B. Qed.
Lemma both_split_leaf l l' : Forall2 es l l' -> same_run (fun p p' => psm es (fst p) (fst p') /\ psm es (snd p) (snd p')) (split_leaf m l) (split_leaf m l').
Proof.
  intro H. unfold split_leaf. rewrite (both_far es (fun e => e) e0 (fun _ _ X => X) l l' H). destruct (farthest m (fun e => e) e0 l) as [[i j]|] eqn:E; [|reflexivity]. apply far_range in E as (Ei & Ej).
  pose proof (nth_both es l l' e0 i H Ei) as X. pose proof (nth_both es l l' e0 j H Ej) as Y. cbn [same_run].
  apply (both_distribute es (fun e => e) (fun _ _ Z => Z)); [|exact H| |].
  - intros k x x' Hx. now rewrite (same_obj_both _ _ _ _ Hx X), (same_obj_both _ _ _ _ Hx Y).
  - split; cbn [fst snd]; [apply es_copy; exact X|constructor; [exact X|constructor]].
  - split; cbn [fst snd]; [apply es_copy; exact Y|constructor; [exact Y|constructor]].
Qed.
Lemma both_split_node l l' : Forall2 tsm l l' -> same_run (fun p p' => tsm (fst p) (fst p') /\ tsm (snd p) (snd p')) (split_nonleaf m l) (split_nonleaf m l').
Proof.
  intro H. unfold split_nonleaf. rewrite (both_far tsm feat t0 tsm_feat l l' H). destruct (farthest m feat t0 l) as [[i j]|] eqn:E; [|reflexivity]. apply far_range in E as (Ei & Ej).
  pose proof (nth_both tsm l l' t0 i H Ei) as X. pose proof (nth_both tsm l l' t0 j H Ej) as Y.
  assert (X0 : psm tsm (copy (feat (nth i l t0)), [nth i l t0]) (copy (feat (nth i l' t0)), [nth i l' t0])) by (split; cbn [fst snd]; [apply es_copy, tsm_feat; exact X|constructor; [exact X|constructor]]).
  assert (Y0 : psm tsm (copy (feat (nth j l t0)), [nth j l t0]) (copy (feat (nth j l' t0)), [nth j l' t0])) by (split; cbn [fst snd]; [apply es_copy, tsm_feat; exact Y|constructor; [exact Y|constructor]]).
  pose proof (both_distribute tsm feat tsm_feat (fun k _ => (k =? i) || (k =? j)) (fun k _ => (k =? i) || (k =? j)) (fun _ _ _ _ => eq_refl) l l' H 0 _ _ _ _ X0 Y0) as D.
  destruct (distribute m feat _ 0 l _ _) as [[f1 l1] [f2 l2]], (distribute m feat _ 0 l' _ _) as [[f1' l1'] [f2' l2']]. destruct D as ((D1 & D2) & D3 & D4). cbn [same_run fst snd] in *. split; constructor; assumption.
Qed.
Variables (branch max_entries : nat) (threshold : Q).
Definition rsm (r r' : reply) : Prop := Forall2 tsm (news r) (news r') /\ es (whole r) (whole r') /\ stat r' = stat r.
Lemma both_insert_leaf e e' id f f' l l' s : es e e' -> es f f' -> Forall2 es l l' -> same_run rsm (insert_leaf m max_entries threshold e id f l s) (insert_leaf m max_entries threshold e' id f' l' s).
Proof.
  intros He Hf H. unfold insert_leaf. rewrite (both_length _ _ _ H). rewrite (min_same (fun i => dist m (nth i l e0) e) (fun i => dist m (nth i l' e0) e')) by (intros i Hi; apply in_seq in Hi; apply dist_same; [apply nth_both; [exact H|lia]|exact He]).
  destruct (min_by _ _) as [i|] eqn:E; [|reflexivity]. apply min_by_spec in E as (E & _). apply in_seq in E. assert (X : es (fadd (nth i l e0) e) (fadd (nth i l' e0) e')) by (apply es_fadd; [apply nth_both; [exact H|lia]|exact He]).
  pose proof (es_fadd _ _ _ _ Hf He) as F. rewrite (wider_same _ _ threshold X). assert (L : Forall2 es (l ++ [e]) (l' ++ [e'])) by (apply Forall2_app; [exact H|constructor; [exact He|constructor]]). rewrite (both_length _ _ _ L).
  destruct (wider _ _).
  - destruct (max_entries <? length (l ++ [e])).
    + pose proof (both_split_leaf _ _ L) as S. destruct (split_leaf m (l ++ [e])) as [[[f1 l1] [f2 l2]]|x], (split_leaf m (l' ++ [e'])) as [[[f1' l1'] [f2' l2']]|x']; cbn [same_run bind] in S |- *; try exact S; try (destruct S; fail).
      destruct S as ((S1 & S2) & S3 & S4). cbn [fst snd] in *. repeat split; cbn [news whole stat]; try apply F. repeat constructor; assumption || apply S1 || apply S3.
    + cbn [same_run]. split; [|split; [exact F|reflexivity]]. cbn [news]. constructor; [constructor; assumption|constructor].
  - cbn [same_run]. split; [|split; [exact F|reflexivity]]. cbn [news]. constructor; [|constructor]. constructor; [exact F|]. apply upd_both; assumption.
Qed.
Definition msm (a b : list tree * cfs) : Prop := Forall2 tsm (fst a) (fst b) /\ snd b = snd a.
Lemma both_merge_nearest l l' s : Forall2 tsm l l' -> same_run msm (merge_nearest branch l s) (merge_nearest branch l' s).
Proof.
  intro H. unfold merge_nearest. destruct H as [|x x' l l' Hx Hl]; [reflexivity|]. destruct Hx as [id f f' k k' Hf Hk|f f' k k' Hf Hk].
  - split; [|reflexivity]. constructor; [constructor; assumption|assumption].
  - destruct Hl as [|y y' l l' Hy Hl]; [reflexivity|]. destruct Hy as [id g g' q q' Hg Hq|g g' q q' Hg Hq]; [reflexivity|]. rewrite (both_length _ _ _ Hk), (both_length _ _ _ Hq). destruct (_ <=? _).
    + split; [|reflexivity]. cbn [fst]. constructor; [|exact Hl]. constructor; [apply es_fadd; assumption|apply Forall2_app; assumption].
    + split; [|reflexivity]. cbn [fst]. constructor; [constructor; assumption|]. constructor; [constructor; assumption|exact Hl].
Qed.
Lemma both_insert_rec e e' : es e e' -> forall t t' s, tsm t t' -> same_run rsm (insert_rec m branch max_entries threshold e t s) (insert_rec m branch max_entries threshold e' t' s).
Proof.
  intro He. induction t as [id f l|f kids IH] using tree_all; intros t' s H; inversion H as [? ? f' ? l' Hf Hl|? f' ? kids' Hf Hk]; subst; cbn [insert_rec]; [apply both_insert_leaf; assumption|].
  rewrite (both_length _ _ _ Hk). rewrite (min_same (fun i => dist m (feat (nth i kids t0)) f) (fun i => dist m (feat (nth i kids' t0)) f')) by (intros i Hi; apply in_seq in Hi; apply dist_same; [apply tsm_feat, nth_both; [exact Hk|lia]|exact Hf]).
  destruct (min_by _ _) as [i|]; [|reflexivity].
  match goal with |- same_run rsm (bind (?F kids i) _) (bind (?G kids' i) _) => assert (C : same_run rsm (F kids i) (G kids' i)) end.
  { clear - IH Hk. revert i. induction Hk as [|c c' k k' Hc Hk IHk]; intros [|i]; try reflexivity.
    - apply (Forall_inv IH); exact Hc.
    - apply IHk. exact (Forall_inv_tail IH). }
  match goal with |- same_run rsm (bind ?F _) (bind ?G _) => destruct F as [r|x], G as [r'|x'] end; cbn [same_run bind] in C |- *; try exact C; try (destruct C; fail).
  destruct C as (C1 & C2 & C3). rewrite C3. pose proof (es_fadd _ _ _ _ Hf He) as F.
  assert (K' : exists q q' b, (match news r with [c] => (upd kids i c, false) | cs => (pop kids i ++ cs, true) end) = (q, b) /\ (match news r' with [c] => (upd kids' i c, false) | cs => (pop kids' i ++ cs, true) end) = (q', b) /\ Forall2 tsm q q').
  { destruct C1 as [|c c' k k' Hc Hk1]; [|destruct Hk1 as [|c2 c2' k k' Hc2 Hk2]]; do 3 eexists; (split; [reflexivity|]; split; [reflexivity|]).
    - apply Forall2_app; [apply pop_both; exact Hk|constructor].
    - apply upd_both; assumption.
    - apply Forall2_app; [apply pop_both; exact Hk|]. constructor; [exact Hc|]. constructor; assumption. }
  destruct K' as (q & q' & b & -> & -> & Q). rewrite (both_length _ _ _ Q). destruct (bf branch <? length q).
  - pose proof (both_split_node _ _ Q) as S. destruct (split_nonleaf m q) as [p|x], (split_nonleaf m q') as [p'|x']; cbn [same_run bind] in S |- *; try exact S; try (destruct S; fail). destruct S as (S1 & S2).
    split; [|split; [exact F|reflexivity]]. cbn [news]. constructor; [exact S1|]. constructor; [exact S2|constructor].
  - destruct b.
    + pose proof (both_merge_nearest _ _ (stat r) Q) as S. destruct (merge_nearest branch q (stat r)) as [p|x], (merge_nearest branch q' (stat r)) as [p'|x']; cbn [same_run bind] in S |- *; try exact S; try (destruct S; fail). destruct S as (S1 & S2).
      split; [|split; [exact F|exact S2]]. cbn [news]. constructor; [constructor; assumption|constructor].
    + split; [|split; [exact F|reflexivity]]. cbn [news]. constructor; [constructor; assumption|constructor].
Qed.
Definition cfsm (t t' : cft) : Prop := stats t' = stats t /\ match root t, root t' with Some a, Some b => tsm a b | None, None => True | _, _ => False end.
Lemma both_insert e e' t t' : es e e' -> cfsm t t' -> same_run cfsm (insert m branch max_entries threshold e t) (insert m branch max_entries threshold e' t').
Proof.
  intros He (H1 & H2). unfold insert. rewrite H1. destruct (root t) as [a|], (root t') as [b|]; try contradiction.
  - pose proof (both_insert_rec e e' He a b (stats t) H2) as S. destruct (insert_rec m branch max_entries threshold e a (stats t)) as [p|x], (insert_rec m branch max_entries threshold e' b (stats t)) as [p'|x']; cbn [same_run bind] in S |- *; try exact S; try (destruct S; fail).
    destruct S as (S1 & S2 & S3). rewrite S3.
    assert (M : forall k k', Forall2 tsm k k' -> same_run cfsm
      (let s1 := stat p in do ks <- merge_nearest branch k (mkC (next s1) (leafes s1) (amount_nodes s1 + 1) (amount_entries s1) (height s1 + 1)); Ok (mkT (Some (Node (copy (whole p)) (fst ks))) (snd ks)))
      (let s1 := stat p in do ks <- merge_nearest branch k' (mkC (next s1) (leafes s1) (amount_nodes s1 + 1) (amount_entries s1) (height s1 + 1)); Ok (mkT (Some (Node (copy (whole p')) (fst ks))) (snd ks)))).
    { intros k k' K. cbv zeta. match goal with |- same_run _ (bind (merge_nearest _ _ ?s) _) _ => pose proof (both_merge_nearest k k' s K) as N; destruct (merge_nearest branch k s) as [w|x], (merge_nearest branch k' s) as [w'|x'] end; cbn [same_run bind] in N |- *; try exact N; try (destruct N; fail).
      destruct N as (N1 & N2). split; cbn [stats root]; [exact N2|]. constructor; [apply es_copy; exact S2|exact N1]. }
    destruct S1 as [|c c' k k' Hc Hk1]; [apply M; constructor|]. destruct Hk1 as [|c2 c2' k k' Hc2 Hk2]; [split; cbn [stats root]; auto|]. apply M. constructor; [exact Hc|]. constructor; assumption.
  - cbn [same_run]. split; cbn [stats root]; [reflexivity|]. constructor; [apply es_copy; exact He|]. constructor; [exact He|constructor].
Qed.
Lemma both_all l l' : Forall2 es l l' -> forall t t', cfsm t t' -> same_run cfsm (insert_all m branch max_entries threshold l t) (insert_all m branch max_entries threshold l' t').
Proof.
  induction 1 as [|e e' l l' He Hl IH]; intros t t' H; cbn [insert_all]; [exact H|]. pose proof (both_insert e e' t t' He H) as S. destruct (insert m branch max_entries threshold e t) as [p|x], (insert m branch max_entries threshold e' t') as [p'|x']; cbn [same_run bind] in S |- *; try exact S; try (destruct S; fail). apply IH; exact S.
Qed.
Lemma es_point p p' : mv p p' -> es (point_entry p) (point_entry p').
Proof.
  intros (A & B & C). assert (Z : forall q : point, length (map (fun x => (0 + x)%Q) q) = length q) by (intro; apply map_length). assert (W : forall (q : point) d, (coord (map (fun x => (0 + x)%Q) q) d == coord q d)%Q).
  { unfold coord. induction q as [|x q IH]; intros [|d]; cbn [map nth]; try ring. apply IH. }
  assert (D : forall u q : point, (dot u (map (fun x => (0 + x)%Q) q) == dot u q)%Q) by (induction u as [|x u IH]; intros [|y q]; cbn [dot map]; try reflexivity; rewrite IH; ring).
  split; [reflexivity|]. split; [cbn; lia|]. unfold feature_moved, point_entry. cbn [num lsum ssum]. split; [reflexivity|]. split; [rewrite Z; exact A|]. split; [rewrite Z; exact B|]. change (inject_Z (Z.of_nat 1)) with 1%Q. split.
  - intros d Hd. rewrite !W, (C d Hd). ring.
  - rewrite D. rewrite (dot_moved v p p' p p' 1 1 A B A B); [ring| |]; intros d Hd; rewrite (C d Hd); ring.
Qed.
End Run.

Section Birch.
Variable v : point.
Notation mv := (moved 1 v).
Variables data data' : list point.
Hypothesis Hdata : Forall2 mv data data'.
Variables (number : nat) (m : measure) (branch max_entries limit : nat) (multiplier : Q).

Definition bsm (b b' : btree) : Prop := fst b' = fst b /\ cfsm v (snd b) (snd b').
Lemma empty_sm : cfsm v empty_tree empty_tree.
Proof. split; [reflexivity|exact I]. Qed.
Lemma points_sm l l' : Forall2 mv l l' -> Forall2 (es v) (map point_entry l) (map point_entry l').
Proof. induction 1; cbn [map]; constructor; auto. apply es_point; assumption. Qed.
Lemma firstn_sm n l l' : Forall2 mv l l' -> Forall2 mv (firstn n l) (firstn n l').
Proof. intro H. revert n. induction H; intros [|n]; cbn [firstn]; constructor; auto. Qed.
Lemma both_rebuild index t : same_run bsm (rebuild_tree data m branch max_entries multiplier index t) (rebuild_tree data' m branch max_entries multiplier index t).
Proof.
  unfold rebuild_tree. cbv zeta. set (inc := if Qeq_bool (t * multiplier) 0 then 1%Q else (t * multiplier)%Q).
  pose proof (both_all v m branch max_entries inc _ _ (points_sm _ _ (firstn_sm (S index) _ _ Hdata)) _ _ empty_sm) as X1.
  destruct (insert_all m branch max_entries inc (map point_entry (firstn (S index) data)) empty_tree) as [a|x], (insert_all m branch max_entries inc (map point_entry (firstn (S index) data')) empty_tree) as [a'|x']; cbn [same_run bind] in X1 |- *; try exact X1; try (destruct X1; fail). split; [reflexivity|exact X1].
Qed.
Lemma both_data l l' : Forall2 mv l l' -> forall index b b', bsm b b' ->
  same_run bsm (insert_data data m branch max_entries limit multiplier index l b) (insert_data data' m branch max_entries limit multiplier index l' b').
Proof.
  induction 1 as [|p p' l l' Hp Hl IH]; intros index b b' B; cbn [insert_data]; [exact B|]. destruct B as (B1 & B2). rewrite B1. unfold insert_point.
  pose proof (both_insert v m branch max_entries (fst b) _ _ _ _ (es_point v _ _ Hp) B2) as S. destruct (insert m branch max_entries (fst b) (point_entry p) (snd b)) as [a|x], (insert m branch max_entries (fst b) (point_entry p') (snd b')) as [a'|x']; cbn [same_run bind] in S |- *; try exact S; try (destruct S; fail).
  destruct (S) as (S1 & _). rewrite S1. destruct (limit <? amount_entries (stats a)).
  - pose proof (both_rebuild index (fst b)) as R. destruct (rebuild_tree data m branch max_entries multiplier index (fst b)) as [c|x], (rebuild_tree data' m branch max_entries multiplier index (fst b)) as [c'|x']; cbn [same_run bind] in R |- *; try exact R; try (destruct R; fail). apply IH; exact R.
  - apply IH. split; [reflexivity|exact S].
Qed.
Lemma both_leafs t : forall t', tsm v t t' -> Forall2 (fun a b : nat * list entry => fst b = fst a /\ Forall2 (es v) (snd a) (snd b)) (leaf_list t) (leaf_list t').
Proof.
  induction t as [id f l|f kids IH] using tree_all; intros t' H; inversion H as [? ? f' ? l' Hf Hl|? f' ? kids' Hf Hk]; subst; cbn [leaf_list]; [constructor; [split; [reflexivity|exact Hl]|constructor]|].
  clear - IH Hk. induction Hk as [|c c' k k' Hc Hk IHk]; cbn [flat_map]; [constructor|]. apply Forall2_app; [apply (Forall_inv IH); exact Hc|]. apply IHk. exact (Forall_inv_tail IH).
Qed.
Lemma both_entries t t' id : tsm v t t' -> Forall2 (es v) (entries_of t id) (entries_of t' id).
Proof.
  intro H. unfold entries_of. pose proof (both_leafs t t' H) as L. induction L as [|a b l l' (E & F) Hl IH]; cbn [find]; [constructor|]. rewrite E. destruct (fst a =? id); [exact F|exact IH].
Qed.
Lemma both_extract t t' : cfsm v t t' -> Forall2 (es v) (extract_features t) (extract_features t').
Proof.
  intros (S & R). unfold extract_features. rewrite S. destruct (root t) as [a|], (root t') as [b|]; try contradiction; [|constructor].
  induction (leafes (stats t)) as [|id l IH]; cbn [flat_map]; [constructor|]. apply Forall2_app; [apply both_entries; exact R|exact IH].
Qed.
Lemma both_assign cf cf' labels : Forall2 mv cf cf' -> forall l l', Forall2 mv l l' -> forall index cl, assign cf' labels index l' cl = assign cf labels index l cl.
Proof.
  intro C. induction 1 as [|p p' l l' Hp Hl IH]; intros index cl; cbn [assign]; [reflexivity|].
  assert (E : argmin (map (fun c => sqdist c p') cf') = argmin (map (fun c => sqdist c p) cf)).
  { apply (times_argmin (1 * 1) ltac:(lra)). clear - C Hp. induction C; cbn [map]; constructor; auto. apply (moved_sqdist 1 v); assumption. }
  rewrite E. destruct (nth_error labels _) as [[c|]|]; try reflexivity. destruct (Encoder_Model.push cl c index); cbn [bind]; [apply IH|reflexivity].
Qed.
Lemma centroids_sm l l' : Forall2 (es v) l l' -> Forall2 mv (map centroid l) (map centroid l').
Proof. induction 1; cbn [map]; constructor; auto. apply es_centroid; assumption. Qed.
Lemma both_birch diameter : same_run (birch_same v) (birch data number m branch max_entries limit multiplier diameter) (birch data' number m branch max_entries limit multiplier diameter).
Proof.
  unfold birch. pose proof (both_data _ _ Hdata 0 _ _ (conj eq_refl empty_sm : bsm (diameter, empty_tree) (diameter, empty_tree))) as S.
  set (r := insert_data data m branch max_entries limit multiplier 0 data (diameter, empty_tree)) in *. set (r' := insert_data data' m branch max_entries limit multiplier 0 data' (diameter, empty_tree)) in *. clearbody r r'.
  pose proof (both_assign) as AS. destruct Hdata as [|p p' l l' Hp Hl]; [reflexivity|]. assert (HD : Forall2 mv (p :: l) (p' :: l')) by (constructor; assumption).
  destruct (number =? 0); [reflexivity|]. destruct (limit =? 0); [reflexivity|]. destruct r as [b|x], r' as [b'|x']; cbn [same_run bind] in S |- *; try exact S; try (destruct S; fail).
  pose proof (both_extract _ _ (proj2 S)) as E. set (fs := extract_features (snd b)) in *. set (fs' := extract_features (snd b')) in *. clearbody fs fs'. pose proof (centroids_sm _ _ E) as C.
  assert (Z : resized 1 (map centroid fs) (map centroid fs')). { split; [apply (both_length _ _ _ C)|]. intros i j Hi Hj. apply (moved_sqdist 1 v); apply nth_moved; assumption. }
  rewrite (C242_agglomerative 1 _ _ SingleLink number ltac:(lra) Z ltac:(discriminate)). destruct (agglomerative (map centroid fs) SingleLink number) as [a|x]; cbn [bind]; [|reflexivity].
  unfold index_to_label. rewrite (both_length _ _ _ C). destruct (mark_clusters _ _ _) as [labels|x]; cbn [bind]; [|reflexivity]. rewrite (AS _ _ labels C _ _ HD). destruct (assign _ _ _ _ _) as [cl|x]; cbn [bind same_run]; [|reflexivity].
  split; [reflexivity|]. split; [reflexivity|]. cbn [features]. clear - E. induction E as [|e e' l l' He Hl IH]; constructor; auto. apply He.
Qed.
End Birch.

(** ** C285 *)
Theorem C285_origin v data data' number m branch max_entries limit multiplier diameter :
  Forall2 (moved 1 v) data data' ->
  same_run (birch_same v) (birch data number m branch max_entries limit multiplier diameter) (birch data' number m branch max_entries limit multiplier diameter).
Proof. intro H. apply both_birch. exact H. Qed.
Print Assumptions C285_origin.

(** With the unit it is different.  Two points 0.00002 apart are merged although the diameter is to be
    0.00001 at most, because a diameter is taken as zero when the expression under its root is below
    1e-9; in a unit of which a thousand make an old one they are kept apart. *)
Theorem C285_unit_refuted : exists s v data data' number m branch max_entries limit multiplier diameter a b,
  (0 < s)%Q /\ Forall2 (moved s v) data data' /\ (0 < diameter)%Q /\
  birch data number m branch max_entries limit multiplier diameter = Ok a /\
  birch data' number m branch max_entries limit multiplier (s * diameter)%Q = Ok b /\
  clusters a = [[0; 1]; [2]] /\ clusters b = [[0]; [1]; [2]].
Proof.
  exists 1000%Q, [0%Q], [[0]; [1 # 50000]; [1]]%Q, [[0]; [1 # 50]; [1000]]%Q, 3, CentroidEuclidean, 5, 5, 500, (3 # 2)%Q, (1 # 100000)%Q. eexists. eexists.
  split; [reflexivity|]. split; [repeat constructor; intros [|d] Hd; cbn in Hd; try lia; vm_compute; reflexivity|]. split; [reflexivity|].
  split; [vm_compute; reflexivity|]. split; [vm_compute; reflexivity|]. split; reflexivity.
Qed.
Print Assumptions C285_unit_refuted.

(** a diameter of zero becomes 1 when there are too many entries, whatever the unit is *)
Theorem C285_zero_diameter_refuted : exists s v data data' number m branch max_entries limit multiplier a b,
  (0 < s)%Q /\ Forall2 (moved s v) data data' /\
  birch data number m branch max_entries limit multiplier 0 = Ok a /\
  birch data' number m branch max_entries limit multiplier (s * 0)%Q = Ok b /\
  clusters a = [[0; 1]; [2]] /\ clusters b = [[0]; [1]; [2]].
Proof.
  exists 10%Q, [0%Q], [[0]; [1 # 2]; [10]]%Q, [[0]; [5]; [100]]%Q, 3, CentroidEuclidean, 5, 5, 1, (3 # 2)%Q. eexists. eexists.
  split; [reflexivity|]. split; [repeat constructor; intros [|d] Hd; cbn in Hd; try lia; vm_compute; reflexivity|].
  split; [vm_compute; reflexivity|]. split; [vm_compute; reflexivity|]. split; reflexivity.
Qed.
Print Assumptions C285_zero_diameter_refuted.

(** seven points moved by 100, with a tree that is split and rebuilt *)
Example C285_example :
  let data := [[0];[1];[10];[11];[20];[21];[5]]%Q in let data' := [[100];[101];[110];[111];[120];[121];[105]]%Q in
  Forall2 (moved 1 [100]%Q) data data' /\
  (exists a, birch data 3 AverageInter 2 2 4 (3 # 2) (1 # 2) = Ok a /\ clusters a = [[0; 1; 6]; [4; 5]; [2; 3]]) /\
  exists b, birch data' 3 AverageInter 2 2 4 (3 # 2) (1 # 2) = Ok b /\ clusters b = [[0; 1; 6]; [4; 5]; [2; 3]].
Proof.
  split; [repeat constructor; intros [|d] Hd; cbn in Hd; try lia; vm_compute; reflexivity|]. split; eexists; (split; [vm_compute; reflexivity|reflexivity]).
Qed.
