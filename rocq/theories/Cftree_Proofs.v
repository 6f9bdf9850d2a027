(** CF-tree: specification and proofs. *)
From Verif Require Import Base Kmeans_Model Kmeans_Proofs Aggl_Model Aggl_Proofs Cure_Model Cftree_Model.

(** * Specification *)
(** [f] is the sum of the features [l] of dimension [D] *)
Definition sums (D : nat) (f : entry) (l : list entry) : Prop :=
  num f = list_sum (map num l) /\ length (lsum f) = D /\
  (forall d, d < D -> (coord (lsum f) d == qsum (map (fun e => coord (lsum e) d) l))%Q) /\
  (ssum f == qsum (map ssum l))%Q.

(** every node holds the sum of what is directly below it *)
Inductive conserving (D : nat) : tree -> Prop :=
| cons_leaf id f es : sums D f es -> conserving D (Leaf id f es)
| cons_node f kids : Forall (conserving D) kids -> sums D f (map feat kids) -> conserving D (Node f kids).

(** entries, leaves and nodes of a tree *)
Fixpoint leaf_entries (t : tree) : list entry := match t with Leaf _ _ es => es | Node _ kids => flat_map leaf_entries kids end.
Fixpoint leaf_ids (t : tree) : list nat := match t with Leaf id _ _ => [id] | Node _ kids => flat_map leaf_ids kids end.
Fixpoint count_nodes (t : tree) : nat := match t with Leaf _ _ _ => 1 | Node _ kids => S (list_sum (map count_nodes kids)) end.

(** all leaves are on level [h] counted from 1; leaves hold 1 to [maxe] entries, nodes 1 to [b] successors *)
Inductive balanced (b maxe : nat) : nat -> tree -> Prop :=
| bal_leaf id f es : 1 <= length es <= maxe -> balanced b maxe 1 (Leaf id f es)
| bal_node h f kids : 1 <= length kids <= b -> Forall (balanced b maxe h) kids -> balanced b maxe (S h) (Node f kids).

(** the entry [x] stands for the inserted entries [g]: it is their sum, and either a single one of them or
    not wider than the threshold *)
Definition stands_for (D : nat) (thr : Q) (x : entry) (g : list entry) : Prop :=
  g <> [] /\ sums D x g /\ (g = [x] \/ wider x thr = false).

(** objects of the caller *)
Definition tagl (e : entry) : list nat := match tag e with Some x => [x] | None => [] end.

(** * Sums *)
Section Sums.
Variable D : nat.
Notation dim e := (length (lsum e) = D).

Lemma padd_length a b : length a = D -> length b = D -> length (padd a b) = D.
Proof. clear. revert D b. induction a as [|x a IH]; intros D [|y b] H1 H2; simpl in *; try lia. destruct D as [|n]; [lia|]. f_equal. apply IH; lia. Qed.
Lemma padd_coord a b d : length a = D -> length b = D -> (coord (padd a b) d == coord a d + coord b d)%Q.
Proof.
  clear. unfold coord. revert D b d. induction a as [|x a IH]; intros D [|y b] [|d] H1 H2; simpl in *; try lia; try (subst; discriminate); try reflexivity.
  destruct D as [|n]; [lia|]. apply (IH n); lia.
Qed.

Lemma sums_app f g l l' : sums D f l -> sums D g l' -> sums D (fadd f g) (l ++ l').
Proof.
  intros (A1 & A2 & A3 & A4) (B1 & B2 & B3 & B4). unfold sums, fadd; cbn [num lsum ssum]. rewrite !map_app, list_sum_app. split; [lia|]. split; [apply padd_length; auto|].
  split; [intros d Hd; rewrite padd_coord, map_app, qsum_app by auto; rewrite A3, B3 by auto; reflexivity|]. rewrite qsum_app, A4, B4. reflexivity.
Qed.
Lemma sums_one e : dim e -> sums D e [e].
Proof. intros He. unfold sums; simpl. split; [lia|]. split; [auto|]. split; [intros; ring|ring]. Qed.
Lemma sums_copy e : dim e -> sums D (copy e) [e].
Proof. apply sums_one. Qed.
Lemma sums_perm f l l' : Permutation l l' -> sums D f l -> sums D f l'.
Proof.
  intros Hp (A1 & A2 & A3 & A4). split; [rewrite A1; clear - Hp; induction Hp; simpl; lia|]. split; auto. split.
  - intros d Hd. rewrite A3 by auto. apply qsum_perm, Permutation_map. auto.
  - rewrite A4. apply qsum_perm, Permutation_map. auto.
Qed.
Lemma sums_dim f l : sums D f l -> dim f.
Proof. intros H. apply H. Qed.

Lemma list_sum_flat {A} (g : A -> list entry) (f : A -> entry) l :
  (forall x, In x l -> num (f x) = list_sum (map num (g x))) -> list_sum (map num (map f l)) = list_sum (map num (flat_map g l)).
Proof. induction l as [|x t IH]; intros H; simpl; auto. rewrite map_app, list_sum_app, <- IH by (intros; apply H; right; auto). rewrite (H x) by (left; auto). auto. Qed.
Lemma qsum_flat {A} (w : entry -> Q) (g : A -> list entry) (f : A -> entry) l :
  (forall x, In x l -> (w (f x) == qsum (map w (g x)))%Q) -> (qsum (map w (map f l)) == qsum (map w (flat_map g l)))%Q.
Proof. induction l as [|x t IH]; intros H; simpl; [reflexivity|]. rewrite map_app, qsum_app, <- IH by (intros; apply H; right; auto). rewrite (H x) by (left; auto). reflexivity. Qed.

(** sums of sums *)
Lemma sums_flat {A} (f : entry) (g : A -> list entry) (k : A -> entry) l :
  (forall x, In x l -> sums D (k x) (g x)) -> (sums D f (map k l) <-> sums D f (flat_map g l)).
Proof.
  intros H. unfold sums. rewrite (list_sum_flat g k l) by (intros x Hx; apply H; auto).
  assert (E1 : (qsum (map ssum (map k l)) == qsum (map ssum (flat_map g l)))%Q) by (apply qsum_flat; intros x Hx; apply (H x Hx)).
  assert (E2 : forall d, d < D -> (qsum (map (fun e => coord (lsum e) d) (map k l)) == qsum (map (fun e => coord (lsum e) d) (flat_map g l)))%Q) by (intros d Hd; apply qsum_flat; intros x Hx; apply (H x Hx); auto).
  rewrite E1. split; intros (A1 & A2 & A3 & A4); split; auto; split; auto; split; auto; intros d Hd; [rewrite <- E2|rewrite E2]; auto.
Qed.

(** a part of the sum replaced by an equal one *)
Lemma sums_replace f w l l' rest : sums D w l -> sums D w l' -> sums D f (l ++ rest) -> sums D f (l' ++ rest).
Proof.
  intros (A1 & A2 & A3 & A4) (B1 & B2 & B3 & B4) (C1 & C2 & C3 & C4). unfold sums. rewrite !map_app, list_sum_app, qsum_app in *. split; [lia|]. split; auto. split.
  - intros d Hd. rewrite map_app, qsum_app. rewrite C3 by auto. rewrite map_app, qsum_app, <- A3, <- B3 by auto. reflexivity.
  - rewrite C4, <- A4, <- B4. reflexivity.
Qed.
End Sums.

(** * Splitting *)
Section Split.
Variable m : measure.

Lemma farthest_spec {A} (key : A -> entry) d l i j : farthest m key d l = Some (i, j) -> i < j /\ j < length l.
Proof.
  unfold farthest. set (step := fun best ij => _). intros H. apply pairs_in.
  assert (G : forall ps best, (forall ij, fst best = Some ij -> In ij (pairs (length l))) -> (forall ij, In ij ps -> In ij (pairs (length l))) ->
    forall ij, fst (fold_left step ps best) = Some ij -> In ij (pairs (length l))).
  { induction ps as [|p ps IH]; intros best Hb Hp ij; cbn [fold_left]; auto. apply IH; [|intros; apply Hp; right; auto].
    intros q. unfold step. destruct (Qltb (snd best) _); cbn [fst]; auto. intros [= <-]. apply Hp. left. auto. }
  eapply G; [| |exact H]; [cbn; discriminate|auto].
Qed.

Fixpoint kept {A} (skip : nat -> A -> bool) (k : nat) (l : list A) : list A :=
  match l with [] => [] | x :: t => if skip k x then kept skip (S k) t else x :: kept skip (S k) t end.

Lemma kept_app {A} (skip : nat -> A -> bool) l1 : forall k l2, kept skip k (l1 ++ l2) = kept skip k l1 ++ kept skip (k + length l1) l2.
Proof.
  induction l1 as [|x t IH]; intros k l2; simpl; [f_equal; lia|]. rewrite IH. replace (S k + length t) with (k + S (length t)) by lia. destruct (skip k x); reflexivity.
Qed.
Lemma kept_all {A} (skip : nat -> A -> bool) d l : forall k, (forall q, q < length l -> skip (k + q) (nth q l d) = false) -> kept skip k l = l.
Proof.
  induction l as [|x t IH]; intros k H; simpl; auto. pose proof (H 0 ltac:(simpl; lia)) as H0. rewrite Nat.add_0_r in H0. cbn [nth] in H0. rewrite H0. f_equal. apply IH.
  intros q Hq. replace (S k + q) with (k + S q) by lia. apply (H (S q)). simpl. lia.
Qed.
Lemma kept_pair {A} (skip : nat -> A -> bool) d l i j : i < j -> j < length l ->
  (forall q, q < length l -> skip q (nth q l d) = (q =? i) || (q =? j)) -> Permutation (nth i l d :: nth j l d :: kept skip 0 l) l.
Proof.
  intros Hij Hj H. destruct (split_two l i j d Hij Hj) as (before & mid & after & Ec & Ei & Ej). set (x := nth i l d) in *. set (y := nth j l d) in *.
  assert (Lm : length mid = j - i - 1) by lia.
  assert (E : kept skip 0 l = before ++ mid ++ after).
  { rewrite Ec, kept_app. simpl (0 + _). cbn [kept]. rewrite kept_app. cbn [kept].
    assert (Hx : skip (length before) x = true). { rewrite <- Ei. unfold x. rewrite H by lia. rewrite Nat.eqb_refl. auto. }
    assert (Hy : skip (S (length before) + length mid) y = true). { replace (S (length before) + length mid) with j by lia. unfold y. rewrite H by lia. rewrite Nat.eqb_refl, orb_true_r. auto. }
    rewrite Hx, Hy. f_equal; [|f_equal].
    - apply (kept_all _ d). intros q Hq. assert (nth q before d = nth q l d) as -> by (rewrite Ec, app_nth1; auto). rewrite H by lia. apply orb_false_iff. split; apply Nat.eqb_neq; lia.
    - apply (kept_all _ d). intros q Hq. assert (nth q mid d = nth (S (length before) + q) l d) as ->.
      { rewrite Ec, app_nth2 by lia. replace (S (length before) + q - length before) with (S q) by lia. cbn [nth]. rewrite app_nth1; auto. }
      rewrite H by lia. apply orb_false_iff. split; apply Nat.eqb_neq; lia.
    - apply (kept_all _ d). intros q Hq. assert (Ll : length l = length before + S (length mid + S (length after))) by (rewrite Ec, app_length; simpl; rewrite app_length; simpl; lia).
      assert (nth q after d = nth (S (S (length before) + length mid) + q) l d) as ->.
      { rewrite Ec, app_nth2 by lia. replace (S (S (length before) + length mid) + q - length before) with (S (length mid + S q)) by lia. cbn [nth]. rewrite app_nth2 by lia. replace (length mid + S q - length mid) with (S q) by lia. reflexivity. }
      rewrite H by lia. apply orb_false_iff. split; apply Nat.eqb_neq; lia. }
  rewrite E, Ec. transitivity (x :: before ++ y :: mid ++ after); [constructor; apply Permutation_middle|]. rewrite Permutation_middle. apply Permutation_app_head. rewrite (Permutation_middle mid). reflexivity.
Qed.

Lemma distribute_spec {A} D (key : A -> entry) skip l : forall k n1 n2 r1 r2, distribute m key skip k l n1 n2 = (r1, r2) ->
  (forall x, In x l -> length (lsum (key x)) = D) ->
  exists a b, snd r1 = snd n1 ++ a /\ snd r2 = snd n2 ++ b /\ Permutation (a ++ b) (kept skip k l) /\
    (sums D (fst n1) (map key (snd n1)) -> sums D (fst r1) (map key (snd r1))) /\ (sums D (fst n2) (map key (snd n2)) -> sums D (fst r2) (map key (snd r2))).
Proof.
  induction l as [|x t IH]; intros k n1 n2 r1 r2 E Hd; cbn [distribute kept] in *.
  - injection E as <- <-. exists [], []. rewrite !app_nil_r. auto.
  - assert (Ht : forall y, In y t -> length (lsum (key y)) = D) by (intros; apply Hd; right; auto). pose proof (Hd x ltac:(left; auto)) as Hx.
    destruct (skip k x); [apply (IH _ _ _ _ _ E Ht)|]. destruct (Qltb _ _).
    + destruct (IH _ _ _ _ _ E Ht) as (a & b & E1 & E2 & Hp & S1 & S2). cbn [fst snd] in *. exists (x :: a), b. split; [rewrite E1, <- app_assoc; auto|]. split; auto. split; [simpl; constructor; auto|]. split; auto.
      intros Hs. apply S1. rewrite map_app. apply sums_app; auto. apply sums_one. auto.
    + destruct (IH _ _ _ _ _ E Ht) as (a & b & E1 & E2 & Hp & S1 & S2). cbn [fst snd] in *. exists a, (x :: b). split; auto. split; [rewrite E2, <- app_assoc; auto|]. split; [rewrite <- Permutation_middle; constructor; auto|]. split; auto.
      intros Hs. apply S2. rewrite map_app. apply sums_app; auto. apply sums_one. auto.
Qed.

Lemma same_object_tags es i j : NoDup (flat_map tagl es) -> i < length es -> j < length es -> same_object (nth i es e0) (nth j es e0) = true -> i = j.
Proof.
  revert i j. induction es as [|e t IH]; intros i j Hn Hi Hj H; simpl in *; [lia|]. apply NoDup_app_inv in Hn as (N1 & N2 & N3).
  assert (Hsh : forall k, k < length t -> same_object e (nth k t e0) = true -> False).
  { intros k Hk Hs. unfold same_object in Hs. destruct (tag e) as [x|] eqn:E1; [|discriminate]. destruct (tag (nth k t e0)) as [y|] eqn:E2; [|discriminate]. apply Nat.eqb_eq in Hs. subst y.
    apply (N3 x); [unfold tagl; rewrite E1; left; auto|]. apply in_flat_map. exists (nth k t e0). split; [apply nth_In; auto|]. unfold tagl. rewrite E2. left; auto. }
  assert (Hsym : forall x y, same_object x y = same_object y x) by (intros x y; unfold same_object; destruct (tag x), (tag y); auto; apply Nat.eqb_sym).
  destruct i as [|i], j as [|j]; auto; cbn [nth] in H; [exfalso; apply (Hsh j); auto; lia|exfalso; apply (Hsh i); [lia|rewrite Hsym; auto]|]. f_equal. apply IH; auto; lia.
Qed.

Lemma split_leaf_spec D es f1 l1 f2 l2 : NoDup (flat_map tagl es) -> (forall e, In e es -> length (lsum e) = D) -> split_leaf m es = Ok ((f1, l1), (f2, l2)) ->
  Permutation (l1 ++ l2) es /\ l1 <> [] /\ l2 <> [] /\ sums D f1 l1 /\ sums D f2 l2.
Proof.
  intros Hn Hd. unfold split_leaf. destruct (farthest m (fun e => e) e0 es) as [[i j]|] eqn:E; [|discriminate]. apply farthest_spec in E as [Hij Hj].
  intros H. apply Ok_inj in H. set (x := nth i es e0) in *. set (y := nth j es e0) in *.
  destruct (distribute_spec D _ _ _ _ _ _ _ _ H Hd) as (a & b & E1 & E2 & Hp & S1 & S2). cbn [fst snd] in *. rewrite !map_id in *.
  assert (Hk : Permutation (x :: y :: kept (fun k e => (k =? i) || (k =? j) || same_object e x || same_object e y) 0 es) es).
  { apply (kept_pair _ e0 es i j Hij Hj). intros q Hq. destruct (Nat.eqb_spec q i); auto. destruct (Nat.eqb_spec q j); auto. cbn [orb].
    destruct (same_object (nth q es e0) x) eqn:Ex; [apply same_object_tags in Ex; auto; lia|]. destruct (same_object (nth q es e0) y) eqn:Ey; [apply same_object_tags in Ey; auto; lia|]. auto. }
  rewrite E1, E2. split; [|split; [discriminate|split; [discriminate|]]].
  - rewrite <- Hk. simpl. constructor. rewrite <- Permutation_middle. constructor. auto.
  - rewrite <- E1, <- E2. split; [apply S1|apply S2]; apply sums_copy; apply Hd; apply nth_In; lia.
Qed.

Lemma split_nonleaf_spec D kids n1 n2 : (forall c, In c kids -> length (lsum (feat c)) = D) -> split_nonleaf m kids = Ok (n1, n2) ->
  exists f1 l1 f2 l2, n1 = Node f1 l1 /\ n2 = Node f2 l2 /\ Permutation (l1 ++ l2) kids /\ l1 <> [] /\ l2 <> [] /\ sums D f1 (map feat l1) /\ sums D f2 (map feat l2).
Proof.
  intros Hd. unfold split_nonleaf. destruct (farthest m feat t0 kids) as [[i j]|] eqn:E; [|discriminate]. apply farthest_spec in E as [Hij Hj].
  set (x := nth i kids t0) in *. set (y := nth j kids t0) in *. destruct (distribute _ _ _ _ _ _ _) as [[f1 l1] [f2 l2]] eqn:H. intros H'. apply Ok_inj in H'. injection H' as <- <-.
  destruct (distribute_spec D _ _ _ _ _ _ _ _ H Hd) as (a & b & E1 & E2 & Hp & S1 & S2). cbn [fst snd] in *.
  assert (Hk : Permutation (x :: y :: kept (fun k (_ : tree) => (k =? i) || (k =? j)) 0 kids) kids) by (apply (kept_pair _ t0 kids i j Hij Hj); auto).
  exists f1, l1, f2, l2. split; auto. split; auto. rewrite E1, E2. split; [|split; [discriminate|split; [discriminate|]]].
  - rewrite <- Hk. simpl. constructor. rewrite <- Permutation_middle. constructor. auto.
  - rewrite <- E1, <- E2. split; [apply S1|apply S2]; apply sums_copy; apply Hd; apply nth_In; lia.
Qed.
End Split.

(** * Insertion *)
Section Insert.
Variable D : nat.
Variable m : measure.
Variable branch maxe : nat.
Variable thr : Q.
Hypothesis Hmax : 1 <= maxe.
Notation B := (bf branch).

Lemma bf_ge : 2 <= B.
Proof. unfold bf. destruct (Nat.ltb_spec branch 2); lia. Qed.

Inductive good : nat -> tree -> Prop :=
| good_leaf id f es : 1 <= length es <= maxe -> (forall e, In e es -> length (lsum e) = D) -> sums D f es -> good 1 (Leaf id f es)
| good_node h f kids : 1 <= length kids <= B -> Forall (good h) kids -> sums D f (map feat kids) -> good (S h) (Node f kids).

Lemma good_dim h t : good h t -> length (lsum (feat t)) = D.
Proof. destruct 1; eapply sums_dim; eauto. Qed.

Definition tags (t : tree) : list nat := flat_map tagl (leaf_entries t).

Record rinv (h : nat) (e : entry) (t : tree) (s : cfs) (r : reply) : Prop := {
  r_len : length (news r) = 1 \/ length (news r) = 2;
  r_good : Forall (good h) (news r);
  r_whole : whole r = fadd (feat t) e;
  r_sums : sums D (whole r) (map feat (news r));
  r_height : height (stat r) = height s;
  r_nodes : count_nodes t <= amount_nodes s -> amount_nodes (stat r) + count_nodes t = amount_nodes s + list_sum (map count_nodes (news r));
  r_entries : amount_entries (stat r) + length (leaf_entries t) = amount_entries s + length (flat_map leaf_entries (news r));
  r_tags : exists dropped, Permutation (tags t ++ tagl e) (dropped ++ flat_map tags (news r));
  r_leafes : forall rest, Permutation (leafes s) (leaf_ids t ++ rest) -> Permutation (leafes (stat r)) (flat_map leaf_ids (news r) ++ rest);
  r_next : next s <= next (stat r);
  r_fresh : forall x, In x (flat_map leaf_ids (news r)) -> In x (leaf_ids t) \/ next s <= x < next (stat r);
  r_nodup : NoDup (leaf_ids t) -> (forall x, In x (leaf_ids t) -> x < next s) -> NoDup (flat_map leaf_ids (news r));
  r_groups : forall gs, Forall2 (stands_for D thr) (leaf_entries t) gs ->
     exists gs', Forall2 (stands_for D thr) (flat_map leaf_entries (news r)) gs' /\ Permutation (concat gs') (concat gs ++ [e]) }.

Lemma Forall2_perm {X Y} (R : X -> Y -> Prop) l l' : Permutation l l' -> forall g, Forall2 R l g -> exists g', Permutation g g' /\ Forall2 R l' g'.
Proof.
  induction 1 as [|x l l' Hp IH|x y l|l l' l'' H1 IH1 H2 IH2]; intros g F.
  - inversion F; subst. exists []. auto.
  - inversion F as [|? b ? g0 Hxb F']; subst. destruct (IH _ F') as (g' & P & F2). exists (b :: g'). split; [constructor; auto|constructor; auto].
  - inversion F as [|? b ? g0 Hxb F']; subst. inversion F' as [|? c ? g1 Hyc F'']; subst. exists (c :: b :: g1). split; [constructor|constructor; auto].
  - destruct (IH1 _ F) as (g' & P & F'). destruct (IH2 _ F') as (g'' & P' & F''). exists g''. split; auto. etransitivity; eauto.
Qed.
Lemma concat_perm {X} (g g' : list (list X)) : Permutation g g' -> Permutation (concat g) (concat g').
Proof.
  induction 1; simpl; auto; [apply Permutation_app_head; auto|rewrite !app_assoc; apply Permutation_app_tail, Permutation_app_comm|etransitivity; eauto].
Qed.
Lemma stands_one e : length (lsum e) = D -> stands_for D thr e [e].
Proof. intros He. split; [discriminate|]. split; [apply sums_one; auto|auto]. Qed.

Lemma remove_id_perm x l rest : Permutation l (x :: rest) -> Permutation (remove_id x l) rest.
Proof.
  intros H. apply (Permutation_cons_inv (a := x)). rewrite <- H. assert (Hin : In x l) by (apply (Permutation_in x (Permutation_sym H)); left; auto). clear H.
  induction l as [|y t IH]; [destruct Hin|]. simpl. destruct (Nat.eqb_spec x y) as [->|Hn]; auto. destruct Hin as [->|Hin]; [congruence|]. rewrite perm_swap. constructor. auto.
Qed.

Lemma pop_perm {A} (l : list A) i d : i < length l -> Permutation l (nth i l d :: pop l i).
Proof. intros H. destruct (nth_split l d H) as (l1 & l2 & E & El). rewrite E at 1 3. rewrite <- El, pop_split. symmetry. apply Permutation_middle. Qed.
Lemma upd_perm {A} (l : list A) i (v d : A) : i < length l -> Permutation (upd l i v) (v :: pop l i).
Proof. intros H. destruct (nth_split l d H) as (l1 & l2 & E & El). rewrite E. rewrite <- El, pop_split, upd_mid. symmetry. apply Permutation_middle. Qed.

Lemma fadd_num a b : num (fadd a b) = num a + num b. Proof. reflexivity. Qed.

Lemma insert_leaf_spec e id f es s : good 1 (Leaf id f es) -> length (lsum e) = D -> NoDup (tags (Leaf id f es) ++ tagl e) ->
  match insert_leaf m maxe thr e id f es s with Ok r => rinv 1 e (Leaf id f es) s r | Raise x => x = AttributeError end.
Proof.
  intros G He Ht. inversion G as [id' f' es' Hlen Hdim Hs|h f' kids Hlen Hall]; subst.
  unfold insert_leaf. destruct (min_by _ _) as [i|] eqn:Em.
  2:{ apply min_by_none in Em. destruct es; simpl in *; [lia|discriminate]. }
  apply min_by_spec in Em as [Hi _]. apply in_seq in Hi. simpl in Hi. destruct Hi as [_ Hi].
  assert (Hs' : sums D (fadd f e) (es ++ [e])) by (apply sums_app; auto; apply sums_one; auto).
  assert (Hd' : forall x, In x (es ++ [e]) -> length (lsum x) = D) by (intros x Hx; apply in_app_iff in Hx as [Hx|[<-|[]]]; auto).
  unfold tags in Ht. cbn [leaf_entries] in Ht.
  assert (Etag : flat_map tagl (es ++ [e]) = flat_map tagl es ++ tagl e) by (rewrite flat_map_app; simpl; rewrite app_nil_r; reflexivity).
  destruct (wider (fadd (nth i es e0) e) thr) eqn:Ew.
  - destruct (Nat.ltb_spec maxe (length (es ++ [e]))) as [Hov|Hov].
    + destruct (split_leaf m (es ++ [e])) as [[[f1 l1] [f2 l2]]|x] eqn:Esp.
      2:{ unfold split_leaf in Esp. destruct (farthest _ _ _ _) as [[? ?]|]; congruence. }
      apply (split_leaf_spec m D) in Esp as (Hp & N1 & N2 & S1 & S2); [|rewrite Etag; auto|auto]. cbn [bind].
      pose proof (Permutation_length Hp) as Hl. rewrite app_length in Hl. rewrite !app_length in Hl, Hov. simpl in Hl, Hov.
      assert (1 <= length l1) by (destruct l1; simpl; [congruence|lia]). assert (1 <= length l2) by (destruct l2; simpl; [congruence|lia]).
      constructor; cbn [news whole stat feat height amount_nodes amount_entries leafes next map flat_map leaf_entries leaf_ids count_nodes list_sum fold_right length]; auto.
      * apply Forall_cons; [|apply Forall_cons; [|apply Forall_nil]]; apply good_leaf; auto; try lia; intros x Hx; apply Hd'; apply (Permutation_in x Hp); apply in_app_iff; auto.
      * apply (sums_perm D _ (map feat [] ++ [f1] ++ [f2])); [simpl; auto|]. simpl.
        apply (sums_flat D (fadd f e) (fun p => snd p) (fun p : entry * list entry => fst p) [(f1, l1); (f2, l2)]); [intros p [<-|[<-|[]]]; auto|].
        simpl. rewrite app_nil_r. apply (sums_perm D _ (es ++ [e])); auto. symmetry. auto.
      * intros _. simpl. lia.
      * rewrite app_nil_r, app_length. lia.
      * exists []. unfold tags. cbn [leaf_entries]. rewrite app_nil_r. simpl. rewrite <- Etag, <- flat_map_app. apply Permutation_flat_map. symmetry. auto.
      * intros rest Hrest. cbn [app] in *. apply remove_id_perm in Hrest. rewrite Hrest. rewrite Permutation_app_comm. reflexivity.
      * intros x [<-|[<-|[]]]; right; lia.
      * intros _ _. repeat constructor; simpl; lia.
      * intros gs F. rewrite app_nil_r. destruct (Forall2_perm (stands_for D thr) _ _ (Permutation_sym Hp) (gs ++ [[e]])) as (g' & P & F').
        { apply Forall2_app; auto. constructor; [apply stands_one; auto|constructor]. }
        exists g'. split; auto. rewrite <- (concat_perm _ _ P), concat_app. simpl. auto.
    + constructor; cbn [news whole stat feat height amount_nodes amount_entries leafes next map flat_map leaf_entries leaf_ids count_nodes list_sum fold_right length]; auto.
      * apply Forall_cons; [|apply Forall_nil]. apply good_leaf; auto. rewrite app_length in *. simpl in *. lia.
      * apply sums_one. eapply sums_dim; eauto.
      * rewrite app_nil_r, app_length. simpl. lia.
      * exists []. unfold tags. cbn [leaf_entries]. rewrite app_nil_r, Etag. reflexivity.
      * intros gs F. rewrite app_nil_r. exists (gs ++ [[e]]). split; [apply Forall2_app; auto; constructor; [apply stands_one; auto|constructor]|]. rewrite concat_app. simpl. auto.
  - assert (Hn : In (nth i es e0) es) by (apply nth_In; auto).
    assert (Hp : Permutation (upd es i (fadd (nth i es e0) e)) (fadd (nth i es e0) e :: pop es i)) by (apply (upd_perm _ _ _ e0); auto).
    pose proof (pop_perm es i e0 Hi) as Hp'.
    constructor; cbn [news whole stat feat height amount_nodes amount_entries leafes next map flat_map leaf_entries leaf_ids count_nodes list_sum fold_right length]; auto.
    + apply Forall_cons; [|apply Forall_nil]. apply good_leaf; [rewrite upd_length; auto| |].
      * intros x Hx. apply (Permutation_in x Hp) in Hx as [<-|Hx]; [apply padd_length; auto|]. apply Hdim. apply (Permutation_in x (Permutation_sym Hp')). right. auto.
      * apply (sums_perm D _ (fadd (nth i es e0) e :: pop es i)); [symmetry; auto|].
        apply (sums_replace D _ (fadd (nth i es e0) e) ([nth i es e0] ++ [e]) [fadd (nth i es e0) e]).
        -- apply sums_app; apply sums_one; auto.
        -- apply sums_one. apply padd_length; auto.
        -- apply (sums_perm D _ (es ++ [e])); auto. rewrite Hp' at 1. simpl. constructor. rewrite Permutation_app_comm. reflexivity.
    + apply sums_one. eapply sums_dim; eauto.
    + rewrite app_nil_r, upd_length. lia.
    + exists (tagl (nth i es e0) ++ tagl e). unfold tags. cbn [leaf_entries]. rewrite app_nil_r. rewrite (Permutation_flat_map tagl Hp). rewrite (Permutation_flat_map tagl Hp') at 1. simpl. rewrite <- !app_assoc. apply Permutation_app_head. apply Permutation_app_comm.
    + intros gs F. rewrite app_nil_r. destruct (Forall2_perm (stands_for D thr) _ _ Hp' gs F) as (g' & P & F'). inversion F' as [|? g ? g'' (_ & Hg & _) F'']; subst.
      destruct (Forall2_perm (stands_for D thr) _ _ (Permutation_sym Hp) ((g ++ [e]) :: g'')) as (g3 & P3 & F3).
      { constructor; auto. split; [intros Hnil; apply app_eq_nil in Hnil as [_ Hnil]; discriminate|]. split; auto. apply sums_app; auto. apply sums_one; auto. }
      exists g3. split; auto. rewrite <- (concat_perm _ _ P3), (concat_perm _ _ P). simpl. rewrite <- !app_assoc. apply Permutation_app_head. apply Permutation_app_comm.
Qed.

(** effect of an insertion on lists of nodes *)
Record linv (e : entry) (olds : list tree) (s : cfs) (nws : list tree) (s1 : cfs) : Prop := {
  l_height : height s1 = height s;
  l_nodes : list_sum (map count_nodes olds) <= amount_nodes s -> amount_nodes s1 + list_sum (map count_nodes olds) = amount_nodes s + list_sum (map count_nodes nws);
  l_entries : amount_entries s1 + length (flat_map leaf_entries olds) = amount_entries s + length (flat_map leaf_entries nws);
  l_tags : exists dropped, Permutation (flat_map tagl (flat_map leaf_entries olds) ++ tagl e) (dropped ++ flat_map tagl (flat_map leaf_entries nws));
  l_leafes : forall rest, Permutation (leafes s) (flat_map leaf_ids olds ++ rest) -> Permutation (leafes s1) (flat_map leaf_ids nws ++ rest);
  l_next : next s <= next s1;
  l_fresh : forall x, In x (flat_map leaf_ids nws) -> In x (flat_map leaf_ids olds) \/ next s <= x < next s1;
  l_nodup : NoDup (flat_map leaf_ids olds) -> (forall x, In x (flat_map leaf_ids olds) -> x < next s) -> NoDup (flat_map leaf_ids nws);
  l_groups : forall gs, Forall2 (stands_for D thr) (flat_map leaf_entries olds) gs ->
     exists gs', Forall2 (stands_for D thr) (flat_map leaf_entries nws) gs' /\ Permutation (concat gs') (concat gs ++ [e]) }.

Lemma flat_tags ts : flat_map tags ts = flat_map tagl (flat_map leaf_entries ts).
Proof. unfold tags. induction ts as [|t r IH]; simpl; auto. rewrite flat_map_app, IH. reflexivity. Qed.

Lemma rinv_linv h e t s r : rinv h e t s r -> linv e [t] s (news r) (stat r).
Proof.
  intros R. constructor; cbn [flat_map map list_sum fold_right]; rewrite ?app_nil_r, ?Nat.add_0_r.
  - apply (r_height _ _ _ _ _ R).
  - apply (r_nodes _ _ _ _ _ R).
  - apply (r_entries _ _ _ _ _ R).
  - destruct (r_tags _ _ _ _ _ R) as [d Hd]. exists d. rewrite <- flat_tags. exact Hd.
  - apply (r_leafes _ _ _ _ _ R).
  - apply (r_next _ _ _ _ _ R).
  - apply (r_fresh _ _ _ _ _ R).
  - apply (r_nodup _ _ _ _ _ R).
  - apply (r_groups _ _ _ _ _ R).
Qed.

Lemma linv_rinv h e t s r : linv e [t] s (news r) (stat r) -> length (news r) = 1 \/ length (news r) = 2 -> Forall (good h) (news r) ->
  whole r = fadd (feat t) e -> sums D (whole r) (map feat (news r)) -> rinv h e t s r.
Proof.
  intros [L1 L2 L3 L4 L5 L6 L7 L8 L9] Hl Hg Hw Hs. cbn [flat_map map list_sum fold_right] in *. rewrite ?app_nil_r, ?Nat.add_0_r in *. constructor; auto.
  rewrite flat_tags. exact L4.
Qed.

Lemma list_sum_perm l l' : Permutation l l' -> list_sum l = list_sum l'.
Proof. induction 1; simpl; lia. Qed.

Lemma linv_frame e c s nws s1 others olds K : linv e [c] s nws s1 -> Permutation olds (c :: others) -> Permutation K (nws ++ others) -> linv e olds s K s1.
Proof.
  intros [L1 L2 L3 L4 L5 L6 L7 L8 L9] Ho Hk. cbn [flat_map map list_sum fold_right] in *. rewrite ?app_nil_r, ?Nat.add_0_r in *.
  pose proof (list_sum_perm _ _ (Permutation_map count_nodes Ho)) as E1. pose proof (list_sum_perm _ _ (Permutation_map count_nodes Hk)) as E2.
  pose proof (Permutation_flat_map leaf_entries Ho) as P1. pose proof (Permutation_flat_map leaf_entries Hk) as P2.
  pose proof (Permutation_flat_map leaf_ids Ho) as I1. pose proof (Permutation_flat_map leaf_ids Hk) as I2.
  rewrite map_app, list_sum_app in E2. rewrite flat_map_app in P2, I2. cbn [flat_map map list_sum fold_right] in E1, P1, I1. fold (list_sum (map count_nodes others)) in E1.
  constructor; auto.
  - intros H. rewrite E1, E2 in *. specialize (L2 ltac:(lia)). lia.
  - rewrite (Permutation_length P1), (Permutation_length P2), !app_length. lia.
  - destruct L4 as [d Hd]. exists d. rewrite P1, P2, !flat_map_app. rewrite <- app_assoc, (Permutation_app_comm (flat_map tagl (flat_map leaf_entries others))), app_assoc, Hd, <- app_assoc. reflexivity.
  - intros rest Hr. rewrite I1, <- app_assoc in Hr. apply L5 in Hr. rewrite Hr, I2, <- app_assoc. reflexivity.
  - intros x Hx. apply (Permutation_in x I2) in Hx. apply in_app_iff in Hx as [Hx|Hx].
    + apply L7 in Hx as [Hx|Hx]; auto. left. apply (Permutation_in x (Permutation_sym I1)). apply in_app_iff. auto.
    + left. apply (Permutation_in x (Permutation_sym I1)). apply in_app_iff. auto.
  - intros Hn Hlt. apply (Permutation_NoDup I1) in Hn. apply NoDup_app_inv in Hn as (N1 & N2 & N3).
    assert (Hin : forall x, In x (leaf_ids c) \/ In x (flat_map leaf_ids others) -> x < next s) by (intros x Hx; apply Hlt; apply (Permutation_in x (Permutation_sym I1)); apply in_app_iff; auto).
    apply (Permutation_NoDup (Permutation_sym I2)). apply NoDup_app_intro; auto. intros x Hx Hx'. apply L7 in Hx as [Hx|Hx]; [exact (N3 x Hx Hx')|]. specialize (Hin x ltac:(auto)). lia.
  - intros gs F. destruct (Forall2_perm (stands_for D thr) _ _ P1 gs F) as (g' & P & F'). apply Forall2_app_inv_l in F' as (ga & gb & Fa & Fb & ->). destruct (L9 ga Fa) as (gc & Fc & Pc).
    destruct (Forall2_perm (stands_for D thr) _ _ (Permutation_sym P2) (gc ++ gb)) as (gd & Pd & Fd); [apply Forall2_app; auto|]. exists gd. split; auto.
    rewrite <- (concat_perm _ _ Pd), (concat_perm _ _ P), !concat_app, Pc, <- !app_assoc. apply Permutation_app_head. apply Permutation_app_comm.
Qed.

Lemma linv_wrap e f olds s K s1 nws s2 : linv e olds s K s1 ->
  Permutation (flat_map leaf_entries nws) (flat_map leaf_entries K) -> Permutation (flat_map leaf_ids nws) (flat_map leaf_ids K) ->
  next s2 = next s1 -> leafes s2 = leafes s1 -> amount_entries s2 = amount_entries s1 -> height s2 = height s1 ->
  (list_sum (map count_nodes K) + 1 <= amount_nodes s1 -> amount_nodes s2 + list_sum (map count_nodes K) + 1 = amount_nodes s1 + list_sum (map count_nodes nws)) ->
  linv e [Node f olds] s nws s2.
Proof.
  intros [L1 L2 L3 L4 L5 L6 L7 L8 L9] Pe Pi En El Ee Eh Hc. constructor; cbn [flat_map map list_sum fold_right leaf_entries leaf_ids count_nodes]; rewrite ?app_nil_r, ?Nat.add_0_r; rewrite ?En, ?El, ?Ee, ?Eh; auto.
  - fold (list_sum (map count_nodes olds)). fold (list_sum (map count_nodes nws)). intros H. specialize (L2 ltac:(lia)). specialize (Hc ltac:(lia)). lia.
  - rewrite (Permutation_length Pe). auto.
  - destruct L4 as [d Hd]. exists d. rewrite Pe. auto.
  - intros rest Hr. rewrite Pi. auto.
  - intros x Hx. apply L7. apply (Permutation_in x Pi). auto.
  - intros H1 H2. apply (Permutation_NoDup (Permutation_sym Pi)). auto.
  - intros gs F. destruct (L9 gs F) as (gc & Fc & Pc). destruct (Forall2_perm (stands_for D thr) _ _ (Permutation_sym Pe) gc Fc) as (gd & Pd & Fd). exists gd. split; auto. rewrite <- (concat_perm _ _ Pd). auto.
Qed.

Lemma list_sum_cons x l : list_sum (x :: l) = x + list_sum l.
Proof. reflexivity. Qed.

Lemma good_kind h id f es : good h (Leaf id f es) -> h = 1.
Proof. inversion 1. auto. Qed.
Lemma good_node_inv h f kids : good h (Node f kids) -> exists h', h = S h' /\ 1 <= length kids <= B /\ Forall (good h') kids /\ sums D f (map feat kids).
Proof. inversion 1; subst. eexists. eauto. Qed.
Lemma good_pos h t : good h t -> 1 <= h.
Proof. destruct 1; lia. Qed.

Lemma merge_nearest_spec h kids s : Forall (good h) kids -> 2 <= length kids ->
  exists K s', merge_nearest branch kids s = Ok (K, s') /\ 1 <= length K <= length kids /\ Forall (good h) K /\ (forall f, sums D f (map feat kids) -> sums D f (map feat K)) /\
    flat_map leaf_entries K = flat_map leaf_entries kids /\ flat_map leaf_ids K = flat_map leaf_ids kids /\
    next s' = next s /\ leafes s' = leafes s /\ amount_entries s' = amount_entries s /\ height s' = height s /\
    (list_sum (map count_nodes kids) + 1 <= amount_nodes s -> amount_nodes s' + list_sum (map count_nodes kids) = amount_nodes s + list_sum (map count_nodes K)).
Proof.
  intros Hg Hl. unfold merge_nearest. destruct kids as [|[id f es|f1 k1] t]; [simpl in Hl; lia| |].
  - exists (Leaf id f es :: t), s. split; auto. split; [lia|]. repeat (split; [auto|]). auto.
  - destruct t as [|[id f es|f2 k2] t]; [simpl in Hl; lia| |].
    + exfalso. inversion Hg as [|? ? G1 G2]; subst. inversion G2 as [|? ? G3 G4]; subst. apply good_kind in G3. subst h. apply good_node_inv in G1 as (h' & E & L & F & _).
      injection E as <-. destruct k1 as [|c k1]; [simpl in L; lia|]. inversion F as [|? ? F1 F2]; subst. apply good_pos in F1. lia.
    + destruct (Nat.leb_spec (length k1 + length k2) B) as [Hle|Hle].
      * exists (Node (fadd f1 f2) (k1 ++ k2) :: t). eexists. split; [reflexivity|]. inversion Hg as [|? ? G1 G2]; subst. inversion G2 as [|? ? G3 G4]; subst.
        apply good_node_inv in G1 as (h' & -> & L1 & F1 & S1). apply good_node_inv in G3 as (h2 & E & L2 & F2 & S2). injection E as <-.
        split; [simpl; lia|]. split; [constructor; auto; constructor; [rewrite app_length; lia|apply Forall_app; auto|rewrite map_app; apply sums_app; auto]|].
        split; [|cbn [next leafes amount_entries height amount_nodes]; split; [simpl; rewrite flat_map_app, app_assoc; reflexivity|]; split; [simpl; rewrite flat_map_app, app_assoc; reflexivity|]; repeat (split; [reflexivity|])].
        -- intros f Hf. cbn [map feat] in *. change (f1 :: f2 :: map feat t) with ([f1; f2] ++ map feat t) in Hf. change (fadd f1 f2 :: map feat t) with ([fadd f1 f2] ++ map feat t).
           pose proof (sums_dim _ _ _ S1) as d1. pose proof (sums_dim _ _ _ S2) as d2.
           apply (sums_replace D _ (fadd f1 f2) [f1; f2]); auto; [apply (sums_app D f1 f2 [f1] [f2]); apply sums_one; auto|apply sums_one; apply padd_length; auto].
        -- intros H. cbn [map count_nodes] in *. rewrite map_app. rewrite !list_sum_cons in *. rewrite list_sum_app. lia.
      * exists (Node f1 k1 :: Node f2 k2 :: t), s. split; auto. split; [lia|]. repeat (split; [auto|]). auto.
Qed.

Lemma insert_rec_node e f kids s :
  insert_rec m branch maxe thr e (Node f kids) s =
      match min_by (fun i => dist m (feat (nth i kids t0)) f) (seq 0 (length kids)) with
      | None => Raise ValueError
      | Some i =>
          do r <- insert_rec m branch maxe thr e (nth i kids t0) s;
          let s1 := stat r in
          let f' := fadd f e in
          let '(kids', updated) := match news r with
                                   | [c] => (upd kids i c, false)
                                   | cs => (pop kids i ++ cs, true)
                                   end in
          if B <? length kids' then
            do p <- split_nonleaf m kids';
            Ok (mkR [fst p; snd p] f' (mkC (next s1) (leafes s1) (amount_nodes s1 + 1) (amount_entries s1) (height s1)))
          else if updated then
            do ks <- merge_nearest branch kids' s1;
            Ok (mkR [Node f' (fst ks)] f' (snd ks))
          else Ok (mkR [Node f' kids'] f' s1)
      end.
Proof.
  cbn [insert_rec]. destruct (min_by _ _) as [i|] eqn:E; auto. apply min_by_spec in E as [Hi _]. apply in_seq in Hi. simpl in Hi. destruct Hi as [_ Hi].
  match goal with |- bind (?F kids i) _ = _ => assert (HF : forall l k, k < length l -> F l k = insert_rec m branch maxe thr e (nth k l t0) s) end.
  { induction l as [|c l IH]; intros k Hk; [simpl in Hk; lia|]. destruct k as [|k]; [reflexivity|]. simpl in Hk. cbn [nth]. rewrite <- IH by lia. reflexivity. }
  rewrite HF by auto. reflexivity.
Qed.

Lemma insert_rec_spec h : forall t e s, good h t -> length (lsum e) = D -> NoDup (tags t ++ tagl e) ->
  match insert_rec m branch maxe thr e t s with Ok r => rinv h e t s r | Raise x => x = AttributeError end.
Proof.
  induction h as [|h IH]; intros t e s G He Ht; [apply good_pos in G; lia|]. destruct t as [id f es|f kids].
  - pose proof (good_kind _ _ _ _ G) as E. rewrite E in *. cbn [insert_rec]. apply insert_leaf_spec; auto.
  - apply good_node_inv in G as (h' & E & Hlen & Hall & Hs). injection E as <-. rewrite insert_rec_node.
    destruct (min_by _ _) as [i|] eqn:Em; [|apply min_by_none in Em; destruct kids; simpl in *; [lia|discriminate]].
    apply min_by_spec in Em as [Hi _]. apply in_seq in Hi. simpl in Hi. destruct Hi as [_ Hi].
    pose proof (pop_perm kids i t0 Hi) as Hpk. set (c := nth i kids t0) in *. set (others := pop kids i) in *.
    assert (Hc : In c kids) by (apply nth_In; auto).
    assert (Gc : good h c) by (rewrite Forall_forall in Hall; auto).
    assert (Go : Forall (good h) others). { apply (Permutation_Forall Hpk) in Hall. inversion Hall; auto. }
    assert (Htc : NoDup (tags c ++ tagl e)).
    { unfold tags in *. cbn [leaf_entries] in Ht. rewrite (Permutation_flat_map tagl (Permutation_flat_map leaf_entries Hpk)) in Ht. cbn [flat_map] in Ht. rewrite flat_map_app in Ht.
      rewrite <- app_assoc, Permutation_app_comm, <- app_assoc in Ht. apply NoDup_app_inv in Ht as (_ & Ht & _). rewrite Permutation_app_comm. exact Ht. }
    specialize (IH c e s Gc He Htc). destruct (insert_rec m branch maxe thr e c s) as [r|x]; cbn [bind]; auto.
    set (f' := fadd f e).
    assert (HK : exists K up, match news r with [c'] => (upd kids i c', false) | cs => (others ++ cs, true) end = (K, up) /\ Permutation K (news r ++ others) /\ (up = true -> 2 <= length K)).
    { pose proof (r_len _ _ _ _ _ IH) as Hl. destruct (news r) as [|a [|b [|z q]]]; simpl in Hl; try lia.
      - exists (upd kids i a), false. split; auto. split; [apply (upd_perm _ _ _ t0); auto|discriminate].
      - exists (others ++ [a; b]), true. split; auto. split; [apply Permutation_app_comm|]. intros _. rewrite app_length. simpl. lia. }
    destruct HK as (K & up & EK & PK & Hup). rewrite EK.
    assert (GK : Forall (good h) K). { apply (Permutation_Forall (Permutation_sym PK)). apply Forall_app. split; auto. apply (r_good _ _ _ _ _ IH). }
    assert (LI : linv e kids s K (stat r)) by (apply (linv_frame e c s (news r) (stat r) others); auto; eapply rinv_linv; eauto).
    assert (HlK : 1 <= length K <= length kids + 1).
    { rewrite (Permutation_length PK), app_length. pose proof (Permutation_length Hpk) as El. simpl in El. pose proof (r_len _ _ _ _ _ IH). lia. }
    assert (SK : sums D f' (map feat K)).
    { apply (sums_perm D _ (map feat (news r) ++ map feat others)); [rewrite <- map_app; apply Permutation_map; symmetry; auto|].
      apply (sums_replace D _ (whole r) ([feat c] ++ [e])).
      - rewrite (r_whole _ _ _ _ _ IH). apply sums_app; apply sums_one; auto. eapply good_dim; eauto.
      - apply (r_sums _ _ _ _ _ IH).
      - apply (sums_perm D _ (map feat kids ++ [e])).
        + rewrite (Permutation_map feat Hpk). simpl. constructor. apply Permutation_app_comm.
        + apply sums_app; auto. apply sums_one. auto. }
    destruct (Nat.ltb_spec B (length K)) as [Hov|Hov].
    + destruct (split_nonleaf m K) as [[n1 n2]|x] eqn:Esp.
      2:{ cbn [bind]. unfold split_nonleaf in Esp. destruct (farthest _ _ _ _) as [[? ?]|]; [destruct (distribute _ _ _ _ _ _ _) as [[? ?] [? ?]]; discriminate|congruence]. }
      apply (split_nonleaf_spec m D) in Esp as (f1 & l1 & f2 & l2 & -> & -> & Hp & N1 & N2 & S1 & S2).
      2:{ intros x Hx. rewrite Forall_forall in GK. eapply good_dim. eauto. }
      cbn [bind fst snd]. pose proof (Permutation_length Hp) as Hl. rewrite app_length in Hl.
      assert (1 <= length l1) by (destruct l1; simpl; [congruence|lia]). assert (1 <= length l2) by (destruct l2; simpl; [congruence|lia]).
      apply (Permutation_Forall (Permutation_sym Hp)) in GK. apply Forall_app in GK as [GK1 GK2].
      apply linv_rinv; cbn [news whole stat feat]; auto.
      * eapply linv_wrap; [exact LI| | |reflexivity|reflexivity|reflexivity|reflexivity|]; cbn [flat_map leaf_entries leaf_ids map count_nodes list_sum fold_right amount_nodes].
        -- rewrite app_nil_r, <- flat_map_app. apply Permutation_flat_map. auto.
        -- rewrite app_nil_r, <- flat_map_app. apply Permutation_flat_map. auto.
        -- intros _. rewrite <- (list_sum_perm _ _ (Permutation_map count_nodes Hp)), map_app, list_sum_app. fold (list_sum (map count_nodes l1)). fold (list_sum (map count_nodes l2)). lia.
      * apply Forall_cons; [|apply Forall_cons; [|apply Forall_nil]]; apply good_node; auto; lia.
      * change (map feat [Node f1 l1; Node f2 l2]) with [f1; f2].
        apply (sums_flat D f' (fun p : entry * list tree => map feat (snd p)) (fun p : entry * list tree => fst p) [(f1, l1); (f2, l2)]); [intros p [<-|[<-|[]]]; auto|].
        cbn [flat_map snd]. rewrite app_nil_r, <- map_app. apply (sums_perm D _ (map feat K)); auto. apply Permutation_map. symmetry. auto.
    + destruct up.
      * destruct (merge_nearest_spec h K (stat r) GK (Hup eq_refl)) as (K' & s' & Emg & Hl' & GK' & SK' & Pe & Pi & En & El & Ee & Eh & Hc'). rewrite Emg. cbn [bind fst snd].
        apply linv_rinv; cbn [news whole stat feat]; auto.
        -- eapply linv_wrap; [exact LI| | |exact En|exact El|exact Ee|exact Eh|]; cbn [flat_map leaf_entries leaf_ids map count_nodes list_sum fold_right amount_nodes].
           ++ rewrite app_nil_r, Pe. auto.
           ++ rewrite app_nil_r, Pi. auto.
           ++ intros H. specialize (Hc' H). fold (list_sum (map count_nodes K')). lia.
        -- apply Forall_cons; [|apply Forall_nil]. apply good_node; auto. lia.
        -- apply sums_one. eapply sums_dim; eauto.
      * apply linv_rinv; cbn [news whole stat feat]; auto.
        -- eapply linv_wrap; [exact LI| | |reflexivity|reflexivity|reflexivity|reflexivity|]; cbn [flat_map leaf_entries leaf_ids map count_nodes list_sum fold_right amount_nodes].
           ++ rewrite app_nil_r. auto.
           ++ rewrite app_nil_r. auto.
           ++ fold (list_sum (map count_nodes K)). lia.
        -- apply Forall_cons; [|apply Forall_nil]. apply good_node; auto. lia.
        -- apply sums_one. eapply sums_dim; eauto.
Qed.

(** ** the tree *)
(** after the insertion of [inserted] *)
Record tinv (inserted : list entry) (t : cft) : Prop := {
  t_empty : inserted = [] <-> root t = None;
  t_none : root t = None -> t = empty_tree;
  t_tree : forall r, root t = Some r -> good (height (stats t)) r /\ sums D (feat r) inserted /\
     amount_nodes (stats t) = count_nodes r /\ amount_entries (stats t) = length (leaf_entries r) /\ Permutation (leafes (stats t)) (leaf_ids r) /\
     NoDup (leaf_ids r) /\ (forall x, In x (leaf_ids r) -> x < next (stats t)) /\
     (exists dropped, Permutation (flat_map tagl inserted) (dropped ++ tags r)) /\
     exists gs, Forall2 (stands_for D thr) (leaf_entries r) gs /\ Permutation (concat gs) inserted }.

Lemma insert_spec e t inserted : tinv inserted t -> length (lsum e) = D -> NoDup (flat_map tagl (inserted ++ [e])) ->
  match insert m branch maxe thr e t with Ok t' => tinv (inserted ++ [e]) t' | Raise x => x = AttributeError end.
Proof.
  intros I He Hn. unfold insert. destruct (root t) as [r|] eqn:Er.
  - destruct (t_tree _ _ I r Er) as (G & Hs & En & Ee & Pl & Nl & Fl & (d & Hd) & (gs & Fg & Pg)).
    rewrite flat_map_app in Hn. simpl in Hn. rewrite app_nil_r in Hn.
    assert (Ht : NoDup (tags r ++ tagl e)). { rewrite Hd in Hn. rewrite <- app_assoc in Hn. apply NoDup_app_inv in Hn. tauto. }
    pose proof (insert_rec_spec _ r e (stats t) G He Ht) as R. destruct (insert_rec m branch maxe thr e r (stats t)) as [p|x]; cbn [bind]; auto.
    assert (Hs' : sums D (whole p) (inserted ++ [e])) by (rewrite (r_whole _ _ _ _ _ R); apply sums_app; auto; apply sums_one; auto).
    pose proof (r_len _ _ _ _ _ R) as Hl. pose proof (r_good _ _ _ _ _ R) as HG. pose proof (r_sums _ _ _ _ _ R) as HS. pose proof (r_nodes _ _ _ _ _ R ltac:(lia)) as HN.
    pose proof (r_entries _ _ _ _ _ R) as HE. pose proof (r_leafes _ _ _ _ _ R [] ltac:(rewrite app_nil_r; auto)) as HL. rewrite app_nil_r in HL. pose proof (r_height _ _ _ _ _ R) as HH.
    pose proof (r_fresh _ _ _ _ _ R) as HF. pose proof (r_next _ _ _ _ _ R) as Hnx. pose proof (r_nodup _ _ _ _ _ R Nl Fl) as HD. destruct (r_tags _ _ _ _ _ R) as [d' Hd'].
    assert (HT : exists dropped, Permutation (flat_map tagl (inserted ++ [e])) (dropped ++ flat_map tags (news p))).
    { exists (d ++ d'). rewrite flat_map_app. simpl. rewrite app_nil_r, Hd, <- !app_assoc. apply Permutation_app_head. auto. }
    assert (HG2 : exists gs', Forall2 (stands_for D thr) (flat_map leaf_entries (news p)) gs' /\ Permutation (concat gs') (inserted ++ [e])).
    { destruct (r_groups _ _ _ _ _ R gs Fg) as (g' & F' & P'). exists g'. split; auto. rewrite P', Pg. auto. }
    assert (HF' : forall x, In x (flat_map leaf_ids (news p)) -> x < next (stat p)) by (intros x Hx; apply HF in Hx as [Hx|Hx]; [apply Fl in Hx; lia|lia]).
    destruct (news p) as [|a [|b [|z q]]] eqn:Enews; simpl in Hl; try lia.
    + constructor; cbn [root stats].
      * split; [intros H; apply app_eq_nil in H as [_ H]; discriminate|discriminate].
      * discriminate.
      * intros r' [= <-]. cbn [flat_map map list_sum fold_right] in *. rewrite ?app_nil_r, ?Nat.add_0_r in *. rewrite HH. inversion HG; subst.
        split; [auto|]. split; [|split; [lia|split; [lia|split; [auto|split; [auto|split; [auto|split; auto]]]]]].
        apply (sums_perm D _ (inserted ++ [e])); auto. assert (Hrep : sums D (feat a) ([whole p] ++ [])).
        { simpl. destruct HS as (A1 & A2 & A3 & A4). simpl in A1, A3, A4. unfold sums. simpl. split; [lia|]. split; [eapply good_dim; eauto|]. split; [intros dd Hdd; rewrite A3 by auto; ring|rewrite A4; ring]. }
        pose proof (sums_replace D (feat a) (whole p) [whole p] (inserted ++ [e]) [] ltac:(apply sums_one; apply Hs') Hs' Hrep) as H. rewrite app_nil_r in H. exact H.
    + set (s2 := mkC (next (stat p)) (leafes (stat p)) (amount_nodes (stat p) + 1) (amount_entries (stat p)) (height (stat p) + 1)).
      destruct (merge_nearest_spec (height (stats t)) [a; b] s2 HG ltac:(simpl; lia)) as (K & s3 & Emg & Hl' & GK' & SK' & Pe & Pi & E1 & E2 & E3 & E4 & Hc'). rewrite Emg. cbn [bind fst snd].
      constructor; cbn [root stats].
      * split; [intros H; apply app_eq_nil in H as [_ H]; discriminate|discriminate].
      * discriminate.
      * intros r' [= <-]. cbn [feat]. rewrite E4, E1, E2, E3. unfold s2. cbn [next leafes amount_entries height]. unfold tags. cbn [leaf_entries leaf_ids count_nodes]. rewrite Pe, Pi. rewrite HH.
        split; [rewrite Nat.add_1_r; constructor; [pose proof bf_ge; simpl in Hl'; lia|auto|apply SK'; exact HS]|]. split; [exact Hs'|].
        split; [unfold s2 in Hc'; cbn [amount_nodes] in Hc'; specialize (Hc' ltac:(lia)); lia|]. split; [lia|]. split; [auto|]. split; [auto|]. split; [auto|].
        split; [|exact HG2]. destruct HT as [dr Hdr]. exists dr. rewrite flat_tags in Hdr. exact Hdr.
  - rewrite (t_none _ _ I Er). pose proof (proj2 (t_empty _ _ I) Er) as ->. cbn [empty_tree stats next leafes amount_nodes amount_entries height]. constructor; cbn [root stats app].
    + split; discriminate.
    + discriminate.
    + intros r' [= <-]. cbn [feat height amount_nodes count_nodes amount_entries leaf_entries length leafes leaf_ids next]. split; [constructor; [simpl; lia|intros x [<-|[]]; auto|apply sums_copy; auto]|].
      split; [apply sums_copy; auto|]. split; auto. split; auto. split; auto. split; [repeat constructor; simpl; tauto|]. split; [intros x [<-|[]]; lia|]. split; [exists []; unfold tags; simpl; rewrite app_nil_r; auto|]. exists [[e]]. split; [|simpl; auto]. constructor; [apply stands_one; auto|constructor].
Qed.

Lemma insert_all_spec es : forall t inserted, tinv inserted t -> (forall e, In e es -> length (lsum e) = D) -> NoDup (flat_map tagl (inserted ++ es)) ->
  match insert_all m branch maxe thr es t with Ok t' => tinv (inserted ++ es) t' | Raise x => x = AttributeError end.
Proof.
  induction es as [|e es IH]; intros t inserted I He Hn; cbn [insert_all]; [rewrite app_nil_r; auto|].
  assert (Hn' : NoDup (flat_map tagl (inserted ++ [e]))).
  { replace (inserted ++ e :: es) with ((inserted ++ [e]) ++ es) in Hn by (rewrite <- app_assoc; auto). rewrite flat_map_app in Hn. apply NoDup_app_inv in Hn. tauto. }
  pose proof (insert_spec e t inserted I (He e ltac:(left; auto)) Hn') as H. destruct (insert m branch maxe thr e t) as [t'|x]; cbn [bind]; auto.
  replace (inserted ++ e :: es) with ((inserted ++ [e]) ++ es) in * by (rewrite <- app_assoc; auto). apply IH; auto. intros; apply He; right; auto.
Qed.

Lemma tinv_empty : tinv [] empty_tree.
Proof. constructor; cbn; [tauto|auto|discriminate]. Qed.

Lemma good_balanced h : forall t, good h t -> balanced B maxe h t.
Proof. induction h as [|h IH]; intros t G; [apply good_pos in G; lia|]. inversion G; subst; constructor; auto. eapply Forall_impl; [|eauto]. auto. Qed.
Lemma good_conserving h : forall t, good h t -> conserving D t.
Proof. induction h as [|h IH]; intros t G; [apply good_pos in G; lia|]. inversion G; subst; constructor; auto. eapply Forall_impl; [|eauto]. auto. Qed.
End Insert.
