(** C272: clustering features are compared up to a tolerance; nearest entries and successors of a node. *)
From Verif Require Import Base Cftree_Model Cfentry_Model.
Local Open Scope Q_scope.

(** ** specification *)
(** two numbers that differ by less than 0.00001 *)
Definition close (a b : Q) : Prop := Qabs (a - b) < 1 # 100000.
(** the same number of points and close sums *)
Definition alike (a b : entry) : Prop := num a = num b /\ close (ssum a) (ssum b) /\ Forall2 close (lsum a) (lsum b).

Lemma within_spec a b : within a b = true <-> close a b.
Proof.
  unfold within, close, tolerance. rewrite andb_true_iff, !Qltb_true, Qabs_Qlt_condition. split; intros (A & B); split; lra.
Qed.
Lemma sums_ok a : forall b r, length a = length b -> exists v, sums_within a b r = Ok v /\ (v = true <-> r = true /\ Forall2 close a b).
Proof.
  induction a as [|x a IH]; intros [|y b] r L; cbn [length] in L; try discriminate; cbn [sums_within].
  - exists r. split; [reflexivity|]. split; [auto|tauto].
  - injection L as L. destruct (IH b (r && within x y) L) as (v & E & H). exists v. split; [exact E|]. rewrite H, andb_true_iff, within_spec. split.
    + intros ((R1 & R2) & F). split; [exact R1|]. constructor; auto.
    + intros (R1 & F). inversion F; subst. auto.
Qed.
(** for features of one dimension [==] gives true exactly when they are alike *)
Theorem C272_equal a b : length (lsum a) = length (lsum b) -> exists v, entry_eq a b = Ok v /\ (v = true <-> alike a b).
Proof.
  intro L. unfold entry_eq. destruct (sums_ok (lsum a) (lsum b) ((num a =? num b)%nat && within (ssum a) (ssum b)) L) as (v & E & H). exists v. split; [exact E|].
  rewrite H, andb_true_iff, Nat.eqb_eq, within_spec. unfold alike. tauto.
Qed.
Print Assumptions C272_equal.

Lemma close_refl a : close a a. Proof. unfold close. setoid_replace (a - a) with 0 by ring. reflexivity. Qed.
Lemma close_sym a b : close a b -> close b a. Proof. unfold close. now rewrite Qabs_Qminus. Qed.
Lemma alike_sym a b : alike a b -> alike b a.
Proof. intros (A & B & F). split; [auto|]. split; [now apply close_sym|]. clear A B. induction F; constructor; auto. now apply close_sym. Qed.
(** a feature equals itself and the order of comparison does not matter *)
Theorem C272_reflexive a : entry_eq a a = Ok true.
Proof.
  destruct (C272_equal a a eq_refl) as (v & -> & H). f_equal. apply H. split; [reflexivity|]. split; [apply close_refl|]. induction (lsum a); constructor; auto. apply close_refl.
Qed.
Print Assumptions C272_reflexive.
Theorem C272_symmetric a b : length (lsum a) = length (lsum b) -> entry_eq a b = entry_eq b a.
Proof.
  intro L. destruct (C272_equal a b L) as (v & -> & H). destruct (C272_equal b a (eq_sym L)) as (w & -> & K). f_equal.
  destruct v, w; try reflexivity; [symmetry; apply K, alike_sym, H; reflexivity|apply H, alike_sym, K; reflexivity].
Qed.
Print Assumptions C272_symmetric.
(** equality is not transitive *)
Theorem C272_transitive_refuted : exists a b c, length (lsum a) = length (lsum b) /\ length (lsum b) = length (lsum c) /\ entry_eq a b = Ok true /\ entry_eq b c = Ok true /\ entry_eq a c = Ok false.
Proof.
  exists (Ent None 1 [0] 0), (Ent None 1 [7 # 1000000] 0), (Ent None 1 [14 # 1000000] 0). repeat split.
Qed.
Print Assumptions C272_transitive_refuted.
(** features of different dimensions can be equal, and then not in the other order *)
Theorem C272_dimension_refuted : exists a b, length (lsum a) <> length (lsum b) /\ entry_eq a b = Ok true /\ entry_eq b a = Raise IndexError.
Proof. exists (Ent None 2 [3] 5), (Ent None 2 [3; 4] 5). split; [discriminate|]. split; reflexivity. Qed.
Print Assumptions C272_dimension_refuted.

(** ** the nearest entry of a leaf *)
(** position [i] holds the first entry with the smallest distance *)
Definition first_nearest (m : measure) (es : list entry) (e : entry) (i : nat) : Prop :=
  (i < length es)%nat /\ (forall j, (j < length es)%nat -> dist m (nth i es e0) e <= dist m (nth j es e0) e) /\ (forall j, (j < i)%nat -> dist m (nth i es e0) e < dist m (nth j es e0) e).

Lemma nearest_from_spec m e : forall todo done b, b = match done with [] => None | _ => b end ->
  (done = [] \/ exists i, b = Some (i, dist m (nth i done e0) e) /\ first_nearest m done e i) ->
  todo ++ done <> [] -> exists i, nearest_from m e (length done) b todo = Some (i, dist m (nth i (done ++ todo) e0) e) /\ first_nearest m (done ++ todo) e i.
Proof.
  induction todo as [|x t IH]; intros done b Hb H Hne; cbn [nearest_from].
  - destruct H as [-> | (i & -> & F)]; [cbn in Hne; congruence|]. exists i. rewrite app_nil_r. auto.
  - assert (E : done ++ x :: t = (done ++ [x]) ++ t) by now rewrite <- app_assoc. rewrite E.
    replace (S (length done)) with (length (done ++ [x])) by (rewrite app_length; cbn; lia).
    assert (N : nth (length done) (done ++ [x]) e0 = x) by (rewrite app_nth2, Nat.sub_diag by lia; reflexivity).
    apply IH.
    + destruct (done ++ [x]) eqn:Q0; [now apply app_eq_nil in Q0 as (_ & ?)|reflexivity].
    + right. destruct H as [-> | (i & -> & F)].
      * cbn in Hb. subst b. exists 0%nat. split; [reflexivity|]. split; [cbn; lia|]. split; [|lia]. intros [|j] Hj; cbn in Hj; [apply Qle_refl|lia].
      * destruct F as (F1 & F2 & F3). cbn [snd]. assert (O : forall j, (j < length done)%nat -> nth j (done ++ [x]) e0 = nth j done e0) by (intros j Hj; apply app_nth1; exact Hj).
        destruct (Qltb (dist m x e) (dist m (nth i done e0) e)) eqn:B.
        -- apply Qltb_true in B. exists (length done). rewrite N. split; [reflexivity|]. rewrite <- N in B. split; [rewrite app_length; cbn; lia|]. split.
           ++ intros j Hj. rewrite app_length in Hj. cbn in Hj. destruct (Nat.eq_dec j (length done)) as [-> | Hn]; [apply Qle_refl|]. rewrite (O j) by lia. apply Qlt_le_weak. eapply Qlt_le_trans; [exact B|]. apply F2. lia.
           ++ intros j Hj. rewrite (O j) by lia. eapply Qlt_le_trans; [exact B|]. apply F2. lia.
        -- apply Qltb_false in B. exists i. rewrite O by exact F1. split; [reflexivity|]. split; [rewrite app_length; cbn; lia|]. rewrite O by exact F1. split.
           ++ intros j Hj. rewrite app_length in Hj. cbn in Hj. destruct (Nat.eq_dec j (length done)) as [-> | Hn]; [rewrite N; exact B|]. rewrite (O j) by lia. apply F2. lia.
           ++ intros j Hj. rewrite (O j) by lia. apply F3. lia.
    + destruct t; [destruct done; discriminate|discriminate].
Qed.
Lemma min_by_spec (key : entry -> Q) : forall es pre best i, nth i (pre ++ es) e0 = best -> (i < length pre)%nat -> (forall j, (j < length pre)%nat -> key best <= key (nth j pre e0)) -> (forall j, (j < i)%nat -> key best < key (nth j pre e0)) ->
  exists k, (k < length (pre ++ es))%nat /\ min_by key best es = nth k (pre ++ es) e0 /\ (forall j, (j < length (pre ++ es))%nat -> key (nth k (pre ++ es) e0) <= key (nth j (pre ++ es) e0)) /\ (forall j, (j < k)%nat -> key (nth k (pre ++ es) e0) < key (nth j (pre ++ es) e0)).
Proof.
  induction es as [|x t IH]; intros pre best i Hi Li H1 H2; cbn [min_by].
  - rewrite app_nil_r in *. exists i. rewrite Hi. auto.
  - assert (E : pre ++ x :: t = (pre ++ [x]) ++ t) by now rewrite <- app_assoc. rewrite E in *.
    assert (O : forall j, (j < length pre)%nat -> nth j (pre ++ [x]) e0 = nth j pre e0) by (intros j Hj; apply app_nth1; exact Hj).
    assert (N : nth (length pre) (pre ++ [x]) e0 = x) by (rewrite app_nth2, Nat.sub_diag by lia; reflexivity).
    assert (L : length (pre ++ [x]) = S (length pre)) by (rewrite app_length; cbn; lia).
    destruct (Qltb (key x) (key best)) eqn:B.
    + apply Qltb_true in B. apply (IH (pre ++ [x]) x (length pre)).
      * rewrite app_nth1 by lia. exact N.
      * lia.
      * intros j Hj. rewrite L in Hj. destruct (Nat.eq_dec j (length pre)) as [-> | Hn]; [rewrite N; apply Qle_refl|]. rewrite (O j) by lia. apply Qlt_le_weak. eapply Qlt_le_trans; [exact B|]. apply H1. lia.
      * intros j Hj. rewrite (O j) by lia. eapply Qlt_le_trans; [exact B|]. apply H1. lia.
    + apply Qltb_false in B. apply (IH (pre ++ [x]) best i).
      * exact Hi.
      * lia.
      * intros j Hj. rewrite L in Hj. destruct (Nat.eq_dec j (length pre)) as [-> | Hn]; [rewrite N; exact B|]. rewrite (O j) by lia. apply H1. lia.
      * intros j Hj. rewrite (O j) by lia. apply H2. lia.
Qed.
Lemma first_unique m es e i j : first_nearest m es e i -> first_nearest m es e j -> i = j.
Proof.
  intros (A1 & A2 & A3) (B1 & B2 & B3). destruct (Nat.lt_trichotomy i j) as [H | [H | H]]; [|exact H|].
  - exfalso. apply (Qlt_not_le _ _ (B3 i H)). apply A2. exact B1.
  - exfalso. apply (Qlt_not_le _ _ (A3 j H)). apply B2. exact A1.
Qed.
(** in a leaf with entries both queries give the first of the nearest entries *)
Theorem C272_nearest m es e : es <> [] -> exists i, first_nearest m es e i /\ nearest_index_entry m es e = Z.of_nat i /\ nearest_entry m es e = Ok (nth i es e0).
Proof.
  intro H. destruct (nearest_from_spec m e es [] None eq_refl (or_introl eq_refl)) as (i & E & F); [rewrite app_nil_r; exact H|]. cbn [app length] in E, F.
  exists i. split; [exact F|]. split; [unfold nearest_index_entry; now rewrite E|]. destruct es as [|x t]; [congruence|]. cbn [nearest_entry]. f_equal.
  destruct (min_by_spec (fun c => dist m c e) t [x] x 0) as (k & K1 & K2 & K3 & K4).
  - reflexivity.
  - cbn. lia.
  - intros [|j] Hj; cbn in Hj; [apply Qle_refl|lia].
  - intros j Hj. lia.
  - rewrite K2. cbn [app] in *. assert (k = i) as -> by (eapply (first_unique m (x :: t) e); [split; [exact K1|split; [exact K3|exact K4]]|exact F]). reflexivity.
Qed.
Print Assumptions C272_nearest.
(** a leaf without entries: -1, and an exception *)
Theorem C272_nearest_empty m e : nearest_index_entry m [] e = (-1)%Z /\ nearest_entry m [] e = Raise ValueError.
Proof. split; reflexivity. Qed.
Print Assumptions C272_nearest_empty.

(** ** the nearest successors: the documentation promises the nearest pair, the method returns the first two *)
Theorem C272_successors kids : nearest_successors kids = match kids with a :: b :: _ => Some (a, b) | _ => None end.
Proof. destruct kids as [|a [|b t]]; reflexivity. Qed.
Print Assumptions C272_successors.
Theorem C272_successors_refuted : exists (m : measure) kids a b, nearest_successors kids = Some (a, b) /\ exists c d, In c kids /\ In d kids /\ c <> d /\ dist m (feat c) (feat d) < dist m (feat a) (feat b).
Proof.
  exists CentroidEuclidean, [Leaf 0 (Ent None 1 [0] 0) []; Leaf 1 (Ent None 1 [9] 81) []; Leaf 2 (Ent None 1 [10] 100) []], (Leaf 0 (Ent None 1 [0] 0) []), (Leaf 1 (Ent None 1 [9] 81) []).
  split; [reflexivity|]. exists (Leaf 1 (Ent None 1 [9] 81) []), (Leaf 2 (Ent None 1 [10] 100) []). split; [right; left; reflexivity|]. split; [right; right; left; reflexivity|]. split; [discriminate|]. reflexivity.
Qed.
Print Assumptions C272_successors_refuted.

(** ** the feature of a node stays the sum of the features it holds *)
(** a count, a total of every coordinate and a total of squares over features of dimension [d] *)
Definition sums_up {A} (key : A -> entry) (d : nat) (f : entry) (l : list A) : Prop :=
  num f = list_sum (map (fun x => num (key x)) l) /\ length (lsum f) = d /\ (forall x, In x l -> length (lsum (key x)) = d) /\
  (forall i, (i < d)%nat -> nth i (lsum f) 0 == fold_right Qplus 0 (map (fun x => nth i (lsum (key x)) 0) l)) /\ ssum f == fold_right Qplus 0 (map (fun x => ssum (key x)) l).

Lemma total_app l k : fold_right Qplus 0 (l ++ k) == fold_right Qplus 0 l + fold_right Qplus 0 k.
Proof. induction l as [|x l IH]; cbn [app fold_right]; [ring|]. rewrite IH. ring. Qed.
Lemma padd_length a : forall b, length a = length b -> length (padd a b) = length a.
Proof. induction a as [|x a IH]; intros [|y b] H; cbn in *; try lia. now rewrite IH by lia. Qed.
Lemma padd_nth a : forall b i, length a = length b -> nth i (padd a b) 0 == nth i a 0 + nth i b 0.
Proof. induction a as [|x a IH]; intros [|y b] [|i] H; cbn in *; try lia; try ring; try reflexivity. apply IH. lia. Qed.
Lemma appended {A} (k l : list A) : fold_left (fun l e => l ++ [e]) k l = l ++ k.
Proof. revert l. induction k as [|x k IH]; intro l; cbn [fold_left]; [now rewrite app_nil_r|]. rewrite IH, <- app_assoc. reflexivity. Qed.
Lemma sums_together {A} (key : A -> entry) d f g l k : sums_up key d f l -> sums_up key d g k -> sums_up key d (fadd f g) (l ++ k).
Proof.
  intros (A1 & A2 & A3 & A4 & A5) (B1 & B2 & B3 & B4 & B5). unfold sums_up, fadd. cbn [num lsum ssum]. repeat split.
  - rewrite map_app, list_sum_app. lia.
  - rewrite padd_length; lia.
  - intros x Hx. apply in_app_iff in Hx as [Hx | Hx]; auto.
  - intros i Hi. rewrite padd_nth by lia. rewrite map_app, total_app, A4, B4 by exact Hi. reflexivity.
  - rewrite map_app, total_app, A5, B5. reflexivity.
Qed.
Lemma one_sum {A} (key : A -> entry) d x : length (lsum (key x)) = d -> sums_up key d (key x) [x].
Proof.
  intro H. unfold sums_up. cbn [map fold_right]. repeat split; try exact H.
  - cbn. lia.
  - intros y [<- | []]. exact H.
  - intros i _. ring.
  - ring.
Qed.
Theorem C272_leaf_feature d f es g ks e : sums_up (fun x => x) d f es -> sums_up (fun x => x) d g ks -> length (lsum e) = d ->
  (let n := insert_entry (f, es) e in snd n = es ++ [e] /\ sums_up (fun x => x) d (fst n) (snd n)) /\ (let n := merge_leaf (f, es) (g, ks) in snd n = es ++ ks /\ sums_up (fun x => x) d (fst n) (snd n)).
Proof.
  intros H K L. unfold insert_entry, merge_leaf. cbn [fst snd]. rewrite appended. split; (split; [reflexivity|]); apply sums_together; auto. apply (one_sum (fun x => x)). exact L.
Qed.
Print Assumptions C272_leaf_feature.
Theorem C272_nonleaf_feature d f kids g ks t : sums_up feat d f kids -> sums_up feat d g ks -> length (lsum (feat t)) = d ->
  (let n := insert_successor (f, kids) t in snd n = kids ++ [t] /\ sums_up feat d (fst n) (snd n)) /\ (let n := merge_nonleaf (f, kids) (g, ks) in snd n = kids ++ ks /\ sums_up feat d (fst n) (snd n)).
Proof.
  intros H K L. unfold insert_successor, merge_nonleaf. cbn [fst snd]. rewrite appended. split; (split; [reflexivity|]); apply sums_together; auto. apply (one_sum feat). exact L.
Qed.
Print Assumptions C272_nonleaf_feature.

(** features that are alike without being the same, and a leaf whose second and third entries are equally near *)
Example C272_example : alike (Ent None 2 [3; 4] 5) (Ent None 2 [3; 4 + (1 # 200000)] 5) /\ nearest_index_entry CentroidManhattan [Ent None 1 [9] 81; Ent None 2 [4] 10; Ent None 1 [4] 16] (Ent None 1 [3] 9) = 1%Z /\
  sums_up (fun x => x) 1 (Ent None 3 [13] 91) [Ent None 1 [9] 81; Ent None 2 [4] 10].
Proof.
  split; [|split; [reflexivity|]].
  - split; [reflexivity|]. split; [reflexivity|]. repeat constructor.
  - split; [reflexivity|]. split; [reflexivity|]. split; [intros x [<- | [<- | []]]; reflexivity|]. split; [intros [|i] Hi; [reflexivity|lia]|reflexivity].
Qed.
