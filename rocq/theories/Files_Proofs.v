(** Specifications and proofs for Files_Model. *)
From Verif Require Import Base Files_Model.

(** * Specification: files of graphs *)

(** The edges written in a file: the two first numbers of its edge lines. *)
Fixpoint edges (ls : list gline) : list (Z * Z) :=
  match ls with
  | [] => []
  | LEdge (a :: b :: _) :: rest => (a, b) :: edges rest
  | _ :: rest => edges rest
  end.

Fixpoint comment_lines (ls : list gline) : list nat :=
  match ls with
  | [] => []
  | LComment c :: rest => c :: comment_lines rest
  | _ :: rest => comment_lines rest
  end.

Fixpoint space_lines (ls : list gline) : list (list Q) :=
  match ls with
  | [] => []
  | LSpace c :: rest => c :: space_lines rest
  | _ :: rest => space_lines rest
  end.

Fixpoint row_lines (ls : list gline) : list (list Q) :=
  match ls with
  | [] => []
  | LMatrix r :: rest => r :: row_lines rest
  | LVector r :: rest => r :: row_lines rest
  | _ :: rest => row_lines rest
  end.

(** The kind of the lines that describe the graph. *)
Definition kind (l : gline) : option dtype :=
  match l with
  | LMatrix _ => Some DM
  | LVector _ => Some DV
  | LEdge _ => Some DE
  | _ => None
  end.

(** A line with the right number of numbers. *)
Definition well_formed (l : gline) : Prop :=
  match l with
  | LSpace cs => length cs = 2
  | LEdge vs => 2 <= length vs
  | LOther => False
  | _ => True
  end.

(** Every line that describes the graph is of the kind [t], and there is one. *)
Definition of_kind (t : dtype) (ls : list gline) : Prop :=
  (forall l t', In l ls -> kind l = Some t' -> t' = t) /\
  (exists l, In l ls /\ kind l = Some t).

(** [v] is an end of a listed edge; the edge between [a] and [b] is listed. *)
Definition mentioned (es : list (Z * Z)) (v : Z) : Prop :=
  exists w, In (v, w) es \/ In (w, v) es.
Definition listed (es : list (Z * Z)) (a b : Z) : Prop := In (a, b) es \/ In (b, a) es.

Definition cell (d : list (list Q)) (i j : nat) : Q := nth j (nth i d []) 0%Q.

(** * Proofs: the map of the edges *)

Definition keys (m : list (Z * list Z)) : list Z := map fst m.

Lemma mget_in (k : Z) m : (exists ns, mget k m = Some ns) <-> In k (keys m).
Proof.
  induction m as [|[k' v] m IH]; simpl.
  - split; [intros [ns H]; discriminate | tauto].
  - destruct (Z.eqb_spec k k') as [->|Hne].
    + split; [auto | intros _; eauto].
    + rewrite IH. split; [tauto | intros [->|H]; [congruence | auto]].
Qed.

Lemma madd_keys (k v : Z) m x : In x (keys (madd k v m)) <-> x = k \/ In x (keys m).
Proof.
  induction m as [|[k' vs] m IH]; simpl.
  - intuition.
  - destruct (Z.eqb_spec k k') as [->|Hne]; simpl.
    + intuition.
    + rewrite IH. intuition.
Qed.

Lemma madd_nodup (k v : Z) m : NoDup (keys m) -> NoDup (keys (madd k v m)).
Proof.
  induction m as [|[k' vs] m IH]; simpl; intro H.
  - constructor; [intros []|constructor].
  - inversion H; subst. destruct (Z.eqb_spec k k') as [->|Hne]; simpl.
    + constructor; auto.
    + constructor; auto. intro Hin. apply madd_keys in Hin. destruct Hin; [congruence | contradiction].
Qed.

Definition vals (k : Z) (m : list (Z * list Z)) : list Z :=
  match mget k m with Some ns => ns | None => [] end.

Lemma madd_vals (k v : Z) m x : vals x (madd k v m) = if Z.eqb x k then vals x m ++ [v] else vals x m.
Proof.
  unfold vals. induction m as [|[k' vs] m IH]; simpl.
  - destruct (Z.eqb_spec x k); reflexivity.
  - destruct (Z.eqb_spec k k') as [->|Hne]; simpl.
    + destruct (Z.eqb_spec x k'); reflexivity.
    + destruct (Z.eqb_spec x k') as [->|Hx].
      * destruct (Z.eqb_spec k' k); [congruence | reflexivity].
      * exact IH.
Qed.

(** What the map knows about the edges read so far. *)
Definition map_ok (m : list (Z * list Z)) (es : list (Z * Z)) : Prop :=
  NoDup (keys m) /\
  (forall v, In v (keys m) <-> mentioned es v) /\
  (forall a b, In b (vals a m) <-> listed es a b).

Lemma map_ok_nil : map_ok [] [].
Proof.
  split; [constructor|]. split.
  - intro v. simpl. unfold mentioned. simpl. split; [tauto | intros [w [[]|[]]]].
  - intros a b. unfold vals, listed. simpl. tauto.
Qed.

Lemma map_ok_edge m es a b : map_ok m es -> map_ok (madd b a (madd a b m)) (es ++ [(a, b)]).
Proof.
  intros [H1 [H2 H3]]. split; [|split].
  - now do 2 apply madd_nodup.
  - intro v. rewrite !madd_keys, H2. unfold mentioned. split.
    + intros [-> | [-> | [w Hw]]].
      * exists a. right. apply in_or_app. right. now left.
      * exists b. left. apply in_or_app. right. now left.
      * exists w. rewrite !in_app_iff. tauto.
    + intros [w Hw]. rewrite !in_app_iff in Hw. simpl in Hw.
      destruct Hw as [[Hw | [Hw | []]] | [Hw | [Hw | []]]].
      * right. right. eauto.
      * injection Hw as -> ->. auto.
      * right. right. eauto.
      * injection Hw as -> ->. auto.
  - intros x y. rewrite !madd_vals. unfold listed. rewrite !in_app_iff. simpl.
    assert (Hx : In y (vals x m) <-> In (x, y) es \/ In (y, x) es) by apply H3.
    destruct (Z.eqb_spec x b) as [->|Hb]; destruct (Z.eqb_spec b a) as [Hba|Hba];
      try (destruct (Z.eqb_spec x a) as [->|Ha]); rewrite ?in_app_iff; simpl;
      rewrite ?Hx; split; intros Hh; repeat match goal with
      | H : _ \/ _ |- _ => destruct H
      | H : (_, _) = (_, _) |- _ => injection H; clear H; intros; subst
      | H : False |- _ => destruct H
      end; subst; try congruence; auto 6.
Qed.

(** * Proofs: the loop over the lines *)

Lemma other_type_false d t : other_type d t = false <-> d = None \/ d = Some t.
Proof.
  destruct d as [x|]; simpl; [|tauto].
  destruct x, t; simpl; split; intro H; try tauto; try discriminate; destruct H; congruence.
Qed.

(** Reading succeeds exactly when every line is well formed and every
    describing line is of one kind, and then the state is known. *)
Definition next_type (d : option dtype) (ls : list gline) (t : option dtype) : Prop :=
  (forall l t', In l ls -> kind l = Some t' -> t = Some t') /\
  (d <> None -> t = d) /\
  (d = None -> (forall l, In l ls -> kind l = None) -> t = None).

Lemma read_line_ok (s s' : rstate) (l : gline) :
  read_line s l = Ok s' ->
  well_formed l /\
  r_comments s' = r_comments s ++ comment_lines [l] /\
  r_space s' = r_space s ++ space_lines [l] /\
  r_data s' = r_data s ++ row_lines [l] /\
  (forall es, map_ok (r_map s) es -> map_ok (r_map s') (es ++ edges [l])) /\
  (match kind l with
   | Some t => (r_type s = None \/ r_type s = Some t) /\ r_type s' = Some t
   | None => r_type s' = r_type s
   end).
Proof.
  intro H. destruct l as [c|cs|row|row|vs| |]; cbn [read_line] in H.
  - apply Ok_inj in H. subst. simpl. rewrite !app_nil_r. split; [auto|]. split; [auto|]. split; [auto|].
    split; [auto|]. split; [|auto]. intros; rewrite app_nil_r; auto.
  - destruct (length cs =? 2) eqn:E; [|discriminate]. apply Nat.eqb_eq in E.
    simpl in H. apply Ok_inj in H. subst. simpl. rewrite !app_nil_r. split; [auto|]. split; [auto|]. split; [auto|].
    split; [auto|]. split; [|auto]. intros; rewrite app_nil_r; auto.
  - destruct (other_type (r_type s) DM) eqn:E; [discriminate|]. apply other_type_false in E.
    apply Ok_inj in H. subst. simpl. rewrite !app_nil_r. split; [auto|]. split; [auto|]. split; [auto|].
    split; [auto|]. split; [|auto]. intros; rewrite app_nil_r; auto.
  - destruct (other_type (r_type s) DV) eqn:E; [discriminate|]. apply other_type_false in E.
    apply Ok_inj in H. subst. simpl. rewrite !app_nil_r. split; [auto|]. split; [auto|]. split; [auto|].
    split; [auto|]. split; [|auto]. intros; rewrite app_nil_r; auto.
  - destruct (other_type (r_type s) DE) eqn:E; [discriminate|]. apply other_type_false in E.
    destruct vs as [|a [|b vs]]; try discriminate.
    apply Ok_inj in H. subst. simpl. rewrite !app_nil_r. split; [lia|]. split; [auto|]. split; [auto|].
    split; [auto|]. split; [|auto]. intros; apply map_ok_edge; auto.
  - apply Ok_inj in H. subst. simpl. rewrite !app_nil_r. split; [auto|]. split; [auto|]. split; [auto|].
    split; [auto|]. split; [|auto]. intros; rewrite app_nil_r; auto.
  - discriminate.
Qed.

Lemma read_line_total (s : rstate) (l : gline) :
  well_formed l ->
  (forall t, kind l = Some t -> r_type s = None \/ r_type s = Some t) ->
  exists s', read_line s l = Ok s'.
Proof.
  intros Hw Hk. destruct l as [c|cs|row|row|vs| |]; cbn [read_line]; simpl in Hw, Hk; eauto.
  - rewrite Hw. simpl. eauto.
  - assert (E := Hk _ eq_refl). apply other_type_false in E. rewrite E. eauto.
  - assert (E := Hk _ eq_refl). apply other_type_false in E. rewrite E. eauto.
  - assert (E := Hk _ eq_refl). apply other_type_false in E. rewrite E.
    destruct vs as [|a [|b vs]]; simpl in Hw; try lia. eauto.
  - contradiction.
Qed.

Lemma comment_lines_app a b : comment_lines (a ++ b) = comment_lines a ++ comment_lines b.
Proof. induction a as [|[] a IH]; simpl; auto. now rewrite IH. Qed.
Lemma space_lines_app a b : space_lines (a ++ b) = space_lines a ++ space_lines b.
Proof. induction a as [|[] a IH]; simpl; auto. now rewrite IH. Qed.
Lemma row_lines_app a b : row_lines (a ++ b) = row_lines a ++ row_lines b.
Proof. induction a as [|[] a IH]; simpl; auto; now rewrite IH. Qed.
Lemma edges_app a b : edges (a ++ b) = edges a ++ edges b.
Proof.
  induction a as [|[| | | |vs| |] a IH]; simpl; auto.
  destruct vs as [|x [|y vs]]; simpl; auto. now rewrite IH.
Qed.

Lemma read_lines_ok (ls : list gline) : forall s s',
  read_lines s ls = Ok s' ->
  Forall well_formed ls /\
  r_comments s' = r_comments s ++ comment_lines ls /\
  r_space s' = r_space s ++ space_lines ls /\
  r_data s' = r_data s ++ row_lines ls /\
  (forall es, map_ok (r_map s) es -> map_ok (r_map s') (es ++ edges ls)) /\
  next_type (r_type s) ls (r_type s').
Proof.
  induction ls as [|l ls IH]; intros s s' H; cbn [read_lines] in H.
  - apply Ok_inj in H. subst. simpl. rewrite !app_nil_r.
    split; [constructor|]. split; [auto|]. split; [auto|]. split; [auto|].
    split; [intros; rewrite app_nil_r; auto|].
    split; [intros l t' []|]. split; auto.
  - destruct (read_line s l) as [s1|e] eqn:E1; cbn [bind] in H; [|discriminate].
    apply read_line_ok in E1. destruct E1 as (W & A1 & A2 & A3 & A4 & A5).
    apply IH in H. destruct H as (B0 & B1 & B2 & B3 & B4 & B5).
    change (l :: ls) with ([l] ++ ls).
    rewrite comment_lines_app, space_lines_app, row_lines_app, edges_app, !app_assoc.
    split; [constructor; auto|].
    split; [congruence|]. split; [congruence|]. split; [congruence|].
    split; [intros es He; rewrite app_assoc; auto|].
    destruct B5 as (T1 & T2 & T3). destruct (kind l) as [t|] eqn:K.
    + destruct A5 as [A5 A6]. assert (Hs : r_type s' = Some t) by (rewrite <- A6; apply T2; congruence).
      split; [|split].
      * intros l0 t' [->|Hin] Hk; [congruence|]. eauto.
      * intro Hd. destruct A5; congruence.
      * intros _ Hall. specialize (Hall l (or_introl eq_refl)). congruence.
    + rewrite A5 in *. split; [|split].
      * intros l0 t' [->|Hin] Hk; [congruence|]. eauto.
      * exact T2.
      * intros Hd Hall. apply T3; auto. intros l0 Hin. apply Hall. now right.
Qed.

Lemma read_lines_total (t : dtype) (ls : list gline) : forall s,
  Forall well_formed ls ->
  (forall l t', In l ls -> kind l = Some t' -> t' = t) ->
  r_type s = None \/ r_type s = Some t ->
  exists s', read_lines s ls = Ok s'.
Proof.
  induction ls as [|l ls IH]; intros s Hw Hk Hs; cbn [read_lines]; eauto.
  inversion Hw; subst.
  destruct (read_line_total s l) as [s1 E1]; auto.
  { intros t' Ht. assert (t' = t) by (eapply Hk; eauto; now left). subst. exact Hs. }
  rewrite E1. cbn [bind]. apply IH; auto.
  - intros l0 t' Hin. apply Hk. now right.
  - apply read_line_ok in E1. destruct E1 as (_ & _ & _ & _ & _ & A5).
    destruct (kind l) as [t'|] eqn:K.
    + right. destruct A5 as [_ ->]. f_equal. eapply Hk; eauto. now left.
    + now rewrite A5.
Qed.

(** * Proofs: the matrix of the edges *)

Lemma set_one_in (row : list Q) (i : nat) :
  i < length row -> set_one row (Z.of_nat i) = Ok (upd row i 1%Q).
Proof.
  intro H. unfold set_one.
  replace (0 <=? Z.of_nat i)%Z with true by (symmetry; apply Z.leb_le; lia).
  replace (Z.of_nat i <? Z.of_nat (length row))%Z with true by (symmetry; apply Z.ltb_lt; lia).
  simpl. now rewrite Nat2Z.id.
Qed.

Lemma set_ones_spec (n : nat) (ns : list Z) : forall row,
  length row = n -> (forall v, In v ns -> (1 <= v <= Z.of_nat n)%Z) ->
  exists row', set_ones row ns = Ok row' /\ length row' = n /\
    forall j, j < n ->
      (In (Z.of_nat j + 1)%Z ns -> nth j row' 0%Q = 1%Q) /\
      (~ In (Z.of_nat j + 1)%Z ns -> nth j row' 0%Q = nth j row 0%Q).
Proof.
  induction ns as [|v ns IH]; intros row Hl Hn.
  - exists row. cbn [set_ones]. simpl. repeat split; auto. tauto.
  - assert (Hv := Hn v (or_introl eq_refl)).
    assert (Ev : (v - 1 = Z.of_nat (Z.to_nat (v - 1)))%Z) by lia.
    cbn [set_ones]. rewrite Ev, set_one_in by lia. cbn [bind].
    destruct (IH (upd row (Z.to_nat (v - 1)) 1%Q)) as (row' & E & L & S).
    { now rewrite upd_length. }
    { intros w Hw. apply Hn. now right. }
    exists row'. split; [exact E|]. split; [exact L|]. intros j Hj. specialize (S j Hj). destruct S as [S1 S2].
    destruct (in_dec Z.eq_dec (Z.of_nat j + 1)%Z ns) as [Hin|Hnin].
    + split; [auto|]. intro Hc. exfalso. apply Hc. now right.
    + specialize (S2 Hnin). rewrite S2, upd_nth. split.
      * intros [Hv'|Hc]; [|contradiction].
        replace (Z.to_nat (v - 1)) with j by lia. rewrite Nat.eqb_refl.
        replace (j <? length row) with true; [reflexivity|]. symmetry. apply Nat.ltb_lt. lia.
      * intro Hc. destruct (Nat.eqb_spec (Z.to_nat (v - 1)) j) as [He|He]; [|reflexivity].
        exfalso. apply Hc. left. lia.
Qed.

Lemma edge_rows_spec (m : list (Z * list Z)) (n : nat) (is : list nat) :
  length m = n ->
  (forall a b, In b (vals a m) -> (1 <= b <= Z.of_nat n)%Z) ->
  (forall i, In i is -> In (Z.of_nat i + 1)%Z (keys m)) ->
  exists rows, edge_rows m is = Ok rows /\ length rows = length is /\
    forall k, k < length is ->
      length (nth k rows []) = n /\
      forall j, j < n ->
        (In (Z.of_nat j + 1)%Z (vals (Z.of_nat (nth k is 0) + 1) m) -> cell rows k j = 1%Q) /\
        (~ In (Z.of_nat j + 1)%Z (vals (Z.of_nat (nth k is 0) + 1) m) -> cell rows k j = 0%Q).
Proof.
  intros Hm Hv. induction is as [|i is IH]; intro Hk.
  - exists []. cbn [edge_rows]. split; [reflexivity|]. split; [reflexivity|]. simpl. intros; lia.
  - destruct IH as (rows & E & L & S). { intros; apply Hk; now right. }
    assert (Hi := Hk i (or_introl eq_refl)). apply mget_in in Hi. destruct Hi as [ns Hns].
    destruct (set_ones_spec n ns (repeat 0%Q (length m))) as (row & Er & Lr & Sr).
    { rewrite repeat_length. exact Hm. }
    { intros v Hin. apply (Hv (Z.of_nat i + 1)%Z). unfold vals. now rewrite Hns. }
    cbn [edge_rows]. rewrite Hns, Er. cbn [bind]. rewrite E. cbn [bind].
    exists (row :: rows). split; [reflexivity|]. split; [simpl; lia|].
    intros [|k] Hlt; unfold cell; cbn [nth].
    + split; [exact Lr|]. intros j Hj. specialize (Sr j Hj). destruct Sr as [S1 S2].
      unfold vals. rewrite Hns. split; [exact S1|]. intro Hc. rewrite (S2 Hc).
      apply nth_repeat.
    + apply S. simpl in Hlt. lia.
Qed.

Lemma edge_rows_keys (m : list (Z * list Z)) (is : list nat) : forall rows,
  edge_rows m is = Ok rows -> forall i, In i is -> In (Z.of_nat i + 1)%Z (keys m).
Proof.
  induction is as [|i is IH]; intros rows H j Hj; [destruct Hj|].
  cbn [edge_rows] in H. destruct (mget (Z.of_nat i + 1) m) as [ns|] eqn:E; [|discriminate].
  destruct (set_ones _ ns) as [row|]; cbn [bind] in H; [|discriminate].
  destruct (edge_rows m is) as [rows'|]; cbn [bind] in H; [|discriminate].
  destruct Hj as [->|Hj]; [|eauto]. apply mget_in. eauto.
Qed.

(** The numbers 1, …, n. *)
Definition upto (n : nat) : list Z := map (fun i => (Z.of_nat i + 1)%Z) (seq 0 n).

Lemma upto_in n v : In v (upto n) <-> (1 <= v <= Z.of_nat n)%Z.
Proof.
  unfold upto. rewrite in_map_iff. split.
  - intros [i [<- Hi]]. apply in_seq in Hi. lia.
  - intro H. exists (Z.to_nat (v - 1)). split; [lia|]. apply in_seq. lia.
Qed.

Lemma upto_nodup n : NoDup (upto n).
Proof.
  unfold upto. apply FinFun.Injective_map_NoDup; [|apply seq_NoDup].
  intros a b H. lia.
Qed.

Lemma upto_length n : length (upto n) = n.
Proof. unfold upto. now rewrite map_length, seq_length. Qed.

Lemma keys_size (m : list (Z * list Z)) n :
  NoDup (keys m) -> (forall v, In v (keys m) <-> (1 <= v <= Z.of_nat n)%Z) -> length m = n.
Proof.
  intros Hd Hk. assert (P : Permutation (keys m) (upto n)).
  { apply NoDup_Permutation; [exact Hd | apply upto_nodup|]. intro v. now rewrite Hk, upto_in. }
  apply Permutation_length in P. rewrite upto_length in P. unfold keys in P. now rewrite map_length in P.
Qed.

(** * Specification and proofs: the answers *)

Definition label_is (ls : list aline) (z : Z) (i : nat) : Prop := nth_error ls i = Some (ALabel z).
Definition noise_is (ls : list aline) (i : nat) : Prop := nth_error ls i = Some ANoise.

(** Every label is a number of a cluster whose predecessors have all occurred
    before. *)
Definition in_order (ls : list aline) : Prop :=
  forall i z, label_is ls z i ->
    (0 <= z)%Z /\ forall k, (0 <= k < z)%Z -> exists j, j < i /\ label_is ls k j.

(** A file that [int] can read. *)
Definition readable (ls : list aline) : Prop := ~ In ABad ls.

Lemma concat_upd_perm (cs : list (list nat)) k i :
  k < length cs -> Permutation (concat (upd cs k (nth k cs [] ++ [i]))) (concat cs ++ [i]).
Proof.
  revert k. induction cs as [|c cs IH]; intros k Hk; simpl in Hk; [lia|].
  destruct k as [|k]; simpl.
  - rewrite <- !app_assoc. apply Permutation_app_head. apply Permutation_app_comm.
  - rewrite <- app_assoc. apply Permutation_app_head. apply IH. lia.
Qed.

Lemma answer_line_ok cs noise i l cs' noise' :
  answer_line cs noise i l = Ok (cs', noise') ->
  l <> ABad /\
  noise' = noise ++ match l with ANoise => [i] | _ => [] end /\
  (match l with
   | ALabel z =>
       ((Z.of_nat (length cs) <= z)%Z /\ cs' = cs ++ [[i]]) \/
       (exists k, k < length cs /\ (Z.of_nat k = z \/ Z.of_nat k = z + Z.of_nat (length cs))%Z /\
                  (0 <= z -> Z.of_nat k = z)%Z /\
                  cs' = upd cs k (nth k cs [] ++ [i]))
   | _ => cs' = cs
   end).
Proof.
  intro H. destruct l as [|z|]; cbn [answer_line] in H.
  - apply Ok_inj in H. injection H as <- <-. split; [discriminate|]. auto.
  - split; [discriminate|].
    destruct (Z.leb_spec (Z.of_nat (length cs)) z) as [Hz|Hz].
    + apply Ok_inj in H. injection H as <- <-. rewrite app_nil_r. auto.
    + destruct (Z.leb_spec 0 z) as [H0|H0].
      * apply Ok_inj in H. injection H as <- <-. rewrite app_nil_r. split; [auto|].
        right. exists (Z.to_nat z). repeat split; lia || auto.
      * destruct (Z.leb_spec (- Z.of_nat (length cs)) z) as [H1|H1]; [|discriminate].
        apply Ok_inj in H. injection H as <- <-. rewrite app_nil_r. split; [auto|].
        right. exists (Z.to_nat (z + Z.of_nat (length cs))). repeat split; lia || auto.
  - discriminate.
Qed.

Lemma answer_lines_partition (ls : list aline) : forall cs noise i cs' noise',
  answer_lines cs noise i ls = ((cs', noise'), None) ->
  no_empty cs ->
  Permutation (concat cs' ++ noise') ((concat cs ++ noise) ++ seq i (length ls)) /\
  no_empty cs' /\
  noise' = noise ++ filter (fun j => match nth_error ls (j - i) with Some ANoise => true | _ => false end)
                           (seq i (length ls)).
Proof.
  induction ls as [|l ls IH]; intros cs noise i cs' noise' H Hne; cbn [answer_lines] in H.
  - injection H as <- <-. simpl. rewrite !app_nil_r. auto.
  - destruct (answer_line cs noise i l) as [[cs1 noise1]|e] eqn:E; [|discriminate].
    apply answer_line_ok in E. destruct E as (Hbad & En & Ec).
    assert (P1 : Permutation (concat cs1 ++ noise1) ((concat cs ++ noise) ++ [i]) /\ no_empty cs1).
    { destruct l as [|z|].
      - subst. rewrite app_assoc. auto.
      - rewrite app_nil_r in En. subst noise1. destruct Ec as [[_ ->]|(k & Hk & _ & _ & ->)].
        + split.
          * rewrite concat_app. simpl. rewrite <- !app_assoc. apply Permutation_app_head.
            apply Permutation_app_comm.
          * apply Forall_forall. intros g Hg. apply in_app_or in Hg. destruct Hg as [Hg|[<-|[]]]; [|discriminate].
            exact (proj1 (Forall_forall _ _) Hne g Hg).
        + split.
          * rewrite (concat_upd_perm cs k i Hk), <- !app_assoc. apply Permutation_app_head.
            apply Permutation_app_comm.
          * apply Forall_forall. intros g Hg. apply (In_nth _ _ []) in Hg. destruct Hg as (q & Hq & <-).
            rewrite upd_length in Hq. rewrite upd_nth.
            destruct ((k =? q) && (k <? length cs)).
            -- intro Hc. apply app_eq_nil in Hc. destruct Hc; discriminate.
            -- apply (proj1 (Forall_forall _ _) Hne). now apply nth_In.
      - congruence. }
    destruct P1 as [P1 Hne1].
    destruct (IH _ _ _ _ _ H Hne1) as (P2 & Hne' & En').
    split; [|split; [exact Hne'|]].
    + rewrite P2. simpl. rewrite P1, <- !app_assoc. reflexivity.
    + rewrite En', En. cbn [length seq filter]. rewrite Nat.sub_diag. cbn [nth_error].
      assert (Ef : filter (fun j => match nth_error ls (j - S i) with Some ANoise => true | _ => false end)
                     (seq (S i) (length ls)) =
                   filter (fun j => match nth_error (l :: ls) (j - i) with Some ANoise => true | _ => false end)
                     (seq (S i) (length ls))).
      { apply filter_ext_in. intros j Hj. apply in_seq in Hj.
        replace (j - i) with (S (j - S i)) by lia. reflexivity. }
      rewrite Ef. destruct l; simpl; rewrite <- ?app_assoc; reflexivity.
Qed.

(** The lines before [i] that carry the label [k]. *)
Definition labelled (ls : list aline) (k : nat) (is : list nat) : list nat :=
  filter (fun j => match nth_error ls j with Some (ALabel z) => Z.eqb z (Z.of_nat k) | _ => false end) is.

(** Reading from the middle of a file whose labels are in order. *)
Lemma answer_lines_in_order (all : list aline) (rest : list aline) : forall cs noise i,
  in_order all -> readable all ->
  (forall j, nth_error rest j = nth_error all (i + j)) ->
  (forall k, k < length cs -> nth k cs [] = labelled all k (seq 0 i)) ->
  (forall z, (exists j, j < i /\ label_is all z j) <-> (0 <= z < Z.of_nat (length cs))%Z) ->
  exists cs' noise', answer_lines cs noise i rest = ((cs', noise'), None) /\
    (forall k, k < length cs' -> nth k cs' [] = labelled all k (seq 0 (i + length rest))) /\
    (forall z, (exists j, j < i + length rest /\ label_is all z j) <-> (0 <= z < Z.of_nat (length cs'))%Z).
Proof.
  induction rest as [|l rest IH]; intros cs noise i Ho Hr Hn Hc Hl.
  - exists cs, noise. cbn [answer_lines length]. rewrite Nat.add_0_r. auto.
  - assert (Hi : nth_error all i = Some l) by (specialize (Hn 0); rewrite Nat.add_0_r in Hn; symmetry; exact Hn).
    assert (Hstep : exists cs1 noise1, answer_line cs noise i l = Ok (cs1, noise1) /\
      (forall k, k < length cs1 -> nth k cs1 [] = labelled all k (seq 0 (S i))) /\
      (forall z, (exists j, j < S i /\ label_is all z j) <-> (0 <= z < Z.of_nat (length cs1))%Z)).
    { assert (Hsplit : forall k, labelled all k (seq 0 (S i)) =
        labelled all k (seq 0 i) ++
        match l with ALabel z => if Z.eqb z (Z.of_nat k) then [i] else [] | _ => [] end).
      { intro k. unfold labelled. rewrite seq_S, filter_app. simpl. rewrite Hi. destruct l; auto. }
      assert (Hnew : forall z, (exists j, j < S i /\ label_is all z j) <->
                               ((exists j, j < i /\ label_is all z j) \/ l = ALabel z)).
      { intro z. split.
        - intros (j & Hj & Hz). destruct (Nat.eq_dec j i) as [->|Hji].
          + right. unfold label_is in Hz. congruence.
          + left. exists j. split; [lia | exact Hz].
        - intros [(j & Hj & Hz)| ->]; [exists j; split; [lia | exact Hz] | exists i; split; [lia | exact Hi]]. }
      destruct l as [|z|].
      - exists cs, (noise ++ [i]). split; [reflexivity|]. split.
        + intros k Hk. rewrite Hsplit, app_nil_r. auto.
        + intro z. rewrite Hnew, <- Hl. split; [intros [H|H]; [exact H|discriminate] | auto].
      - destruct (Ho i z Hi) as [Hz0 Hpre].
        assert (Hzle : (z <= Z.of_nat (length cs))%Z).
        { destruct (Z_le_gt_dec z (Z.of_nat (length cs))) as [|Hgt]; auto. exfalso.
          destruct (Hpre (Z.of_nat (length cs))) as (j & Hj & Hjl); [lia|].
          assert (Hx : (0 <= Z.of_nat (length cs) < Z.of_nat (length cs))%Z) by (apply Hl; eauto). lia. }
        cbn [answer_line].
        destruct (Z.leb_spec (Z.of_nat (length cs)) z) as [Hge|Hlt].
        + assert (z = Z.of_nat (length cs)) by lia. subst z.
          exists (cs ++ [[i]]), noise. split; [reflexivity|]. split.
          * intros k Hk. rewrite app_length in Hk. simpl in Hk. rewrite Hsplit.
            destruct (Z.eqb_spec (Z.of_nat (length cs)) (Z.of_nat k)) as [He|He].
            -- assert (k = length cs) by lia. subst k. rewrite app_nth2 by lia. rewrite Nat.sub_diag. cbn [nth].
               assert (En : labelled all (length cs) (seq 0 i) = []).
               { unfold labelled. destruct (filter _ _) as [|x xs] eqn:Ef; [reflexivity|]. exfalso.
                 assert (Hx : In x (x :: xs)) by now left. rewrite <- Ef in Hx. apply filter_In in Hx.
                 destruct Hx as [Hx1 Hx2]. apply in_seq in Hx1.
                 destruct (nth_error all x) as [[|z|]|] eqn:Ex; try discriminate.
                 apply Z.eqb_eq in Hx2. subst z.
                 assert (Hy : (0 <= Z.of_nat (length cs) < Z.of_nat (length cs))%Z)
                   by (apply Hl; exists x; split; [lia | exact Ex]). lia. }
               rewrite En. reflexivity.
            -- rewrite app_nth1 by lia. rewrite app_nil_r. apply Hc. lia.
          * intro y. rewrite Hnew, app_length, Hl. simpl. split.
            -- intros [H|H]; [lia|]. injection H as <-. lia.
            -- intro H. destruct (Z.eq_dec y (Z.of_nat (length cs))) as [->|Hy]; [auto|]. left. lia.
        + replace (0 <=? z)%Z with true by (symmetry; apply Z.leb_le; lia).
          exists (upd cs (Z.to_nat z) (nth (Z.to_nat z) cs [] ++ [i])), noise. split; [reflexivity|]. split.
          * intros k Hk. rewrite upd_length in Hk. rewrite upd_nth, Hsplit.
            destruct (Z.eqb_spec z (Z.of_nat k)) as [He|He].
            -- replace (Z.to_nat z) with k by lia. rewrite Nat.eqb_refl.
               replace (k <? length cs) with true by (symmetry; apply Nat.ltb_lt; lia). simpl.
               now rewrite Hc.
            -- replace (Z.to_nat z =? k) with false by (symmetry; apply Nat.eqb_neq; lia). simpl.
               rewrite app_nil_r. auto.
          * intro y. rewrite Hnew, upd_length, Hl. split; [|auto].
            intros [H|H]; [exact H|]. injection H as <-. lia.
      - exfalso. apply Hr. eapply nth_error_In; eauto. }
    destruct Hstep as (cs1 & noise1 & E & Hc1 & Hl1).
    destruct (IH cs1 noise1 (S i)) as (cs' & noise' & E' & Hc' & Hl'); auto.
    { intro j. replace (S i + j) with (i + S j) by lia. exact (Hn (S j)). }
    exists cs', noise'. cbn [answer_lines length]. rewrite E.
    replace (i + S (length rest)) with (S i + length rest) by lia. auto.
Qed.

(** * Specification and proofs: borders *)

(** The pixel in the column [c] of the row [r] is dark: its brightness
    0.2989 R + 0.5870 G + 0.1140 B is below 128. *)
Definition dark_at (width : nat) (ps : list pixel) (r c : nat) : Prop :=
  c < width /\ exists p, nth_error ps (r * width + c) = Some p /\
    ((2989 # 10000) * fst (fst p) + (5870 # 10000) * snd (fst p) + (1140 # 10000) * snd p < 128)%Q.
Lemma luma_brightness p : (luma p == (2989 # 10000) * fst (fst p) + (5870 # 10000) * snd (fst p) + (1140 # 10000) * snd p)%Q.
Proof. destruct p as [[r g] b]. unfold luma. cbn [fst snd]. ring. Qed.

(** [lo] and [hi] bound the set [S] tightly. *)
Definition tight (S : nat -> Prop) (lo hi : nat) : Prop :=
  (forall x, S x -> lo <= x <= hi) /\ S lo /\ S hi.

(** The invariant for one coordinate: [S] is what has been met. *)
Definition seen (S : nat -> Prop) (big lo hi : nat) : Prop :=
  ((forall x, ~ S x) /\ lo = big /\ hi = 0) \/ tight S lo hi.

Lemma seen_step (S S' : nat -> Prop) (big lo hi x : nat) (d : bool) :
  seen S big lo hi -> x < big ->
  (forall y, S' y <-> (S y \/ (d = true /\ y = x))) ->
  seen S' big (if d && (x <? lo) then x else lo) (if d && (hi <? x) then x else hi).
Proof.
  intros Hs Hx HS. destruct d; simpl.
  - right. destruct Hs as [(Hn & -> & ->)|(Hb & Hlo & Hhi)].
    + replace (x <? big) with true by (symmetry; apply Nat.ltb_lt; lia).
      assert (Hy : (if 0 <? x then x else 0) = x) by (destruct (Nat.ltb_spec 0 x); lia). rewrite Hy.
      split; [|split].
      * intros y Hy'. apply HS in Hy'. destruct Hy' as [Hy'|[_ ->]]; [exfalso; eapply Hn; eauto | lia].
      * apply HS. auto.
      * apply HS. auto.
    + split; [|split].
      * intros y Hy. apply HS in Hy.
        destruct (Nat.ltb_spec x lo); destruct (Nat.ltb_spec hi x);
          destruct Hy as [Hy|[_ ->]]; try (specialize (Hb y Hy)); lia.
      * apply HS. destruct (Nat.ltb_spec x lo); auto.
      * apply HS. destruct (Nat.ltb_spec hi x); auto.
  - destruct Hs as [(Hn & -> & ->)|(Hb & Hlo & Hhi)].
    + left. split; [|auto]. intros y Hy. apply HS in Hy. destruct Hy as [Hy|[Hc _]]; [eapply Hn; eauto | discriminate].
    + right. split; [|split]; [|apply HS; auto | apply HS; auto].
      intros y Hy. apply HS in Hy. destruct Hy as [Hy|[Hc _]]; [auto | discriminate].
Qed.

Lemma borders_loop_spec (width height : nat) (all : list pixel) (ps : list pixel) :
  0 < width -> length all = height * width ->
  forall row col ws we hs he i,
  i = row * width + col -> col < width ->
  (forall j, nth_error ps j = nth_error all (i + j)) ->
  seen (fun c => exists r, dark_at width all r c /\ r * width + c < i) width ws we ->
  seen (fun r => exists c, dark_at width all r c /\ r * width + c < i) height hs he ->
  exists ws' hs' we' he',
    borders_loop width ps row col ws we hs he = (ws', hs', we', he') /\
    seen (fun c => exists r, dark_at width all r c) width ws' we' /\
    seen (fun r => exists c, dark_at width all r c) height hs' he'.
Proof.
  intros Hw Hlen. induction ps as [|p ps IH]; intros row col ws we hs he i Hi Hcol Hn Hsw Hsh.
  - exists ws, hs, we, he. cbn [borders_loop]. split; [reflexivity|].
    assert (Hall : forall r c, dark_at width all r c -> r * width + c < i).
    { intros r c (_ & q & Hq & _). assert (Hlt : r * width + c < length all) by (apply nth_error_Some; congruence).
      specialize (Hn 0). simpl in Hn. rewrite Nat.add_0_r in Hn. symmetry in Hn. apply nth_error_None in Hn. lia. }
    split.
    + destruct Hsw as [(H1 & H2)|(H1 & H2 & H3)].
      * left. split; [|exact H2]. intros c (r & Hd). apply (H1 c). eauto.
      * right. split; [|split].
        -- intros c (r & Hd). apply H1. eauto.
        -- destruct H2 as (r & Hd & _). eauto.
        -- destruct H3 as (r & Hd & _). eauto.
    + destruct Hsh as [(H1 & H2)|(H1 & H2 & H3)].
      * left. split; [|exact H2]. intros c (r & Hd). apply (H1 c). eauto.
      * right. split; [|split].
        -- intros c (r & Hd). apply H1. eauto.
        -- destruct H2 as (r & Hd & _). eauto.
        -- destruct H3 as (r & Hd & _). eauto.
  - assert (Hp : nth_error all i = Some p) by (specialize (Hn 0); rewrite Nat.add_0_r in Hn; symmetry; exact Hn).
    assert (Hlt : i < length all) by (apply nth_error_Some; congruence).
    assert (Hrow : row < height) by nia.
    assert (Hchar : forall r c, c < width -> (r * width + c < S i <-> (r * width + c < i \/ (r = row /\ c = col)))).
    { intros r c Hc. split.
      - intro H. destruct (Nat.eq_dec (r * width + c) i) as [He|He]; [|left; lia]. right.
        rewrite Hi in He. assert (r = row) by nia. subst r. split; [reflexivity | lia].
      - intros [H|[-> ->]]; lia. }
    assert (Hdk : Qltb (luma p) 128 = true <-> dark_at width all row col).
    { rewrite Qltb_true. unfold dark_at. rewrite <- Hi, Hp. split.
      - intro H. split; [exact Hcol|]. exists p. rewrite <- luma_brightness. auto.
      - intros [_ (q & Hq & H)]. injection Hq as <-. rewrite luma_brightness. exact H. }
    set (d := Qltb (luma p) 128) in *.
    assert (Sw : seen (fun c => exists r, dark_at width all r c /\ r * width + c < S i) width
                   (if d && (col <? ws) then col else ws) (if d && (we <? col) then col else we)).
    { eapply seen_step; [exact Hsw | exact Hcol|]. intro c. split.
      - intros (r & Hd & H). assert (Hc : c < width) by apply Hd. apply (Hchar r c Hc) in H.
        destruct H as [H|[-> ->]]; [left; eauto|]. right. split; [now apply Hdk | reflexivity].
      - intros [(r & Hd & H)|[Hd ->]]; [exists r; split; [exact Hd | lia]|].
        exists row. split; [now apply Hdk | lia]. }
    assert (Sh : seen (fun r => exists c, dark_at width all r c /\ r * width + c < S i) height
                   (if d && (row <? hs) then row else hs) (if d && (he <? row) then row else he)).
    { eapply seen_step; [exact Hsh | exact Hrow|]. intro r. split.
      - intros (c & Hd & H). assert (Hc : c < width) by apply Hd. apply (Hchar r c Hc) in H.
        destruct H as [H|[-> ->]]; [left; eauto|]. right. split; [now apply Hdk | reflexivity].
      - intros [(c & Hd & H)|[Hd ->]]; [exists c; split; [exact Hd | lia]|].
        exists col. split; [now apply Hdk | lia]. }
    assert (Hn' : forall j, nth_error ps j = nth_error all (S i + j)).
    { intro j. replace (S i + j) with (i + S j) by lia. exact (Hn (S j)). }
    cbn [borders_loop]. fold d.
    destruct (Nat.leb_spec width (S col)) as [Hge|Hlt'].
    + apply (IH (S row) 0 _ _ _ _ (S i)); auto. simpl. nia.
    + apply (IH row (S col) _ _ _ _ (S i)); auto. lia.
Qed.
