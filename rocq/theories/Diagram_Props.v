(** The number of clusters that an ordering diagram shows for a radius
    (optics.py:122-223). *)
From Verif Require Import Base Optics_Model.
From Coq Require Import Lqa.
Open Scope nat_scope.

Section Diagram.
Variable ordering : list Q.
Variable radius : Q.
Definition height (k : nat) : Q := nth k ordering 0%Q.

(** a hill begins: the first bar that reaches the radius *)
Definition rises (k : nat) : Prop := (radius <= height k)%Q /\ forall j, k = S j -> (height j < radius)%Q.
(** the diagram falls from bar [i], is level up to bar [k], all of it at or
    above the radius *)
Definition falls_to (i k : nat) : Prop :=
  S i <= k /\ (height (S i) < height i)%Q /\ (forall j, S i <= j <= k -> (height j == height (S i))%Q) /\ (forall j, i <= j <= k -> (radius <= height j)%Q).
(** ... and grows again at bar [k]: a valley within a hill *)
Definition valley (k : nat) : Prop :=
  exists i j, k = S j /\ falls_to i j /\ (height j < height k)%Q /\ (radius <= height k)%Q.
Definition border (k : nat) : Prop := rises k \/ valley k.
Definition all_equal (n : nat) : Prop := forall i, S i < n -> (height (S i) == height i)%Q.

(** ** the loop *)
Definition Inv (k : nat) (s : scan_st) : Prop :=
  (s_start s = true <-> exists j, k = S j /\ (radius <= height j)%Q) /\
  (s_pick s = true <-> exists i j, k = S j /\ falls_to i j) /\
  (forall j, k = S j -> (radius <= height j)%Q -> s_prev_cluster s = Some (height j)) /\
  s_prev s = match k with 0 => None | S j => Some (height j) end /\
  (s_similar s = true <-> all_equal k) /\
  exists l, (forall b, In b l <-> b < k /\ border b) /\ (forall a b, a < b < length l -> nth a l 0 < nth b l 0) /\
    s_amount s = (1 + Z.of_nat (length l))%Z /\ s_borders s = filter (fun b => negb (b =? 0)) l.

Lemma falls_next j : (radius <= height j)%Q -> (radius <= height (S j))%Q ->
  ((exists i, falls_to i (S j)) <-> (height (S j) < height j)%Q \/ ((exists i, falls_to i j) /\ (height (S j) == height j)%Q)).
Proof.
  intros Rj Rk. split.
  - intros (i & A & B & C & D). destruct (Nat.eq_dec i j) as [-> |Hne]; [left; exact B|]. right. split.
    + exists i. split; [lia|]. split; [exact B|]. split; intros x Hx; [apply C|apply D]; lia.
    + rewrite (C (S j)), (C j) by lia. reflexivity.
  - intros [H|((i & A & B & C & D) & E)].
    + exists j. split; [lia|]. split; [exact H|]. split; intros x Hx.
      * assert (x = S j) by lia. subst x. reflexivity.
      * assert (Hx' : x = j \/ x = S j) by lia. destruct Hx' as [-> | ->]; assumption.
    + exists i. split; [lia|]. split; [exact B|]. split; intros x Hx; (destruct (Nat.eq_dec x (S j)) as [-> |]; [|try apply C; try apply D; lia]).
      * rewrite E. apply C. lia.
      * exact Rk.
Qed.

Lemma ordered_snoc l k : (forall a b, a < b < length l -> nth a l 0 < nth b l 0) -> (forall b, In b l -> b < k) ->
  forall a b, a < b < length (l ++ [k]) -> nth a (l ++ [k]) 0 < nth b (l ++ [k]) 0.
Proof.
  intros H Hk a b (A & B). rewrite app_length in B. cbn in B. rewrite (app_nth1 l [k] 0) by lia.
  destruct (Nat.eq_dec b (length l)) as [-> |Hne].
  - rewrite app_nth2, Nat.sub_diag by lia. apply Hk, nth_In. lia.
  - rewrite app_nth1 by lia. apply H. lia.
Qed.

Lemma Inv_step k s : Inv k s -> Inv (S k) (amount_step radius s k (height k)).
Proof.
  intros (I1 & I2 & I3 & I4 & I5 & l & L1 & L2 & L3 & L4).
  assert (Lk : forall b, In b l -> b < k) by (intros b Hb; apply L1 in Hb; tauto).
  (* the part on the total similarity *)
  assert (Sim : forall x, s_prev x = s_prev s -> s_similar x = s_similar s ->
     ((match s_prev x with None => s_similar x | Some p => if Qeq_bool (height k) p then s_similar x else false end) = true <-> all_equal (S k))).
  { intros x E1 E2. rewrite E1, E2, I4. destruct k as [|j].
    - rewrite I5. split; intros H i Hi; lia.
    - destruct (Qeq_bool (height (S j)) (height j)) eqn:E.
      + apply Qeq_bool_iff in E. rewrite I5. split; intros H i Hi; [|apply H; lia]. destruct (Nat.eq_dec i j) as [-> |]; [exact E|apply H; lia].
      + split; [discriminate|]. intro H. specialize (H j ltac:(lia)). apply Qeq_bool_iff in H. congruence. }
  (* a new border or none *)
  assert (Yes : border k -> (forall b, In b (l ++ [k]) <-> b < S k /\ border b) /\ (forall a b, a < b < length (l ++ [k]) -> nth a (l ++ [k]) 0 < nth b (l ++ [k]) 0) /\
     (s_amount s + 1 = 1 + Z.of_nat (length (l ++ [k])))%Z /\ (if k =? 0 then s_borders s else s_borders s ++ [k]) = filter (fun b => negb (b =? 0)) (l ++ [k])).
  { intro Hb. split; [|split; [apply ordered_snoc; assumption|split]].
    - intro b. rewrite in_app_iff, L1. cbn [In]. split.
      + intros [(H & H')|[<- |[]]]; [split; [lia|exact H']|split; [lia|exact Hb]].
      + intros (H & H'). destruct (Nat.eq_dec b k) as [-> |]; [right; left; reflexivity|left; split; [lia|exact H']].
    - rewrite app_length, L3. cbn [length]. lia.
    - rewrite filter_app, <- L4. cbn [filter]. destruct (Nat.eqb_spec k 0); cbn [negb]; [now rewrite app_nil_r|reflexivity]. }
  assert (No : ~ border k -> forall b, In b l <-> b < S k /\ border b).
  { intros Hb b. rewrite L1. split; intros (H & H'); (split; [|exact H']); [lia|]. destruct (Nat.eq_dec b k) as [-> |]; [contradiction|lia]. }
  unfold amount_step. destruct (Qle_bool radius (height k)) eqn:R.
  - apply Qle_bool_iff in R.
    assert (St : exists j, S k = S j /\ (radius <= height j)%Q) by (exists k; auto).
    assert (Pc : forall j, S k = S j -> (radius <= height j)%Q -> Some (height k) = Some (height j)) by (intros j Ej _; congruence).
    assert (T : true = true <-> exists j, S k = S j /\ (radius <= height j)%Q) by tauto.
    destruct (s_start s) eqn:Es; cbn [negb].
    + destruct (proj1 I1 eq_refl) as (j & -> & Rj). rewrite (I3 j eq_refl Rj).
      assert (NR : ~ rises (S j)) by (intros (_ & H); specialize (H j eq_refl); exact (Qlt_not_le _ _ H Rj)).
      assert (Pk : s_pick s = true <-> exists i, falls_to i j).
      { rewrite I2. split; [intros (i & x & E & F); injection E as ->; eauto|intros (i & F); eauto]. }
      assert (Nk : forall b : bool, (b = true <-> (height (S j) < height j)%Q \/ (s_pick s = true /\ (height (S j) == height j)%Q)) ->
                   (b = true <-> exists i x, S (S j) = S x /\ falls_to i x)).
      { intros b Hb. rewrite Hb, Pk, <- (falls_next j Rj R). split; [intros (i & F); eauto|intros (i & x & E & F); injection E as <-; eauto]. }
      assert (V : border (S j) <-> s_pick s = true /\ (height j < height (S j))%Q).
      { rewrite Pk. split.
        - intros [H|(i & x & E & F & G & _)]; [contradiction|]. injection E as <-. eauto.
        - intros ((i & F) & G). right. exists i, j. auto. }
      destruct (Qltb (height (S j)) (height j) && negb (s_pick s)) eqn:C1; [|destruct (Qltb (height j) (height (S j)) && s_pick s) eqn:C2].
      * apply andb_true_iff in C1 as (C1 & C3). apply Qltb_true in C1. apply negb_true_iff in C3.
        assert (NB : ~ border (S j)) by (rewrite V; intros (H & _); congruence).
        unfold Inv. cbn [s_start s_pick s_prev_cluster s_prev s_similar s_amount s_borders]. rewrite ?Es.
        split; [exact T|]. split; [apply Nk; tauto|].
        split; [exact Pc|]. split; [reflexivity|]. split; [apply (Sim s eq_refl eq_refl)|]. exists l. auto.
      * apply andb_true_iff in C2 as (C2 & C3). apply Qltb_true in C2.
        destruct (Yes (proj2 V (conj C3 C2))) as (Y1 & Y2 & Y3 & Y4).
        unfold Inv. cbn [s_start s_pick s_prev_cluster s_prev s_similar s_amount s_borders]. rewrite ?Es.
        split; [exact T|]. split.
        { apply Nk. split; [discriminate|]. intros [H|(_ & H)]; exfalso; lra. }
        split; [exact Pc|]. split; [reflexivity|]. split; [apply (Sim s eq_refl eq_refl)|]. exists (l ++ [S j]). auto.
      * assert (NB : ~ border (S j)).
        { rewrite V. intros (H & H'). apply Qltb_true in H'. rewrite H, H' in C2. discriminate. }
        unfold Inv. cbn [s_start s_pick s_prev_cluster s_prev s_similar s_amount s_borders]. rewrite ?Es.
        split; [exact T|]. split.
        { apply Nk. split.
          - intro H. rewrite H in C2. rewrite andb_true_r in C2. apply Qltb_false in C2. destruct (Qlt_le_dec (height (S j)) (height j)) as [G|G]; [left; exact G|].
            right. split; [exact H|]. lra.
          - intros [H|(H & _)]; [|exact H]. apply Qltb_true in H. rewrite H in C1. cbn [andb] in C1. apply negb_false_iff in C1. exact C1. }
        split; [exact Pc|]. split; [reflexivity|]. split; [apply (Sim s eq_refl eq_refl)|]. exists l. auto.
    + assert (Out : forall j, k = S j -> (height j < radius)%Q).
      { intros j Ej. destruct (Qlt_le_dec (height j) radius) as [H|H]; [exact H|]. assert (false = true) by (apply I1; eauto). discriminate. }
      assert (B : border k) by (left; split; assumption).
      destruct (Yes B) as (Y1 & Y2 & Y3 & Y4).
      assert (Pf : s_pick s = false).
      { destruct (s_pick s) eqn:E; [|reflexivity]. destruct (proj1 I2 eq_refl) as (i & j & Ej & F1 & _ & _ & F2). specialize (F2 j ltac:(lia)). specialize (Out j Ej). exfalso. lra. }
      unfold Inv. cbn [s_start s_pick s_prev_cluster s_prev s_similar s_amount s_borders].
      split; [exact T|]. split.
      { rewrite Pf. split; [discriminate|]. intros (i & x & E & F1 & F2 & _ & F3). injection E as <-. exfalso.
        destruct k as [|j]; [lia|]. specialize (Out j eq_refl). specialize (F3 j ltac:(lia)). lra. }
      split; [exact Pc|]. split; [reflexivity|]. split; [apply (Sim s eq_refl eq_refl)|]. exists (l ++ [k]). auto.
  - assert (Rf : (height k < radius)%Q).
    { destruct (Qlt_le_dec (height k) radius) as [H|H]; [exact H|]. apply Qle_bool_iff in H. congruence. }
    assert (NB : ~ border k) by (intros [(H & _)|(i & j & _ & _ & _ & H)]; lra).
    unfold Inv. cbn [s_start s_pick s_prev_cluster s_prev s_similar s_amount s_borders].
    split; [split; [discriminate|intros (j & E & H); injection E as <-; exfalso; lra]|].
    split; [split; [discriminate|intros (i & j & E & F1 & _ & _ & F2); injection E as <-; specialize (F2 k ltac:(lia)); exfalso; lra]|].
    split; [intros j E H; injection E as <-; exfalso; lra|]. split; [reflexivity|]. split; [apply (Sim s eq_refl eq_refl)|]. exists l. auto.
Qed.

Lemma Inv_loop l : forall k s, Inv k s -> (forall i, i < length l -> nth i l 0%Q = height (k + i)) -> Inv (k + length l) (amount_loop radius k l s).
Proof.
  induction l as [|d l IH]; intros k s H Hl; cbn [amount_loop length].
  - rewrite Nat.add_0_r. exact H.
  - replace (k + S (length l)) with (S k + length l) by lia. apply IH.
    + specialize (Hl 0 ltac:(cbn; lia)). cbn [nth] in Hl. rewrite Nat.add_0_r in Hl. subst d. apply Inv_step. exact H.
    + intros i Hi. specialize (Hl (S i) ltac:(cbn; lia)). cbn [nth] in Hl. rewrite Hl. f_equal. lia.
Qed.
End Diagram.

(** The number of clusters is one more than the number of borders - the bars
    where a hill of at least the radius begins and the ends of the valleys
    within such hills - or zero if all bars have one height above the radius;
    the borders are reported in ascending order, without a border at the first
    bar. *)
Theorem C213_amount (ordering : list Q) (radius : Q) :
  ordering <> [] ->
  exists amount borders all, extract_cluster_amount ordering radius = Ok (amount, borders) /\
    (forall k, In k all <-> k < length ordering /\ border ordering radius k) /\
    (forall a b, a < b < length all -> nth a all 0 < nth b all 0) /\
    borders = filter (fun k => negb (k =? 0)) all /\
    let level := all_equal ordering (length ordering) /\ (radius < nth 0 ordering 0)%Q in
    (level -> amount = 0%Z) /\ (~ level -> amount = (1 + Z.of_nat (length all))%Z).
Proof.
  intro Hne. set (s0 := mkScan 1 false false true None None []).
  assert (I0 : Inv ordering radius 0 s0).
  { unfold Inv, s0. cbn [s_start s_pick s_prev_cluster s_prev s_similar s_amount s_borders].
    split; [split; [discriminate|intros (j & E & _); discriminate]|]. split; [split; [discriminate|intros (i & j & E & _); discriminate]|].
    split; [intros j E; discriminate|]. split; [reflexivity|]. split; [split; [intros _ i Hi; lia|reflexivity]|].
    exists []. split; [intro b; cbn; split; [tauto|intros (H & _); lia]|]. split; [intros a b H; cbn in H; lia|]. split; reflexivity. }
  pose proof (Inv_loop ordering radius ordering 0 s0 I0 (fun i _ => eq_refl)) as I. cbn [plus] in I.
  unfold extract_cluster_amount. fold s0. set (s := amount_loop radius 0 ordering s0) in *.
  destruct I as (_ & _ & _ & I4 & I5 & l & L1 & L2 & L3 & L4).
  destruct (length ordering) as [|n] eqn:En; [destruct ordering; [contradiction|discriminate]|].
  assert (Lev : all_equal ordering (S n) -> forall i, i <= n -> (height ordering i == nth 0 ordering 0)%Q).
  { intros H. induction i as [|i IH]; intro Hi; [reflexivity|]. rewrite (H i ltac:(lia)). apply IH. lia. }
  rewrite I4. destruct (s_similar s) eqn:Es.
  - pose proof (proj1 I5 eq_refl) as A. specialize (Lev A n (le_n n)).
    do 2 eexists. exists l. split; [reflexivity|]. split; [exact L1|]. split; [exact L2|]. split; [exact L4|]. cbv zeta.
    destruct (Qltb radius (height ordering n)) eqn:E.
    + apply Qltb_true in E. split; [reflexivity|]. intro H. exfalso. apply H. split; [exact A|]. lra.
    + apply Qltb_false in E. split; [intros (_ & H); exfalso; lra|intros _; exact L3].
  - do 2 eexists. exists l. split; [reflexivity|]. split; [exact L1|]. split; [exact L2|]. split; [exact L4|]. cbv zeta.
    split; [intros (H & _); apply I5 in H; discriminate|intros _; exact L3].
Qed.
Print Assumptions C213_amount.
(** A diagram with two hills, the second with a valley: three borders, one of
    them at the first bar, and four clusters. *)
Example C213_example : extract_cluster_amount [5; 4; 1; 1; 6; 3; 3; 7; 1]%Q 2%Q = Ok (4%Z, [4; 7]) /\
  rises [5; 4; 1; 1; 6; 3; 3; 7; 1]%Q 2%Q 0 /\ rises [5; 4; 1; 1; 6; 3; 3; 7; 1]%Q 2%Q 4 /\ valley [5; 4; 1; 1; 6; 3; 3; 7; 1]%Q 2%Q 7.
Proof.
  split; [reflexivity|]. split; [|split].
  - split; [discriminate|intros j H; discriminate].
  - split; [discriminate|]. intros j H. injection H as <-. reflexivity.
  - exists 4, 6. split; [reflexivity|]. split; [|split; [reflexivity|discriminate]]. split; [lia|]. split; [reflexivity|].
    split; intros j Hj; (do 8 (destruct j as [|j]; [try lia; first [reflexivity|discriminate]|])); lia.
Qed.
