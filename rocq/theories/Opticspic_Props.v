(** C238: the picture of the cluster-ordering diagram of OPTICS. *)
From Coq Require Import String.
From Verif Require Import Base Optics_Model Canvas_Model Optics_Proofs Optics_Inst Diagram_Props Opticspic_Model.
Open Scope nat_scope.

(** ** the radius is the one of calculate_connvectivity_radius *)
Lemma bisect_borders_radius o w k : forall lo up b,
  bisect o w k lo up = match bisect_borders o w k lo up b with Ok p => Ok (fst p) | Raise e => Raise e end.
Proof.
  induction k as [|k IH]; intros lo up b; cbn [bisect bisect_borders]; [reflexivity|].
  destruct (extract_cluster_amount o ((lo + up) / 2)%Q) as [[a b']|e]; cbn [bind fst]; [|reflexivity].
  destruct (a =? w)%Z; [reflexivity|]. destruct (a =? 0)%Z; [reflexivity|]. destruct (w <? a)%Z; apply IH.
Qed.

Lemma radius_and_borders_radius o w k :
  connectivity_radius o w k = match radius_and_borders o w k with Ok p => Ok (fst p) | Raise e => Raise e end.
Proof.
  unfold connectivity_radius, radius_and_borders. destruct (list_max o) as [m|e]; cbn [bind]; [|reflexivity].
  destruct (extract_cluster_amount o m) as [[a b]|e]; cbn [bind fst]; [|reflexivity].
  destruct (a <=? w)%Z; [apply bisect_borders_radius|reflexivity].
Qed.

Lemma bisect_borders_found o w k : forall lo up b r b', bisect_borders o w k lo up b = Ok (Some r, b') -> extract_cluster_amount o r = Ok (w, b').
Proof.
  induction k as [|k IH]; intros lo up b r b' H; cbn [bisect_borders] in H; [discriminate|].
  destruct (extract_cluster_amount o ((lo + up) / 2)%Q) as [[a x]|e] eqn:E; cbn [bind] in H; [|discriminate].
  destruct (Z.eqb_spec a w) as [-> |]; [injection H as <- <-; exact E|].
  destruct (a =? 0)%Z; [discriminate|]. destruct (w <? a)%Z; eapply IH; exact H.
Qed.

(** ** specification *)
(** number of borders at or before a position *)
Definition borders_before (borders : list nat) (k : nat) : nat := length (filter (fun b => b <=? k) borders).
Definition increasing (l : list nat) : Prop := forall a b, a < b < length l -> nth a l 0 < nth b l 0.

Lemma increasing_cons b l : increasing (b :: l) -> increasing l /\ forall x, In x l -> b < x.
Proof.
  intro H. split.
  - intros i j Hij. exact (H (S i) (S j) ltac:(cbn [length]; lia)).
  - intros x Hx. apply (In_nth _ _ 0) in Hx as (i & Hi & <-). exact (H 0 (S i) ltac:(cbn [length]; lia)).
Qed.
Lemma increasing_filter f l : increasing l -> increasing (filter f l).
Proof.
  induction l as [|b l IH]; intro H; [exact H|]. destruct (increasing_cons _ _ H) as (H1 & H2). specialize (IH H1). cbn [filter].
  destruct (f b); [|exact IH]. intros i j Hij. destruct j as [|j]; [lia|]. cbn [length] in Hij. destruct i as [|i]; cbn [nth].
  - apply H2. assert (W : In (nth j (filter f l) 0) (filter f l)) by (apply nth_In; lia). apply filter_In in W. tauto.
  - apply IH. lia.
Qed.

Lemma none_before borders k : (forall x, In x borders -> k < x) -> borders_before borders k = 0.
Proof.
  unfold borders_before. induction borders as [|b t IH]; intro H; [reflexivity|]. cbn [filter].
  destruct (Nat.leb_spec b k); [specialize (H b (or_introl eq_refl)); lia|]. apply IH. intros x Hx. apply H. right. exact Hx.
Qed.

Lemma bars_app o l m r c : l <= m <= r -> bars o l r c = bars o l m c ++ bars o m r c.
Proof. intro H. unfold bars. rewrite <- map_app. f_equal. replace (r - l) with ((m - l) + (r - m)) by lia. rewrite seq_app. do 2 f_equal. lia. Qed.

(** the bar at position k when [n] colours are behind it *)
Definition bar_of (o : list Q) (borders : list nat) (k : nat) : bar :=
  mkBar k (nth k o 0%Q) (nth (match borders with [] => 1 | _ => borders_before borders k end) TITLES EmptyString).

Lemma groups_spec o : forall borders index lft current drawn,
  increasing borders -> (forall x, In x borders -> lft < x) -> index + length borders <= length TITLES ->
  exists r, groups o borders index lft current drawn =
    (drawn ++ map (fun k => mkBar k (nth k o 0%Q) (nth (index + borders_before borders k) TITLES EmptyString)) (seq lft (last borders lft - lft)),
     Ok r) /\ fst r = last borders lft /\ snd r = (match borders with [] => current | _ => index + length borders - 1 end).
Proof.
  induction borders as [|b t IH]; intros index lft current drawn Hi Hl Hn; cbn [groups].
  - exists (lft, current). cbn [last]. rewrite Nat.sub_diag. cbn [seq map]. rewrite app_nil_r. auto.
  - destruct (increasing_cons _ _ Hi) as (H1 & H2). specialize (Hl b (or_introl eq_refl)) as Hb. cbn [length] in Hn.
    unfold title_at. rewrite (nth_error_nth' TITLES EmptyString) by lia.
    destruct (IH (S index) b index (drawn ++ bars o lft b (nth index TITLES EmptyString)) H1 H2 ltac:(lia)) as (r & E & F1 & F2).
    exists r. split; [|split].
    + rewrite E. f_equal. rewrite <- app_assoc. f_equal.
      assert (B : b <= last t b).
      { destruct t as [|x t']; [cbn; lia|]. assert (W : In (last (x :: t') b) (x :: t')).
        { rewrite (@app_removelast_last _ (x :: t') b) at 2 by discriminate. apply in_or_app. right. left. reflexivity. }
        specialize (H2 _ W). lia. }
      assert (La : last (b :: t) lft = last t b).
      { destruct t as [|x t']; [reflexivity|]. cbn [last]. clear. revert x. induction t' as [|y t' IH]; intro x; [reflexivity|]. cbn [last]. apply IH. }
      rewrite La. replace (last t b - lft) with ((b - lft) + (last t b - b)) by lia. rewrite seq_app, map_app. f_equal.
      * unfold bars. apply map_ext_in. intros k Hk. apply in_seq in Hk. f_equal. f_equal.
        rewrite none_before; [lia|]. intros x [<- |Hx]; [lia|]. specialize (H2 x Hx). lia.
      * replace (lft + (b - lft)) with b by lia. apply map_ext_in. intros k Hk. apply in_seq in Hk. f_equal. f_equal.
        unfold borders_before. cbn [filter]. destruct (Nat.leb_spec b k); [cbn [length]; lia|lia].
    + rewrite F1. destruct t as [|x t']; [reflexivity|]. cbn [last]. clear. revert x. induction t' as [|y t' IH]; intro x; [reflexivity|]. cbn [last]. apply IH.
    + rewrite F2. destruct t as [|x t']; cbn [length]; lia.
Qed.

Lemma TITLES_distinct : NoDup TITLES.
Proof. unfold TITLES. repeat (constructor; [cbn [In]; intuition discriminate|]). constructor. Qed.

Lemma last_in (l : list nat) d : l <> [] -> In (last l d) l.
Proof. intro H. rewrite (app_removelast_last d H) at 2. apply in_or_app. right. left. reflexivity. Qed.

(** The number of bars of a colour and the borders between them. *)
Lemma before_ordered borders i j : i <= j ->
  borders_before borders i <= borders_before borders j /\
  (borders_before borders i = borders_before borders j <-> forall b, In b borders -> (b <= i <-> b <= j)).
Proof.
  intro H. unfold borders_before. induction borders as [|b t (IH1 & IH2)]; cbn [filter]; [split; [lia|]; split; [intros _ b []|reflexivity]|].
  destruct (Nat.leb_spec b i), (Nat.leb_spec b j); cbn [length]; try lia.
  - split; [lia|]. split.
    + intro E. assert (E' : length (filter (fun b => b <=? i) t) = length (filter (fun b => b <=? j) t)) by lia.
      pose proof (proj1 IH2 E') as W. intros x [<- |Hx]; [lia|apply W; exact Hx].
    + intro W. f_equal. apply IH2. intros x Hx. apply W. right. exact Hx.
  - split; [lia|]. split; [lia|]. intro W. specialize (W b (or_introl eq_refl)). lia.
  - split; [lia|]. rewrite IH2. split; [intros W x [<- |Hx]; [lia|apply W; exact Hx]|intros W x Hx; apply W; right; exact Hx].
Qed.

Lemma same_group borders i j :
  borders_before borders i = borders_before borders j <-> forall b, In b borders -> (b <= i <-> b <= j).
Proof.
  destruct (Nat.le_ge_cases i j) as [H|H]; [apply before_ordered; exact H|].
  destruct (before_ordered borders j i H) as (_ & W). split.
  - intros E b Hb. symmetry. apply W; [symmetry; exact E|exact Hb].
  - intro E. symmetry. apply W. intros b Hb. symmetry. apply E. exact Hb.
Qed.

Lemma nth_title_inj i j : i < length TITLES -> j < length TITLES -> nth i TITLES EmptyString = nth j TITLES EmptyString -> i = j.
Proof. intros Hi Hj E. exact (proj1 (NoDup_nth TITLES EmptyString) TITLES_distinct i j Hi Hj E). Qed.

Lemma before_le borders k : borders_before borders k <= length borders.
Proof. unfold borders_before. induction borders as [|b t IH]; cbn [filter]; [lia|]. destruct (b <=? k); cbn [length]; lia. Qed.

(** what the bars are: each position once, in order, with its distance *)
Definition shows (ordering : list Q) (drawn : list bar) : Prop :=
  map bar_at drawn = seq 0 (length ordering) /\ map bar_height drawn = ordering.
Definition color_at (drawn : list bar) (k : nat) : option string := option_map bar_color (nth_error drawn k).

Lemma heights (o : list Q) : map (fun k => nth k o 0%Q) (seq 0 (length o)) = o.
Proof.
  apply (nth_ext _ _ 0%Q 0%Q); [now rewrite map_length, seq_length|].
  intros n Hn. rewrite map_length, seq_length in Hn.
  rewrite (nth_indep _ 0%Q (nth 0 o 0%Q)) by now rewrite map_length, seq_length.
  rewrite (map_nth (fun k => nth k o 0%Q)). rewrite seq_nth by exact Hn. reflexivity.
Qed.

(** Without an amount of clusters: every reachability distance once, in the
    order of the diagram, all black and no line. *)
Theorem C238_plain (ordering : list Q) :
  exists drawn, show_ordering_diagram ordering None = (drawn, Ok None) /\ shows ordering drawn /\
    forall k, k < length ordering -> color_at drawn k = Some "black"%string.
Proof.
  eexists. split; [reflexivity|]. unfold bars. rewrite Nat.sub_0_r. split; [split|].
  - rewrite map_map. apply map_id.
  - rewrite map_map. apply heights.
  - intros k Hk. unfold color_at. rewrite (map_nth_error (fun k => mkBar k (nth k ordering 0%Q) "black"%string) k (seq 0 (length ordering)) (d := k)).
    + reflexivity.
    + rewrite (nth_error_nth' _ 0) by now rewrite seq_length. now rewrite seq_nth.
Qed.
Print Assumptions C238_plain.

(** With an amount of at most 35 clusters for which a radius exists: every
    distance once, the line at a radius that gives the wanted amount, and two
    bars have one colour exactly when no border of the clusters lies between
    them. *)
Theorem C238_diagram (ordering : list Q) (wanted : Z) (r : Q) :
  ordering <> [] -> (1 <= wanted <= 35)%Z ->
  connectivity_radius ordering wanted 100 = Ok (Some r) ->
  exists borders drawn, extract_cluster_amount ordering r = Ok (wanted, borders) /\
    show_ordering_diagram ordering (Some wanted) = (drawn, Ok (Some (r, wanted))) /\ shows ordering drawn /\
    forall i j, i < length ordering -> j < length ordering ->
      (color_at drawn i = color_at drawn j <-> forall b, In b borders -> (b <= i <-> b <= j)).
Proof.
  intros Hne Hw Hr. rewrite radius_and_borders_radius in Hr.
  destruct (radius_and_borders ordering wanted 100) as [[r' borders]|] eqn:E; [|discriminate]. cbn [fst] in Hr. injection Hr as ->.
  assert (F : extract_cluster_amount ordering r = Ok (wanted, borders)).
  { unfold radius_and_borders in E. destruct (list_max ordering) as [m|]; cbn [bind] in E; [|discriminate].
    destruct (extract_cluster_amount ordering m) as [[a b]|]; cbn [bind] in E; [|discriminate].
    destruct (a <=? wanted)%Z; [|discriminate]. eapply bisect_borders_found. exact E. }
  destruct (C213_amount ordering r Hne) as (a & b & all & F' & A1 & A2 & A3 & A4). rewrite F in F'. injection F' as <- <-.
  cbv zeta in A4. destruct A4 as (A4 & A5).
  assert (Hb : increasing borders) by (subst borders; apply increasing_filter; exact A2).
  assert (Hp : forall x, In x borders -> 0 < x < length ordering).
  { intros x Hx. subst borders. apply filter_In in Hx as (Hx & Hx'). apply A1 in Hx. apply negb_true_iff, Nat.eqb_neq in Hx'. lia. }
  assert (Hl : length borders <= 34).
  { assert (W : wanted = (1 + Z.of_nat (length all))%Z) by (apply A5; intro H; specialize (A4 H); lia).
    assert (V : length borders <= length all).
    { subst borders. clear. induction all as [|x t IH]; cbn [filter]; [lia|]. destruct (negb (x =? 0)); cbn [length]; lia. }
    lia. }
  assert (T : length TITLES = 35) by reflexivity.
  destruct (groups_spec ordering borders 0 0 0 [] Hb (fun x Hx => proj1 (Hp x Hx)) ltac:(lia)) as ((lft & cur) & G & G1 & G2).
  cbn [fst snd] in G1, G2. cbn [app plus] in G.
  set (c := match borders with [] => 1 | _ => length borders end).
  assert (Hc : cur + 1 = c) by (subst c; rewrite G2; destruct borders; cbn [length]; lia).
  set (num := fun k => match borders with [] => 1 | _ => borders_before borders k end).
  assert (Hlast : last borders 0 <= length ordering).
  { destruct borders as [|x t] eqn:Eb; [cbn; lia|]. assert (W : In (last (x :: t) 0) (x :: t)) by (apply last_in; discriminate). apply Hp in W. lia. }
  set (drawn := map (fun k => mkBar k (nth k ordering 0%Q) (nth (num k) TITLES EmptyString)) (seq 0 (length ordering))).
  assert (S : show_ordering_diagram ordering (Some wanted) = (drawn, Ok (Some (r, wanted)))).
  { unfold show_ordering_diagram. rewrite E, G. unfold title_at. rewrite (nth_error_nth' TITLES EmptyString) by (rewrite Hc; subst c; destruct borders; [cbn; lia|lia]).
    f_equal. subst drawn lft. 
    assert (Q : seq 0 (length ordering) = seq 0 (last borders 0) ++ seq (last borders 0) (length ordering - last borders 0)).
    { rewrite <- (Nat.sub_add (last borders 0) (length ordering) Hlast) at 1. rewrite Nat.add_comm. apply seq_app. }
    rewrite Q, map_app, Nat.sub_0_r. f_equal.
    - apply map_ext_in. intros k Hk. apply in_seq in Hk. f_equal. f_equal. unfold num. destruct borders; [cbn in Hk; lia|reflexivity].
    - unfold bars. cbn [plus]. apply map_ext_in. intros k Hk. apply in_seq in Hk. f_equal. f_equal. rewrite Hc. subst c. unfold num.
      destruct borders as [|x t] eqn:Eb; [reflexivity|]. rewrite <- Eb in *. unfold borders_before.
      assert (W : filter (fun b => b <=? k) borders = borders).
      { assert (V : forall y, In y borders -> y <= last borders 0).
        { intros y Hy. apply (In_nth _ _ 0) in Hy as (i & Hi & <-).
          assert (La : last borders 0 = nth (length borders - 1) borders 0).
          { clear -Eb. rewrite Eb. clear Eb. revert x. induction t as [|y t IH]; intro x; [reflexivity|]. change (last (x :: y :: t) 0) with (last (y :: t) 0). rewrite IH. cbn [length]. replace (S (S (length t)) - 1) with (S (S (length t) - 1)) by lia. reflexivity. }
          rewrite La. destruct (Nat.eq_dec i (length borders - 1)) as [-> |]; [lia|]. apply Nat.lt_le_incl, Hb. lia. }
        clear -V Hk. assert (U : forall y, In y borders -> y <= k) by (intros y Hy; specialize (V y Hy); lia). clear -U.
        induction borders as [|y t IH]; [reflexivity|]. cbn [filter]. rewrite (proj2 (Nat.leb_le y k) (U y (or_introl eq_refl))). f_equal. apply IH. intros z Hz. apply U. right. exact Hz. }
      now rewrite W. }
  exists borders, drawn. split; [exact F|]. split; [exact S|]. split; [split|].
  - subst drawn. rewrite map_map. apply map_id.
  - subst drawn. rewrite map_map. apply heights.
  - intros i j Hi Hj.
    assert (Col : forall k, k < length ordering -> color_at drawn k = Some (nth (num k) TITLES EmptyString)).
    { intros k Hk. unfold color_at, drawn. rewrite (map_nth_error (fun k => mkBar k (nth k ordering 0%Q) (nth (num k) TITLES EmptyString)) k (seq 0 (length ordering)) (d := k)); [reflexivity|].
      rewrite (nth_error_nth' _ 0) by now rewrite seq_length. now rewrite seq_nth. }
    rewrite (Col i Hi), (Col j Hj), <- same_group. unfold num.
    destruct borders as [|x t] eqn:Eb; [tauto|]. rewrite <- Eb in *. split.
    + intro H. apply nth_title_inj; [pose proof (before_le borders i); lia|pose proof (before_le borders j); lia|]. congruence.
    + intros ->. reflexivity.
Qed.
Print Assumptions C238_diagram.
Example C238_example : connectivity_radius [2; 1; 8; 2; 1; 18; 2; 1]%Q 3%Z 100 = Ok (Some ((0 + (0 + 18) / 2) / 2))%Q /\
  (exists line, show_ordering_diagram [2; 1; 8; 2; 1; 18; 2; 1]%Q (Some 3%Z) =
  (map (fun '(k, h, c) => mkBar k (inject_Z h) c) [(0, 2%Z, "red"); (1, 1%Z, "red"); (2, 8%Z, "blue"); (3, 2%Z, "blue"); (4, 1%Z, "blue"); (5, 18%Z, "darkgreen"); (6, 2%Z, "darkgreen"); (7, 1%Z, "darkgreen")]%string, Ok (Some (line, 3%Z)))).
Proof. split; [reflexivity|]. eexists. vm_compute. reflexivity. Qed.

(** The diagram cannot be shown for every amount of clusters: when there is no
    radius for it the call fails instead, and so it does for more colours than
    there are. *)
Theorem C238_every_amount_refuted :
  (exists ordering wanted, ordering <> [] /\ (forall x, In x ordering -> (0 < x)%Q) /\ (1 <= wanted <= 35)%Z /\
     snd (show_ordering_diagram ordering (Some wanted)) = Raise TypeError) /\
  (exists ordering wanted r, (forall x, In x ordering -> (0 < x)%Q) /\ connectivity_radius ordering wanted 100 = Ok (Some r) /\
     snd (show_ordering_diagram ordering (Some wanted)) = Raise IndexError).
Proof.
  split.
  - exists [1; 1; 1]%Q, 5%Z. split; [discriminate|]. split; [intros x Hx; cbn in Hx; intuition (subst; reflexivity)|]. split; [lia|vm_compute; reflexivity].
  - exists (concat (repeat [1; 9]%Q 40)), 41%Z. eexists. split; [|split].
    + intros x Hx. apply in_concat in Hx as (l & Hl & Hx). apply repeat_spec in Hl. subst l. cbn in Hx. intuition (subst; reflexivity).
    + vm_compute. reflexivity.
    + vm_compute. reflexivity.
Qed.
Print Assumptions C238_every_amount_refuted.
