(** DSATUR: the colouring is the greedy colouring along a maximal-saturation order, and is optimal on
    bipartite graphs (C51, C52). *)
From Verif Require Import Base Dsatur_Model Dsatur_Proofs.

(** ** Specification *)
Definition adjacentb (M : matrix) (i j : nat) : bool := negb (Z.eqb (entry M i j) 0).

(** number of distinct colours met by [u] among the vertices of [pre] *)
Definition saturation (M : matrix) (c : nat -> nat) (pre : list nat) (u : nat) : nat :=
  length (nodup Nat.eq_dec (map c (filter (adjacentb M u) pre))).

Definition row_sum (M : matrix) (i : nat) : Z := fold_right Z.add 0%Z (nth i M []).

Definition nonneg (M : matrix) : Prop := Forall (Forall (fun w => (0 <= w)%Z)) M.

(** [c v] is the least positive colour not met among the already coloured vertices [pre] *)
Definition least_free (M : matrix) (c : nat -> nat) (pre : list nat) (v : nat) : Prop :=
  1 <= c v /\ (forall j, In j pre -> adjacent M v j -> c j <> c v) /\
  (forall c', 1 <= c' < c v -> exists j, In j pre /\ adjacent M v j /\ c j = c').

(** [v] is of maximal saturation among the vertices outside [pre], ties broken by the row sum *)
Definition most_saturated (M : matrix) (c : nat -> nat) (pre : list nat) (v : nat) : Prop :=
  forall u, u < length M -> ~ In u pre ->
    saturation M c pre u < saturation M c pre v \/
    (saturation M c pre u = saturation M c pre v /\ (row_sum M u <= row_sum M v)%Z).

Definition dsatur_order (M : matrix) (colors ord : list nat) : Prop :=
  Permutation ord (seq 0 (length M)) /\
  forall pre v post, ord = pre ++ v :: post ->
    least_free M (fun i => nth i colors 0) pre v /\
    most_saturated M (fun i => nth i colors 0) pre v.

Definition bipartite (M : matrix) : Prop :=
  exists side : nat -> bool, forall i j, adjacent M i j -> side i <> side j.

(** ** Proofs: generic *)
Lemma adjacentb_true M i j : adjacentb M i j = true <-> adjacent M i j.
Proof. unfold adjacentb, adjacent. rewrite negb_true_iff, Z.eqb_neq. reflexivity. Qed.

Lemma nodup_length_ext (l l' : list nat) : (forall x, In x l <-> In x l') ->
  length (nodup Nat.eq_dec l) = length (nodup Nat.eq_dec l').
Proof.
  intros H. apply Permutation_length, NoDup_Permutation; try apply NoDup_nodup.
  intros x. rewrite !nodup_In. apply H.
Qed.

Lemma nodup_length_cons (l : list nat) x :
  length (nodup Nat.eq_dec (x :: l)) = length (nodup Nat.eq_dec l) + (if in_dec Nat.eq_dec x l then 0 else 1).
Proof. simpl. destruct (in_dec Nat.eq_dec x l); simpl; lia. Qed.

Lemma saturation_ext M c c' pre u : (forall i, In i pre -> c i = c' i) ->
  saturation M c pre u = saturation M c' pre u.
Proof.
  intros H. unfold saturation. f_equal. f_equal. apply map_ext_in. intros i Hi.
  apply filter_In in Hi as [Hi _]. auto.
Qed.

Lemma saturation_snoc M c pre v u : saturation M c (pre ++ [v]) u =
  saturation M c pre u +
  (if adjacentb M u v then if in_dec Nat.eq_dec (c v) (map c (filter (adjacentb M u) pre)) then 0 else 1 else 0).
Proof.
  unfold saturation. rewrite filter_app, map_app. simpl.
  destruct (adjacentb M u v) eqn:E; simpl map.
  - rewrite <- nodup_length_cons. apply nodup_length_ext. intros x. rewrite in_app_iff. simpl. tauto.
  - rewrite app_nil_r. lia.
Qed.

Lemma row_sum_degree_sum M i : degree_sum M i = row_sum M i.
Proof. unfold degree_sum, row_sum. apply fold_symmetric; intros; lia. Qed.

Lemma row_sum_nonneg M i : nonneg M -> (0 <= row_sum M i)%Z.
Proof.
  intros H. unfold row_sum. destruct (nth_in_or_default i M []) as [Hin|E].
  - unfold nonneg in H. rewrite Forall_forall in H. specialize (H _ Hin).
    clear Hin. revert H. generalize (nth i M []). intros l H. induction H; simpl; lia.
  - rewrite E. simpl. lia.
Qed.

(** ** The run *)
Section Run.
Variable iter : list nat -> list nat.
Hypothesis Hiter : forall l, Permutation (iter l) l.
Variable M : matrix.
Hypothesis Hsq : square M.
Hypothesis Hund : undirected M.
Hypothesis Hpos : nonneg M.

Let n := length M.

Lemma max_fold l : forall acc,
  let r := fold_left (fun acc i => if (snd acc <? degree_sum M i)%Z then (i, degree_sum M i) else acc) l acc in
  (snd acc <= snd r)%Z /\ (forall i, In i l -> (degree_sum M i <= snd r)%Z) /\
  (r = acc \/ In (fst r) l /\ snd r = degree_sum M (fst r)).
Proof.
  induction l as [|x t IH]; intros acc; simpl; [split; [lia|]; split; [intros i []|auto]|].
  specialize (IH (if (snd acc <? degree_sum M x)%Z then (x, degree_sum M x) else acc)). simpl in IH.
  destruct IH as [H1 [H2 H3]].
  destruct (Z.ltb_spec (snd acc) (degree_sum M x)) as [Hlt|Hge]; simpl in *.
  - split; [lia|]. split; [intros i [<-|Hi]; auto|].
    right. destruct H3 as [->|[Ha Hb]]; simpl; auto.
  - split; [lia|]. split; [intros i [<-|Hi]; [lia|auto]|].
    destruct H3 as [->|[Ha Hb]]; simpl; auto.
Qed.

Lemma max_degree_vertex_max u : u < n -> (row_sum M u <= row_sum M (max_degree_vertex M))%Z.
Proof.
  intros Hu. unfold max_degree_vertex. pose proof (max_fold (seq 0 (length M)) (0, 0%Z)) as H.
  cbv zeta in H. destruct H as [H1 [H2 H3]].
  specialize (H2 u ltac:(apply in_seq; unfold n in Hu; lia)). rewrite row_sum_degree_sum in H2.
  destruct H3 as [E|[_ E]].
  - rewrite E in *. simpl in *. pose proof (row_sum_nonneg M 0 Hpos). lia.
  - rewrite E, row_sum_degree_sum in H2. exact H2.
Qed.

Lemma choose_most s v : choose iter M s = Ok v ->
  forall u, In u (uncolored s) ->
   nth u (satur s) 0 < nth v (satur s) 0 \/
   (nth u (satur s) 0 = nth v (satur s) 0 /\ (row_sum M u <= row_sum M v)%Z).
Proof.
  intros Ev u Hu.
  assert (Hne : uncolored s <> []) by (intro Hc; rewrite Hc in Hu; destruct Hu).
  destruct (choose_spec iter Hiter M s Hne) as [v' [Ev' [Hv' Hm]]].
  rewrite Ev in Ev'. injection Ev' as <-. specialize (Hm u Hu).
  destruct (Nat.eq_dec (nth u (satur s) 0) (nth v (satur s) 0)) as [E|E]; [right|left; lia]. split; auto.
  (* both are in the list of maxima *)
  assert (Hin : In v (max_satur_list iter s)).
  { unfold choose in Ev. destruct (max_satur_list iter s) as [|v0 t]; [discriminate|].
    destruct (1 <? length (v0 :: t)); [|injection Ev as <-; left; auto].
    apply Ok_inj in Ev.
    destruct (max_degree_fold M (v0 :: t) (v0, (-1)%Z)) as [H|H]; rewrite Ev in H; [|exact H].
    cbn [fst] in H. subst v0. left; auto. }
  assert (Hin' : In u (max_satur_list iter s)).
  { unfold max_satur_list in *. apply filter_In in Hin as [_ Hm']. apply filter_In. split.
    - eapply Permutation_in; [symmetry; apply Hiter|exact Hu].
    - rewrite E. exact Hm'. }
  unfold choose in Ev. destruct (max_satur_list iter s) as [|v0 t]; [discriminate|].
  destruct (1 <? length (v0 :: t)) eqn:El.
  - apply Ok_inj in Ev. pose proof (max_fold (v0 :: t) (v0, (-1)%Z)) as H. cbv zeta in H.
    destruct H as [_ [H2 H3]]. rewrite Ev in H3. specialize (H2 u Hin').
    rewrite row_sum_degree_sum in H2. destruct H3 as [H3|[_ H3]].
    + rewrite H3 in H2. simpl in H2. pose proof (row_sum_nonneg M u Hpos). lia.
    + rewrite H3, row_sum_degree_sum in H2. exact H2.
  - injection Ev as <-. apply Nat.ltb_ge in El. destruct t; simpl in El; [|lia].
    destruct Hin' as [->|[]]. lia.
Qed.

(** ghost order *)
Record tinv (s : st) (ord : list nat) : Prop := mkT {
  t_inv : inv M s;
  t_nodup : NoDup ord;
  t_ord : forall v, In v ord <-> v < n /\ nth v (coloring s) 0 <> 0;
  t_slen : length (satur s) = n;
  t_sat : forall u, u < n -> nth u (satur s) 0 = saturation M (fun i => nth i (coloring s) 0) ord u;
  t_run : forall pre v post, ord = pre ++ v :: post ->
     least_free M (fun i => nth i (coloring s) 0) pre v /\
     most_saturated M (fun i => nth i (coloring s) 0) pre v
}.

Lemma fold_incr_if (f : nat -> bool) l : forall sat, NoDup l ->
  let r := fold_left (fun sat u => if f u then incr sat u else sat) l sat in
  length r = length sat /\
  forall u, u < length sat -> nth u r 0 = nth u sat 0 + (if in_dec Nat.eq_dec u l then if f u then 1 else 0 else 0).
Proof.
  induction l as [|x t IH]; intros sat Hnd; simpl; [split; auto|].
  inversion Hnd as [|a b Hx Ht]; subst.
  specialize (IH (if f x then incr sat x else sat) Ht). simpl in IH. destruct IH as [IH1 IH2].
  assert (Hl : length (if f x then incr sat x else sat) = length sat).
  { destruct (f x); auto. unfold incr. apply upd_length. }
  split; [lia|]. intros u Hu. rewrite Hl in IH2. rewrite (IH2 u Hu).
  destruct (Nat.eq_dec x u) as [->|Hxu].
  - destruct (in_dec Nat.eq_dec u t); [contradiction|].
    destruct (f u); [|lia]. unfold incr. rewrite upd_nth_eq by lia. lia.
  - destruct (f x); [unfold incr; rewrite upd_nth_neq by lia|];
    destruct (in_dec Nat.eq_dec u t); lia.
Qed.

Lemma neighbors_nodup v : NoDup (neighbors M v).
Proof. unfold neighbors. apply NoDup_filter, seq_NoDup. Qed.

Lemma adjacent_lt i j : adjacent M i j -> i < n /\ j < n.
Proof.
  assert (H : forall i j, adjacent M i j -> i < n).
  { clear. intros i j H. unfold adjacent, entry in H. destruct (le_lt_dec n i) as [Hle|]; auto.
    exfalso. apply H. rewrite (nth_overflow M) by exact Hle. destruct j; auto. }
  intros Ha. split; [eapply H; eauto|]. eapply H. apply Hund. exact Ha.
Qed.

Lemma most_saturated_ext c c' pre v : (forall i, In i pre -> c i = c' i) ->
  most_saturated M c pre v -> most_saturated M c' pre v.
Proof.
  intros H Hm u Hu Hn. specialize (Hm u Hu Hn). rewrite <- !(saturation_ext M c c' pre) by exact H. exact Hm.
Qed.

Lemma least_free_ext c c' pre v : (forall i, In i pre -> c i = c' i) -> c v = c' v ->
  least_free M c pre v -> least_free M c' pre v.
Proof.
  intros H Hv [H1 [H2 H3]]. split; [lia|]. split.
  - intros j Hj Ha. rewrite <- (H j Hj), <- Hv. auto.
  - intros x Hx. rewrite <- Hv in Hx. destruct (H3 x Hx) as [j [Hj [Ha E]]].
    exists j. rewrite <- (H j Hj). auto.
Qed.

Lemma snoc_split {A} (l pre post : list A) x v : l ++ [x] = pre ++ v :: post ->
  (post = [] /\ l = pre /\ x = v) \/ exists post', post = post' ++ [x] /\ l = pre ++ v :: post'.
Proof.
  destruct post as [|p q] using rev_ind; intros H.
  - apply app_inj_tail in H as [-> ->]. left; auto.
  - right. exists q. rewrite app_comm_cons, app_assoc in H. apply app_inj_tail in H as [-> ->]. auto.
Qed.

Lemma init_tinv : tinv (init_state M) [max_degree_vertex M].
Proof.
  pose proof (max_degree_vertex_lt M Hsq) as Hv.
  pose proof (init_inv M Hsq) as Hi.
  unfold init_state in *. set (v := max_degree_vertex M) in *.
  assert (Hcol : forall i, nth i (upd (repeat 0 (length M)) v 1) 0 = if v =? i then 1 else 0).
  { intros i. rewrite upd_nth, repeat_length. rewrite (proj2 (Nat.ltb_lt v _) Hv), andb_true_r.
    destruct (v =? i); auto. apply nth_repeat0. }
  pose proof (fold_incr_if (fun _ => true) (neighbors M v) (repeat 0 (length M)) (neighbors_nodup v)) as Hf.
  cbv zeta in Hf. cbn beta iota in Hf. destruct Hf as [Hf1 Hf2]. rewrite repeat_length in *.
  constructor; auto; cbn [coloring satur].
  - constructor; [simpl; tauto|constructor].
  - intros u. rewrite Hcol. simpl. destruct (Nat.eqb_spec v u); split; try tauto; try lia.
  - intros u Hu. change (fun sat u => incr sat u) with incr in Hf2.
    rewrite (Hf2 u Hu), nth_repeat0. change [v] with ([] ++ [v]). rewrite saturation_snoc. simpl filter. simpl map.
    unfold saturation at 1. simpl. 
    destruct (in_dec Nat.eq_dec u (neighbors M v)) as [Hin|Hin]; destruct (adjacentb M u v) eqn:Ea; auto.
    + exfalso. apply (neighbors_spec M Hsq) in Hin; auto. destruct Hin as [_ Ha]. apply Hund in Ha.
      apply adjacentb_true in Ha. congruence.
    + exfalso. apply Hin. apply (neighbors_spec M Hsq); auto. split; auto. apply Hund, adjacentb_true; auto.
  - intros pre x post H. destruct pre as [|y pre]; [|destruct pre; discriminate].
    simpl in H. injection H as <- <-. split.
    + split; [rewrite Hcol, Nat.eqb_refl; lia|]. split; [intros j []|].
      intros c'. rewrite Hcol, Nat.eqb_refl. lia.
    + intros u Hu _. right. split; [reflexivity|]. apply max_degree_vertex_max. exact Hu.
Qed.

Lemma pick_color_least col nb k c k' : pick_color col nb k = (c, k') ->
  forall c', 1 <= c' < c -> exists j, In j nb /\ nth j col 0 = c'.
Proof.
  unfold pick_color. intros H c' Hc'.
  pose proof (find_seq_spec M (fun c => amount_color col nb c =? 0) k 1) as Hf.
  assert (Hz : (amount_color col nb c' =? 0) = false).
  { destruct (find _ (seq 1 k)) as [c0|]; injection H as <- <-.
    - destruct Hf as [_ [_ Hf]]. apply Hf. lia.
    - apply Hf. lia. }
  apply Nat.eqb_neq in Hz.
  destruct (In_dec Nat.eq_dec c' (map (fun i => nth i col 0) nb)) as [Hin|Hin].
  - apply in_map_iff in Hin as [j [E Hj]]. exists j; auto.
  - exfalso. apply Hz, amount_zero. intros i Hi E. apply Hin, in_map_iff. exists i; auto.
Qed.

Lemma filter_one (f : nat -> bool) l v : NoDup l -> In v l -> f v = true ->
  (length (filter f l) = 1 <-> forall i, In i l -> i <> v -> f i = false).
Proof.
  intros Hnd Hv Hf.
  assert (Hi : In v (filter f l)) by (apply filter_In; auto).
  assert (Hn : NoDup (filter f l)) by (apply NoDup_filter; auto).
  split.
  - intros Hl i Hi' Hne. destruct (f i) eqn:E; auto. exfalso.
    assert (Hi2 : In i (filter f l)) by (apply filter_In; auto).
    destruct (filter f l) as [|a [|b t]]; simpl in *; try lia.
  - intros H. assert (Hall : forall i, In i (filter f l) -> i = v).
    { intros i Hin. apply filter_In in Hin as [Hin Ht]. destruct (Nat.eq_dec i v); auto.
      rewrite (H i) in Ht; auto. discriminate. }
    destruct (filter f l) as [|a [|b t]]; simpl in *; [tauto|auto|exfalso].
    pose proof (Hall a (or_introl eq_refl)). pose proof (Hall b (or_intror (or_introl eq_refl))). subst.
    inversion Hn as [|x y Hx]; subst. apply Hx. simpl; auto.
Qed.

Lemma step_tinv s ord s' : tinv s ord -> uncolored s <> [] -> step iter M s = Ok s' ->
  exists v, tinv s' (ord ++ [v]).
Proof.
  intros [Hinv Hnd Hord Hsl Hsat Hrun] Hne Es.
  destruct (step_inv iter Hiter M Hsq Hund s Hinv Hne) as [s2 [Es2 [Hinv' _]]].
  rewrite Es in Es2. injection Es2 as <-.
  unfold step in Es.
  destruct (choose_spec iter Hiter M s Hne) as [v [Ev [Hv _]]].
  pose proof (choose_most s v Ev) as Hmost.
  rewrite Ev in Es. cbn [bind] in Es.
  destruct (pick_color (coloring s) (neighbors M v) (counter s)) as [c k] eqn:Ep.
  injection Es as <-. exists v.
  destruct Hinv as [Hlen Hndu Hunc Hcnt Hle Hused Hdeg Hprop].
  pose proof (proj1 (Hunc v) Hv) as [Hvn Hv0]. change (v < n) in Hvn.
  destruct (pick_color_spec M _ _ _ _ _ Ep) as [Hc1 [Hck [Hcn Hcase]]].
  { intros i Hi. apply (neighbors_spec M Hsq) in Hi; auto. apply Hle. tauto. }
  pose proof (pick_color_least _ _ _ _ _ Ep) as Hleast.
  assert (Hcol : forall i, nth i (upd (coloring s) v c) 0 = if v =? i then c else nth i (coloring s) 0).
  { intros i. rewrite upd_nth, Hlen, (proj2 (Nat.ltb_lt v (length M)) Hvn), andb_true_r. reflexivity. }
  assert (Hvo : ~ In v ord) by (rewrite Hord; lia).
  assert (Hsame : forall i, In i ord -> nth i (coloring s) 0 = nth i (upd (coloring s) v c) 0).
  { intros i Hi. rewrite Hcol. destruct (Nat.eqb_spec v i) as [<-|]; tauto. }
  constructor; auto; cbn [coloring satur].
  - apply NoDup_app_snoc; auto.
  - intros u. rewrite in_app_iff, Hord, Hcol. simpl. destruct (Nat.eqb_spec v u) as [<-|]; [|intuition lia].
    split; intros; [split; [exact Hvn|lia]|auto].
  - pose proof (fold_incr_if (fun u => amount_color (upd (coloring s) v c) (neighbors M u)
       (nth v (upd (coloring s) v c) 0) =? 1) (neighbors M v) (satur s) (neighbors_nodup v)) as Hf.
    cbv zeta in Hf. destruct Hf as [Hf1 _]. rewrite Hf1. exact Hsl.
  - intros u Hu.
    pose proof (fold_incr_if (fun u => amount_color (upd (coloring s) v c) (neighbors M u)
       (nth v (upd (coloring s) v c) 0) =? 1) (neighbors M v) (satur s) (neighbors_nodup v)) as Hf.
    cbv zeta in Hf. destruct Hf as [_ Hf2]. rewrite Hsl in Hf2. rewrite (Hf2 u Hu). clear Hf2.
    rewrite saturation_snoc, (Hsat u Hu).
    rewrite (saturation_ext M _ (fun i => nth i (upd (coloring s) v c) 0) ord u Hsame). f_equal.
    rewrite Hcol, Nat.eqb_refl.
    destruct (in_dec Nat.eq_dec u (neighbors M v)) as [Hin|Hin].
    + apply (neighbors_spec M Hsq) in Hin; auto. destruct Hin as [_ Ha].
      assert (Ha' : adjacent M u v) by (apply Hund; auto).
      rewrite (proj2 (adjacentb_true M u v) Ha').
      assert (Hvu : In v (neighbors M u)) by (apply (neighbors_spec M Hsq); auto).
      pose proof (filter_one (fun i => nth i (upd (coloring s) v c) 0 =? c) (neighbors M u) v
         (neighbors_nodup u) Hvu ltac:(cbv beta; rewrite Hcol, Nat.eqb_refl; apply Nat.eqb_refl)) as Hone.
      unfold amount_color.
      destruct (in_dec Nat.eq_dec c _) as [Hi|Hi].
      * apply in_map_iff in Hi as [j [Ej Hj]]. apply filter_In in Hj as [Hj Haj]. apply adjacentb_true in Haj.
        destruct (Nat.eqb_spec (length (filter (fun i => nth i (upd (coloring s) v c) 0 =? c) (neighbors M u))) 1) as [E1|]; auto.
        exfalso. assert (j <> v) by (intros ->; tauto).
        assert (Hf : (nth j (upd (coloring s) v c) 0 =? c) = false).
        { apply (proj1 Hone E1 j); auto. apply (neighbors_spec M Hsq); auto. split; auto. apply Hord in Hj; tauto. }
        apply Nat.eqb_neq in Hf. auto.
      * rewrite (proj2 (Nat.eqb_eq _ 1)); auto. apply Hone. intros i Hi' Hne'.
        apply Nat.eqb_neq. intro Ei. apply Hi. apply in_map_iff. exists i. split; auto.
        apply (neighbors_spec M Hsq) in Hi'; auto. apply filter_In. split; [|apply adjacentb_true; tauto].
        apply Hord. split; [tauto|]. rewrite Hcol in Ei. destruct (Nat.eqb_spec v i); [congruence|lia].
    + destruct (adjacentb M u v) eqn:Ea; auto. exfalso. apply Hin. apply (neighbors_spec M Hsq); auto.
      split; auto. apply Hund, adjacentb_true; auto.
  - intros pre x post Hs. apply snoc_split in Hs as [[-> [<- <-]]|[post' [-> Hs]]].
    + split.
      * split; [rewrite Hcol, Nat.eqb_refl; lia|]. rewrite Hcol, Nat.eqb_refl. split.
        -- intros j Hj Ha. rewrite <- (Hsame j Hj). apply Hcn. apply (neighbors_spec M Hsq); auto.
           split; auto. apply Hord in Hj. tauto.
        -- intros c' Hc'. destruct (Hleast c' Hc') as [j [Hj Ej]]. apply (neighbors_spec M Hsq) in Hj; auto.
           destruct Hj as [Hjn Ha]. assert (Hjo : In j ord) by (apply Hord; split; [exact Hjn|lia]).
           exists j. rewrite <- (Hsame j Hjo). auto.
      * eapply most_saturated_ext; [exact Hsame|]. intros u Hu Hn'.
        rewrite <- !Hsat by assumption. apply Hmost. apply Hunc. split; auto.
        destruct (Nat.eq_dec (nth u (coloring s) 0) 0); auto. exfalso. apply Hn', Hord. auto.
    + subst ord. destruct (Hrun pre x post' eq_refl) as [H1 H2].
      assert (Hp : forall i, In i pre -> nth i (coloring s) 0 = nth i (upd (coloring s) v c) 0).
      { intros i Hi. apply Hsame. apply in_app_iff; auto. }
      split; [|apply (most_saturated_ext (fun i => nth i (coloring s) 0)); [exact Hp|exact H2]].
      apply (least_free_ext (fun i => nth i (coloring s) 0)); [exact Hp| |exact H1]. apply Hsame. apply in_app_iff; right; left; auto.
Qed.

Lemma loop_tinv fuel : forall s ord s', tinv s ord -> loop iter fuel M s = Ok s' ->
  exists ord', tinv s' ord' /\ uncolored s' = [].
Proof.
  induction fuel as [|f IH]; intros s ord s' Ht E; cbn [loop] in E.
  - destruct (uncolored s) eqn:Eu; [|discriminate]. injection E as <-. exists ord; auto.
  - destruct (uncolored s) as [|u t] eqn:Eu; [injection E as <-; exists ord; auto|].
    destruct (step iter M s) as [s1|] eqn:E1; [|discriminate]. cbn [bind] in E.
    destruct (step_tinv s ord s1 Ht ltac:(congruence) E1) as [v Hv]. eapply IH; eauto.
Qed.

Lemma dsatur_has_order : exists colors ord, dsatur iter M = Ok colors /\ dsatur_order M colors ord.
Proof.
  rewrite dsatur_square by exact Hsq.
  destruct (loop_inv iter Hiter M Hsq Hund (length M) (init_state M) (init_inv M Hsq)) as [s [E [Hi _]]].
  { unfold init_state. cbn [uncolored].
    pose proof (remove_length_le Nat.eq_dec (seq 0 (length M)) (max_degree_vertex M)) as H.
    rewrite seq_length in H. exact H. }
  rewrite E. cbn [bind].
  destruct (loop_tinv _ _ _ _ init_tinv E) as [ord [[Hinv Hnd Hord _ _ Hrun] Hu]].
  exists (coloring s), ord. split; auto. split; auto.
  apply NoDup_Permutation; [auto|apply seq_NoDup|].
  intros v. rewrite Hord, in_seq. unfold n. split; [lia|]. intros Hv. split; [lia|].
  intro Hc. assert (Hin : In v (uncolored s)) by (apply (inv_unc M s Hinv); split; auto; lia).
  rewrite Hu in Hin. destruct Hin.
Qed.
End Run.

(** ** Bipartite graphs *)
Section Bipartite.
Variable M : matrix.
Hypothesis Hund : undirected M.
Hypothesis Hadj_lt : forall i j, adjacent M i j -> i < length M /\ j < length M.

Definition sided (side : nat -> bool) : Prop := forall i j, adjacent M i j -> side i <> side j.
Definition col_of (b : bool) : nat := if b then 2 else 1.

Lemma saturation_zero c pre u : saturation M c pre u = 0 -> forall j, In j pre -> ~ adjacent M u j.
Proof.
  unfold saturation. intros H j Hj Ha. apply length_zero_iff_nil in H.
  assert (Hin : In (c j) (nodup Nat.eq_dec (map c (filter (adjacentb M u) pre)))).
  { apply nodup_In, in_map. apply filter_In. split; auto. apply adjacentb_true; auto. }
  rewrite H in Hin. destruct Hin.
Qed.

Lemma bipartite_run colors ord : dsatur_order M colors ord -> bipartite M ->
  forall pre post, ord = pre ++ post ->
  exists side, sided side /\ forall i, In i pre -> nth i colors 0 = col_of (side i).
Proof.
  intros [Hperm Hrun] [side0 Hside0]. intros pre. induction pre as [|v pre IH] using rev_ind.
  - intros post _. exists side0. split; [exact Hside0|intros i []].
  - intros post E. rewrite <- app_assoc in E. simpl in E.
    destruct (IH _ E) as [side [Hs Hc]]. destruct (Hrun _ _ _ E) as [[L1 [L2 L3]] Hmost].
    assert (Hnd : NoDup ord) by (eapply Permutation_NoDup; [symmetry; exact Hperm|apply seq_NoDup]).
    assert (Hvp : ~ In v pre).
    { rewrite E in Hnd. apply NoDup_remove_2 in Hnd. rewrite in_app_iff in Hnd. tauto. }
    destruct (saturation M (fun i => nth i colors 0) pre v) as [|k] eqn:Es.
    + (* a new component *)
      assert (Hout : forall u j, ~ In u pre -> In j pre -> ~ adjacent M u j).
      { intros u j Hu Hj Ha. destruct (Hadj_lt u j Ha) as [Hun _].
        destruct (Hmost u Hun Hu) as [H|[H _]]; rewrite Es in H; [lia|].
        eapply saturation_zero; eauto. }
      assert (Hv1 : nth v colors 0 = 1).
      { destruct (Nat.eq_dec (nth v colors 0) 1); auto. destruct (L3 1 ltac:(lia)) as [j [Hj [Ha _]]].
        exfalso. eapply Hout; eauto. }
      exists (fun i => if in_dec Nat.eq_dec i pre then side i else xorb (side i) (side v)). split.
      * intros i j Ha. specialize (Hs i j Ha).
        destruct (in_dec Nat.eq_dec i pre) as [Hi|Hi], (in_dec Nat.eq_dec j pre) as [Hj|Hj]; auto.
        -- exfalso. apply (Hout j i); auto.
        -- exfalso. apply (Hout i j); auto.
        -- destruct (side i), (side j), (side v); simpl; congruence.
      * intros i Hi. apply in_app_iff in Hi. destruct Hi as [Hi|[<-|[]]].
        -- destruct (in_dec Nat.eq_dec i pre); [auto|contradiction].
        -- destruct (in_dec Nat.eq_dec v pre); [contradiction|]. rewrite xorb_nilpotent. exact Hv1.
    + (* some neighbour is coloured: the colour is forced *)
      exists side. split; auto. intros i Hi. apply in_app_iff in Hi. destruct Hi as [Hi|[<-|[]]]; auto.
      assert (Hw : exists w, In w pre /\ adjacent M v w).
      { unfold saturation in Es. destruct (filter (adjacentb M v) pre) as [|w t] eqn:Ef; [simpl in Es; lia|].
        exists w. assert (Hin : In w (filter (adjacentb M v) pre)) by (rewrite Ef; left; auto).
        apply filter_In in Hin as [H1 H2]. apply adjacentb_true in H2. auto. }
      destruct Hw as [w [Hwp Haw]].
      pose proof (Hs v w Haw) as Hsw. pose proof (Hc w Hwp) as Hcw. pose proof (L2 w Hwp Haw) as Hne.
      assert (Hnb : forall j, In j pre -> adjacent M v j -> nth j colors 0 = col_of (negb (side v))).
      { intros j Hj Ha. rewrite (Hc j Hj). f_equal. specialize (Hs v j Ha). destruct (side v), (side j); simpl; congruence. }
      rewrite (Hnb w Hwp Haw) in Hne.
      destruct (side v); simpl in *.
      * (* must be 2 *)
        destruct (le_lt_dec (nth v colors 0) 2) as [H|H]; [lia|].
        destruct (L3 2 ltac:(lia)) as [j [Hj [Ha Ej]]]. rewrite (Hnb j Hj Ha) in Ej. discriminate.
      * destruct (Nat.eq_dec (nth v colors 0) 1) as [H|H]; auto.
        destruct (L3 1 ltac:(lia)) as [j [Hj [Ha Ej]]]. rewrite (Hnb j Hj Ha) in Ej. discriminate.
Qed.
End Bipartite.

Lemma dsatur_bipartite iter M : (forall l, Permutation (iter l) l) -> square M -> undirected M ->
  nonneg M -> bipartite M ->
  exists colors, dsatur iter M = Ok colors /\ length colors = length M /\ proper M colors /\
    Forall (fun c => c = 1 \/ c = 2) colors.
Proof.
  intros Hit Hsq Hund Hpos Hb.
  destruct (dsatur_has_order iter Hit M Hsq Hund Hpos) as [colors [ord [E Hord]]].
  destruct (dsatur_correct iter Hit M Hsq Hund) as [colors' [k [E' [Hl [_ [Hp _]]]]]].
  rewrite E in E'. injection E' as <-.
  exists colors. split; auto. split; auto. split; auto.
  destruct (bipartite_run M Hund (adjacent_lt M Hund) colors ord Hord Hb ord [] ltac:(rewrite app_nil_r; auto))
    as [side [_ Hc]].
  apply Forall_forall. intros c Hin. apply In_nth with (d := 0) in Hin as [i [Hi <-]].
  rewrite (Hc i). { destruct (side i); simpl; auto. }
  destruct Hord as [Hperm _]. eapply Permutation_in; [symmetry; exact Hperm|]. apply in_seq. lia.
Qed.
