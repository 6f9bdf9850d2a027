(** Centre initialisers and reservoir sampling: proofs. *)
From Verif Require Import Base Kmeans_Model Kmeans_Proofs Kmedoids_Model Kmedoids_Proofs Init_Model.
From Coq Require Import Qpower Qround.

(** [pick] returns an element of a non-empty set *)
Definition picks (pick : list nat -> nat) : Prop := forall l, l <> [] -> In (pick l) l.

Lemma remove_nat_in x y l : In y (remove_nat x l) <-> In y l /\ y <> x.
Proof.
  unfold remove_nat. rewrite filter_In, negb_true_iff, Nat.eqb_neq. tauto.
Qed.

Lemma filter_nodup {A} (f : A -> bool) l : NoDup l -> NoDup (filter f l).
Proof.
  induction 1 as [|x l Hx Hnd IH]; simpl; [constructor|]. destruct (f x); auto. constructor; auto.
  intro H. apply filter_In in H. tauto.
Qed.

Lemma remove_nat_length x l : NoDup l -> In x l -> S (length (remove_nat x l)) = length l.
Proof.
  intros Hnd. induction Hnd as [|y l Hy Hnd IH]; intros Hin; [contradiction|].
  unfold remove_nat in *. simpl. destruct (Nat.eqb_spec y x) as [->|Hyx]; simpl.
  - f_equal. f_equal. clear - Hy. induction l as [|z l IH]; simpl; auto. destruct (Nat.eqb_spec z x) as [->|]; simpl.
    + exfalso. apply Hy. simpl. auto.
    + f_equal. apply IH. intro. apply Hy. simpl. auto.
  - destruct Hin as [->|Hin]; [congruence|]. rewrite <- (IH Hin). reflexivity.
Qed.

Lemma set_remove_ok x l : In x l -> set_remove x l = Ok (remove_nat x l).
Proof. intros H. unfold set_remove. destruct (mem x l) eqn:E; auto. apply mem_true in H. congruence. Qed.

(** * random initialiser *)
Section Random.
Variable pick : list nat -> nat.
Hypothesis Hpick : picks pick.

Lemma create_center_spec d av : av <> [] -> exists x, create_center pick d av = Ok (x, remove_nat x av) /\ In x av.
Proof.
  intros Hne. unfold create_center. destruct (mem d av) eqn:E.
  - apply mem_true in E. rewrite set_remove_ok by auto. simpl. eauto.
  - destruct av as [|a t]; [congruence|]. eexists. split; [reflexivity|]. apply Hpick. discriminate.
Qed.

Lemma create_centers_spec draws : forall av, NoDup av -> length draws <= length av ->
  exists xs av', create_centers pick draws av = Ok (xs, av') /\ length xs = length draws /\ NoDup xs /\ incl xs av /\
    incl av' av /\ length av' + length xs = length av /\ NoDup av'.
Proof.
  induction draws as [|d t IH]; intros av Hnd Hl; cbn [create_centers].
  - exists [], av. split; auto. split; auto. split; [constructor|]. split; [intros x []|]. split; [apply incl_refl|]. split; [simpl; lia|auto].
  - destruct (create_center_spec d av) as [x [E Hx]]; [destruct av; simpl in *; [lia|discriminate]|]. rewrite E. cbn [bind snd fst].
    pose proof (remove_nat_length x av Hnd Hx) as Hlr. simpl in Hl.
    destruct (IH (remove_nat x av) (filter_nodup _ _ Hnd) ltac:(lia)) as (xs & av' & E' & H1 & H2 & H3 & H4 & H5 & H6). rewrite E'. cbn [bind fst snd].
    exists (x :: xs), av'. split; auto. split; [simpl; lia|]. split.
    { constructor; auto. intro Hin. apply H3, remove_nat_in in Hin. tauto. }
    split. { intros y [<-|Hy]; auto. apply H3, remove_nat_in in Hy. tauto. }
    split. { intros y Hy. apply H4, remove_nat_in in Hy. tauto. }
    split; [simpl; lia|auto].
Qed.

Theorem random_initialize_spec n amount draws : 1 <= amount -> amount <= n ->
  exists xs av', random_new n amount = Ok (seq 0 n) /\ random_initialize pick n amount draws (seq 0 n) = Ok (xs, av') /\
    length xs = amount /\ NoDup xs /\ forall x, In x xs -> x < n.
Proof.
  intros H1 H2. unfold random_new, random_initialize. destruct (Nat.eqb_spec amount 0); [lia|]. destruct (Nat.ltb_spec n amount); [lia|].
  destruct (Nat.eqb_spec amount n) as [->|].
  - exists (seq 0 n), (seq 0 n). split; auto. split; auto. split; [apply seq_length|]. split; [apply seq_NoDup|]. intros x Hx. apply in_seq in Hx. lia.
  - destruct (create_centers_spec (map draws (seq 0 amount)) (seq 0 n) (seq_NoDup _ _)) as (xs & av' & E & G1 & G2 & G3 & _).
    { rewrite map_length, !seq_length. lia. }
    exists xs, av'. split; auto. split; auto. rewrite map_length, seq_length in G1. split; auto. split; auto.
    intros x Hx. apply G3, in_seq in Hx. lia.
Qed.

(** used up: with fewer available indexes than centres initialize() fails *)
Lemma create_centers_fails draws : forall av, NoDup av -> length av < length draws -> create_centers pick draws av = Raise KeyError.
Proof.
  induction draws as [|d t IH]; intros av Hnd Hl; [simpl in Hl; lia|]. cbn [create_centers]. destruct av as [|a av].
  - reflexivity.
  - destruct (create_center_spec d (a :: av)) as [x [E Hx]]; [discriminate|]. rewrite E. cbn [bind snd].
    pose proof (remove_nat_length x (a :: av) Hnd Hx) as Hlr. rewrite IH; [reflexivity|apply filter_nodup; auto|]. cbn [length] in *. lia.
Qed.
End Random.

(** * k-means++ *)
Section Plus.
Variable pick : list nat -> nat.
Hypothesis Hpick : picks pick.
Variable D : nat -> nat -> Q.
Variable n : nat.
Hypothesis D_diag : forall i, i < n -> (D i i == 0)%Q.
Hypothesis D_pos : forall i j, i < n -> j < n -> (0 <= D i j)%Q.

Lemma shortest_length centers : length (shortest D n centers) = n.
Proof. unfold shortest. now rewrite map_length, seq_length. Qed.

Lemma fold_pymin_le l : forall m, (fold_left (fun m (v : Q) => pymin m v) l m <= m)%Q /\ forall v, In v l -> (fold_left (fun m v => pymin m v) l m <= v)%Q.
Proof.
  induction l as [|v t IH]; intros m; cbn [fold_left]; [split; [lra|contradiction]|].
  destruct (IH (pymin m v)) as [H1 H2].
  assert (Hp : (pymin m v <= m)%Q /\ (pymin m v <= v)%Q).
  { unfold pymin. destruct (Qltb v m) eqn:E; [apply Qltb_true in E|apply Qltb_false in E]; split; lra. }
  split; [lra|]. intros w [<-|Hw]; [lra|auto].
Qed.

Lemma fold_pymin_ge l : forall m b, (b <= m)%Q -> (forall v, In v l -> (b <= v)%Q) -> (b <= fold_left (fun m (v : Q) => pymin m v) l m)%Q.
Proof.
  induction l as [|v t IH]; intros m b Hm Hl; cbn [fold_left]; auto. apply IH; [|intros; apply Hl; simpl; auto].
  unfold pymin. destruct (Qltb v m); auto. apply Hl. simpl. auto.
Qed.

Lemma fold_map {A} (f : A -> Q) l : forall m, fold_left (fun m c => pymin m (f c)) l m = fold_left (fun m v => pymin m v) (map f l) m.
Proof. induction l as [|x t IH]; intros m; simpl; auto. Qed.

Lemma shortest_center centers j : In j centers -> (forall c, In c centers -> c < n) -> (nth j (shortest D n centers) 0 == 0)%Q.
Proof.
  intros Hj Hv. unfold shortest. rewrite nth_map_seq0 by auto. destruct centers as [|c t]; [contradiction|].
  rewrite (fold_map (fun c' => D c' j)).
  destruct (fold_pymin_le (map (fun c' => D c' j) t) (D c j)) as [H1 H2].
  assert (Hge : (0 <= fold_left (fun m v => pymin m v) (map (fun c' => D c' j) t) (D c j))%Q).
  { apply fold_pymin_ge; [apply D_pos; [apply Hv; simpl; auto|auto]|]. intros v Hv'. apply in_map_iff in Hv' as [c' [<- Hc']]. apply D_pos; [apply Hv; simpl; auto|auto]. }
  pose proof (D_diag j (Hv j Hj)) as Hd. destruct Hj as [->|Hj]; [lra|].
  specialize (H2 (D j j)). rewrite in_map_iff in H2. specialize (H2 ltac:(exists j; auto)). lra.
Qed.

Lemma shortest_nonneg centers j : (forall c, In c centers -> c < n) -> (0 <= nth j (shortest D n centers) 0)%Q.
Proof.
  intros Hv. destruct (Nat.lt_ge_cases j n) as [Hj|Hj].
  - unfold shortest. rewrite nth_map_seq0 by auto. destruct centers as [|c t]; [lra|].
    rewrite (fold_map (fun c' => D c' j)). apply fold_pymin_ge; [apply D_pos; [apply Hv; simpl; auto|auto]|].
    intros v Hv'. apply in_map_iff in Hv' as [c' [<- Hc']]. apply D_pos; [apply Hv; simpl; auto|auto].
  - rewrite nth_overflow by (rewrite shortest_length; auto). lra.
Qed.

(** the candidate found has a positive distance *)
Lemma find_cumsum r l : forall acc i c, (acc <= r)%Q -> (forall x, In x l -> (0 <= x)%Q) -> find_candidate r i (cumsum acc l) = Some c ->
  i <= c /\ c - i < length l /\ (0 < nth (c - i) l 0)%Q.
Proof.
  induction l as [|x t IH]; intros acc i c Ha Hl H; cbn [cumsum find_candidate] in H; [discriminate|].
  destruct (Qltb r (acc + x)) eqn:E.
  - apply Qltb_true in E. assert (c = i) as -> by congruence. rewrite Nat.sub_diag. simpl. split; [lia|]. split; [lia|lra].
  - apply Qltb_false in E. apply IH in H as (H1 & H2 & H3); [|lra|intros; apply Hl; simpl; auto].
    split; [lia|]. simpl. split; [lia|]. replace (c - i) with (S (c - S i)) by lia. exact H3.
Qed.

Lemma find_zeros r k : forall i, (0 <= r)%Q -> find_candidate r i (repeat 0%Q k) = None.
Proof.
  induction k as [|k IH]; intros i Hr; cbn [repeat find_candidate]; auto.
  destruct (Qltb r 0) eqn:E; [apply Qltb_true in E; lra|]. apply IH; auto.
Qed.

Lemma sum_nonneg l : (forall x, In x l -> (0 <= x)%Q) -> (0 <= qsum l)%Q.
Proof.
  induction l as [|x t IH]; intros H; simpl; [lra|]. assert (0 <= x)%Q by (apply H; simpl; auto).
  specialize (IH ltac:(intros; apply H; simpl; auto)). lra.
Qed.

Lemma candidate_positive distances r c : (0 <= r)%Q -> (forall x, In x distances -> (0 <= x)%Q) ->
  find_candidate r 0 (probabilities distances) = Some c -> c < length distances /\ (0 < nth c distances 0)%Q.
Proof.
  intros Hr Hd H. unfold probabilities in H. destruct (Qeq_bool (sumQ distances) 0) eqn:E.
  { rewrite find_zeros in H by auto. discriminate. }
  apply Qeq_bool_false in E. rewrite sumQ_qsum in E.
  assert (Ht : (0 < sumQ distances)%Q) by (rewrite sumQ_qsum; pose proof (sum_nonneg distances Hd); lra).
  apply find_cumsum in H as (_ & H2 & H3); auto.
  2:{ intros x Hx. apply in_map_iff in Hx as [d [<- Hdd]]. apply Qle_shift_div_l; auto. ring_simplify. auto. }
  rewrite Nat.sub_0_r, map_length in *. split; auto.
  rewrite (nth_indep _ 0%Q ((fun d => (d / sumQ distances)%Q) 0%Q)) in H3 by (rewrite map_length; auto).
  rewrite (map_nth (fun d => (d / sumQ distances)%Q)) in H3.
  assert (Hx : (nth c distances 0 == nth c distances 0 / sumQ distances * sumQ distances)%Q) by (field; lra).
  rewrite Hx. apply Qmult_lt_0_compat; auto.
Qed.

(** [best] is a free index, or nothing has been decided yet *)
Lemma probable_center_spec centers free draws : centers <> [] -> free <> [] ->
  (forall c, In c centers -> c < n) -> (forall x, In x free <-> x < n /\ ~ In x centers) ->
  draws <> [] -> (forall r, In r draws -> (0 <= r)%Q) ->
  let distances := shortest D n centers in
  In (probable_center pick draws distances (probabilities distances) free) free.
Proof.
  intros Hc Hf Hv Hfree Hd Hr. cbn zeta. set (distances := shortest D n centers).
  assert (Hdn : forall x, In x distances -> (0 <= x)%Q).
  { intros x Hx. apply (In_nth _ _ 0%Q) in Hx as [j [_ <-]]. apply shortest_nonneg; auto. }
  assert (Hpos : forall c, c < n -> (0 < nth c distances 0)%Q -> In c free).
  { intros c Hcn Hp. apply Hfree. split; auto. intro Hin. pose proof (shortest_center centers c Hin Hv) as Hz. fold distances in Hz. lra. }
  unfold probable_center.
  match goal with |- In (fold_left ?f draws 0) free => set (step := f) end.
  assert (Hstep : forall best r, (0 <= r)%Q -> (best = 0 \/ In best free) -> In (step best r) free).
  { intros best r Hr0 Hb. unfold step. destruct (find_candidate r 0 (probabilities distances)) as [c|] eqn:E; [|apply Hpick; auto].
    apply candidate_positive in E as [E1 E2]; auto. unfold distances in E1. rewrite shortest_length in E1.
    destruct (Qltb (nth best distances 0%Q) (nth c distances 0%Q)) eqn:El; [apply Hpos; auto|].
    apply Qltb_false in El. destruct Hb as [->|Hb]; auto. apply Hpos; [lia|lra]. }
  assert (Hfold : forall l best, (forall r, In r l -> (0 <= r)%Q) -> In best free -> In (fold_left step l best) free).
  { induction l as [|r l IH]; intros best Hl Hb; cbn [fold_left]; auto. apply IH; [intros; apply Hl; simpl; auto|].
    apply Hstep; [apply Hl; simpl; auto|auto]. }
  destruct draws as [|r0 rt]; [congruence|]. cbn [fold_left]. apply Hfold; [intros; apply Hr; simpl; auto|].
  apply Hstep; [apply Hr; simpl; auto|auto].
Qed.

Lemma nanargmax_spec l : forall i best, (forall b v, best = Some (b, v) -> b < i) ->
  match nanargmax_from i l best with
  | Some (k, v) => (best = Some (k, v)) \/ (i <= k /\ nth (k - i) l None = Some v)
  | None => best = None /\ forall k, nth k l None = None
  end.
Proof.
  induction l as [|o t IH]; intros i best Hb; cbn [nanargmax_from].
  - destruct best as [[k v]|]; auto. split; auto. intros k. destruct k; reflexivity.
  - destruct o as [v|].
    + match goal with |- context [nanargmax_from (S i) t ?b] => set (nb := b) end.
      assert (Hnb : nb <> None /\ (nb = best \/ nb = Some (i, v))).
      { unfold nb. destruct best as [[b bv]|]; [destruct (Qltb bv v)|]; split; auto; congruence. }
      specialize (IH (S i) nb). destruct (nanargmax_from (S i) t nb) as [[k w]|].
      * destruct IH as [IH|[IH1 IH2]].
        { intros b w' Eb. destruct Hnb as [_ [->| ->]] in Eb; [apply Hb in Eb; lia|]. inversion Eb. lia. }
        -- destruct Hnb as [_ [E|E]]; [left; congruence|]. right. rewrite E in IH. inversion IH; subst. rewrite Nat.sub_diag. split; auto.
        -- right. split; [lia|]. replace (k - i) with (S (k - S i)) by lia. exact IH2.
      * destruct IH as [IH _]; [|destruct Hnb; congruence].
        intros b w' Eb. destruct Hnb as [_ [E|E]]; rewrite E in Eb; [apply Hb in Eb; lia|]. inversion Eb. lia.
    + specialize (IH (S i) best). destruct (nanargmax_from (S i) t best) as [[k w]|].
      * destruct IH as [IH|[IH1 IH2]]; [intros b v Eb; apply Hb in Eb; lia|left; auto|].
        right. split; [lia|]. replace (k - i) with (S (k - S i)) by lia. exact IH2.
      * destruct IH as [IH1 IH2]; [intros b v Eb; apply Hb in Eb; lia|]. split; auto. intros [|k]; [reflexivity|]. apply IH2.
Qed.

Lemma farthest_spec centers free : free <> [] -> (forall x, In x free <-> x < n /\ ~ In x centers) ->
  exists x, farthest D n centers = Ok x /\ In x free.
Proof.
  intros Hf Hfree. unfold farthest.
  match goal with |- context [nanargmax_from 0 ?l None] => set (ds := l) end.
  pose proof (nanargmax_spec ds 0 None ltac:(discriminate)) as H.
  destruct (nanargmax_from 0 ds None) as [[k v]|].
  - exists k. split; auto. destruct H as [H|[_ H]]; [discriminate|]. rewrite Nat.sub_0_r in H.
    assert (Hk : k < n).
    { destruct (Nat.lt_ge_cases k n); auto. rewrite nth_overflow in H by (unfold ds; rewrite map_length, seq_length; auto). discriminate. }
    unfold ds in H. rewrite nth_map_seq0 in H by auto. destruct (mem k centers) eqn:E; [discriminate|].
    apply Hfree. split; auto. intro Hin. apply mem_true in Hin. congruence.
  - exfalso. destruct H as [_ H]. destruct free as [|x t]; [congruence|]. assert (Hx : In x (x :: t)) by (simpl; auto).
    apply Hfree in Hx as [Hx1 Hx2]. specialize (H x). unfold ds in H. rewrite nth_map_seq0 in H by auto.
    destruct (mem x centers) eqn:E; [apply mem_true in E; contradiction|discriminate].
Qed.

Definition candidates_ok (candidates : option nat) : Prop := match candidates with Some k => 1 <= k <= n | None => True end.

Lemma plus_loop_spec candidates draws more : candidates_ok candidates -> (forall t j, (0 <= draws t j)%Q) ->
  forall t centers free, centers <> [] -> NoDup centers -> (forall c, In c centers -> c < n) ->
  (forall x, In x free <-> x < n /\ ~ In x centers) -> length centers + more <= n ->
  exists centers' free', plus_loop pick D n candidates draws t more centers free = Ok (centers', free') /\
    length centers' = length centers + more /\ NoDup centers' /\ (forall c, In c centers' -> c < n) /\
    (forall x, In x free' <-> x < n /\ ~ In x centers').
Proof.
  intros Hcand Hdraws. induction more as [|more IH]; intros t centers free Hne Hnd Hv Hfree Hl; cbn [plus_loop].
  - exists centers, free. split; auto.
  - assert (Hf : free <> []).
    { intro E. assert (Hincl : incl (seq 0 n) centers).
      { intros i Hi. apply in_seq in Hi. destruct (mem i centers) eqn:Em; [apply mem_true; auto|]. exfalso.
        assert (In i free) by (apply Hfree; split; [lia|]; intro Hc; apply mem_true in Hc; congruence). rewrite E in H. contradiction. }
      apply NoDup_incl_length in Hincl; [|apply seq_NoDup]. rewrite seq_length in Hincl. lia. }
    assert (Hx : exists x, next_center pick D n candidates (draws t) centers free = Ok x /\ In x free).
    { unfold next_center. destruct candidates as [k|]; [|apply farthest_spec; auto]. eexists. split; [reflexivity|].
      apply probable_center_spec; auto.
      - destruct k; [simpl in Hcand; lia|discriminate].
      - intros r Hr. apply in_map_iff in Hr as [j [<- _]]. apply Hdraws. }
    destruct Hx as [x [E Hx]]. rewrite E. cbn [bind]. rewrite set_remove_ok by auto. cbn [bind].
    pose proof (proj1 (Hfree x) Hx) as [Hxn Hxc].
    destruct (IH (S t) (centers ++ [x]) (remove_nat x free)) as (c' & f' & E' & H1 & H2 & H3 & H4).
    + destruct centers; discriminate.
    + apply NoDup_app_snoc; auto.
    + intros c Hc. apply in_app_iff in Hc as [Hc|[<-|[]]]; auto.
    + intros y. rewrite remove_nat_in, Hfree, in_app_iff. simpl. split; [intros [[? ?] ?]; split; auto; intros [?|[?|[]]]; auto|].
      intros [? Hn]. split; [split; auto|]. intro. apply Hn. auto.
    + rewrite app_length. simpl. lia.
    + exists c', f'. split; auto. rewrite app_length in H1. simpl in H1. split; [lia|]. auto.
Qed.

Theorem plus_initialize_spec amount candidates draw0 draws : 1 <= amount -> amount <= n -> candidates_ok candidates ->
  draw0 < n -> (forall t j, (0 <= draws t j)%Q) ->
  exists xs free', plus_new n amount candidates = Ok (seq 0 n) /\
    plus_initialize pick D n amount candidates draw0 draws (seq 0 n) = Ok (xs, free') /\
    length xs = amount /\ NoDup xs /\ (forall x, In x xs -> x < n) /\ (forall x, In x free' <-> x < n /\ ~ In x xs).
Proof.
  intros H1 H2 Hc H0 Hd. unfold plus_initialize. rewrite set_remove_ok by (apply in_seq; lia). cbn [bind].
  destruct (plus_loop_spec candidates draws (amount - 1) Hc Hd 0 [draw0] (remove_nat draw0 (seq 0 n))) as (xs & f' & E & G1 & G2 & G3 & G4).
  - discriminate.
  - constructor; [simpl; tauto|constructor].
  - intros c [<-|[]]. auto.
  - intros x. rewrite remove_nat_in, in_seq. simpl. split; [intros [? ?]; split; [lia|]; intros [?|[]]; congruence|].
    intros [? Hn]. split; [lia|]. intro. apply Hn. auto.
  - simpl. lia.
  - exists xs, f'. split; [|split; [exact E|]].
    + unfold plus_new. destruct (Nat.eqb_spec amount 0); [lia|]. destruct (Nat.ltb_spec n amount); [lia|]. cbn [orb].
      destruct candidates as [k|]; auto. cbn in Hc. destruct (Nat.eqb_spec k 0); [lia|]. destruct (Nat.ltb_spec n k); [lia|]. reflexivity.
    + simpl in G1. split; [lia|]. auto.
Qed.
End Plus.

(** * Reservoir *)
(** the sample consists of elements at [n] different positions of the data *)
Definition sampled {A} (data : list A) (n : nat) (sample : list A) : Prop :=
  exists pos, length pos = n /\ NoDup pos /\ (forall p, In p pos -> p < length data) /\
    map (nth_error data) pos = map Some sample.

Lemma map_upd {A B} (f : A -> B) l i v : map f (upd l i v) = upd (map f l) i (f v).
Proof. revert i. induction l as [|x t IH]; intros [|i]; simpl; auto. f_equal. apply IH. Qed.

Lemma nodup_upd (l : list nat) i v : NoDup l -> ~ In v l -> NoDup (upd l i v).
Proof.
  intros Hnd Hv. destruct (Nat.lt_ge_cases i (length l)) as [Hi|Hi]; [|rewrite upd_out by auto; auto].
  destruct (upd_split l i v 0 Hi) as [Hs ->].
  rewrite Hs in Hnd, Hv. apply NoDup_remove in Hnd as [Hnd _].
  assert (Hc : ~ In v (firstn i l ++ skipn (S i) l)).
  { intro Hx. apply Hv. apply in_app_iff in Hx as [Hx|Hx]; apply in_or_app; [auto|right; right; auto]. }
  revert Hnd Hc. generalize (firstn i l) (skipn (S i) l). intros l1 l2 Hnd Hc.
  apply (Permutation_NoDup (l := v :: l1 ++ l2)); [apply Permutation_middle|constructor; auto].
Qed.

Lemma in_upd (l : list nat) i v x : In x (upd l i v) -> x = v \/ In x l.
Proof.
  intros H. apply (In_nth _ _ 0) in H as [j [Hj <-]]. rewrite upd_length in Hj. rewrite upd_nth.
  destruct ((i =? j)); [destruct (i <? length l); [auto|right; apply nth_In; auto]|right; apply nth_In; auto].
Qed.

(** invariant: positions below [i] *)
Definition res_inv {A} (data : list A) (n i : nat) (sample : list A) : Prop :=
  exists pos, length pos = n /\ NoDup pos /\ (forall p, In p pos -> p < i) /\ map (nth_error data) pos = map Some sample.

Lemma res_inv_step {A} (data : list A) n i i' sample k x : res_inv data n i sample -> i <= i' -> nth_error data i' = Some x ->
  res_inv data n (S i') (upd sample k x).
Proof.
  intros (pos & H1 & H2 & H3 & H4) Hi Hx. exists (upd pos k i'). split; [rewrite upd_length; auto|]. split.
  - apply nodup_upd; auto. intro Hin. apply H3 in Hin. lia.
  - split; [intros p Hp; apply in_upd in Hp as [->|Hp]; [lia|apply H3 in Hp; lia]|].
    rewrite !map_upd, Hx, H4. reflexivity.
Qed.

Lemma res_inv_mono {A} (data : list A) n i i' sample : res_inv data n i sample -> i <= i' -> res_inv data n i' sample.
Proof. intros (pos & H1 & H2 & H3 & H4) Hi. exists pos. split; auto. split; auto. split; auto. intros p Hp. apply H3 in Hp. lia. Qed.

Lemma res_inv_start {A} (data : list A) n : n <= length data -> res_inv data n n (firstn n data).
Proof.
  intros H. exists (seq 0 n). split; [apply seq_length|]. split; [apply seq_NoDup|]. split; [intros p Hp; apply in_seq in Hp; lia|].
  revert data H. induction n as [|n IH]; intros data H; [reflexivity|]. destruct data as [|x t]; [simpl in H; lia|].
  cbn [seq map firstn nth_error]. f_equal. rewrite <- seq_shift, map_map. cbn [nth_error]. apply IH. simpl in H. lia.
Qed.

Lemma res_inv_sampled {A} (data : list A) n sample : res_inv data n (length data) sample -> sampled data n sample.
Proof. auto. Qed.

Lemma reservoir_r_loop_inv {A} (data : list A) n draws rest : forall i sample, skipn i data = rest -> i <= length data ->
  res_inv data n i sample -> res_inv data n (length data) (reservoir_r_loop n draws i rest sample).
Proof.
  induction rest as [|x t IH]; intros i sample Hr Hi Hinv; cbn [reservoir_r_loop].
  - apply res_inv_mono with i; auto.
  - assert (Hi' : i < length data).
    { assert (El := f_equal (@length A) Hr). rewrite skipn_length in El. simpl in El. lia. }
    assert (Hx : nth_error data i = Some x).
    { rewrite <- (firstn_skipn i data), Hr. rewrite nth_error_app2 by (rewrite firstn_length; lia). rewrite firstn_length, Nat.min_l, Nat.sub_diag by lia. reflexivity. }
    assert (Hs : skipn (S i) data = t).
    { rewrite <- (firstn_skipn i data), Hr. rewrite skipn_app, firstn_length, Nat.min_l by lia.
      rewrite skipn_all2 by (rewrite firstn_length; lia). replace (S i - i) with 1 by lia. reflexivity. }
    apply IH; auto. destruct (draws i <? n); [apply res_inv_step with i; auto|apply res_inv_mono with i; auto].
Qed.

Theorem reservoir_r_sampled {A} (data : list A) n draws : n <= length data ->
  exists sample, reservoir_r data n draws = Ok sample /\ length sample = n /\ sampled data n sample.
Proof.
  intros H. unfold reservoir_r. destruct (Nat.ltb_spec (length data) n); [lia|]. eexists. split; [reflexivity|].
  assert (Hs : sampled data n (reservoir_r_loop n draws n (skipn n data) (firstn n data))).
  { apply res_inv_sampled, reservoir_r_loop_inv; auto. apply res_inv_start; auto. }
  split; auto. destruct Hs as (pos & H1 & _ & _ & H4). assert (El := f_equal (@length (option A)) H4). rewrite !map_length in El. lia.
Qed.

Lemma reservoir_x_loop_inv {A} (data : list A) n thr slots fuel : forall j i sample r, res_inv data n i sample -> i <= length data ->
  reservoir_x_loop fuel data n thr slots j i sample = Some r -> sampled data n r.
Proof.
  assert (Hgo : forall fuel j i sample r, length data <= i -> reservoir_x_loop fuel data n thr slots j i sample = Some r -> r = sample).
  { intros [|f] j i sample r Hi H; cbn [reservoir_x_loop] in H; [discriminate|]. destruct (Nat.ltb_spec i (length data)); [lia|congruence]. }
  induction fuel as [|f IH]; intros j i sample r Hinv Hi H; cbn [reservoir_x_loop] in H; [discriminate|].
  destruct (Nat.ltb_spec i (length data)) as [Hlt|Hge].
  2:{ assert (r = sample) as -> by congruence. apply res_inv_sampled. apply res_inv_mono with i; auto. }
  destruct (generate_skip f i n (thr j) 0) as [s|]; [|discriminate]. cbn zeta in H.
  destruct (nth_error data (i + s)) as [x|] eqn:Ex.
  - assert (Hlen : i + s < length data) by (apply nth_error_Some; congruence).
    apply (IH _ _ _ _ (res_inv_step data n i (i + s) sample (slots j) x Hinv ltac:(lia) Ex) Hlen H).
  - apply nth_error_None in Ex. apply Hgo in H; [|lia]. subst r. apply res_inv_sampled. apply res_inv_mono with i; auto.
Qed.

(** ** termination of the skip loop *)
Lemma Qpower_bound (q : Q) k : (0 <= q)%Q -> (q <= 1)%Q -> (q ^ Z.of_nat k * (1 + inject_Z (Z.of_nat k) * (1 - q)) <= 1)%Q /\ (0 <= q ^ Z.of_nat k)%Q.
Proof.
  intros H0 H1. induction k as [|k [IH1 IH2]].
  - simpl. split; [|lra]. change (inject_Z 0) with 0%Q. assert (E : (1 * (1 + 0 * (1 - q)) == 1)%Q) by ring. lra.
  - assert (E : (q ^ Z.of_nat (S k) == q ^ Z.of_nat k * q)%Q).
    { rewrite Nat2Z.inj_succ, <- Z.add_1_r. destruct k.
      - simpl. ring.
      - rewrite Qpower_plus'; [simpl; reflexivity|lia]. }
    rewrite E. rewrite Nat2Z.inj_succ, <- Z.add_1_r, inject_Z_plus.
    assert (Hk : (0 <= inject_Z (Z.of_nat k))%Q) by (change 0%Q with (inject_Z 0); rewrite <- Zle_Qle; lia).
    set (a := (q ^ Z.of_nat k)%Q) in *. set (c := inject_Z (Z.of_nat k)) in *. change (inject_Z 1) with 1%Q.
    split; [|apply Qmult_le_0_compat; auto].
    assert (Hd : (q * (1 + (c + 1) * (1 - q)) <= 1 + c * (1 - q))%Q) by (assert (0 <= (c + 1) * ((1 - q) * (1 - q)))%Q by (apply Qmult_le_0_compat; [lra|apply Qmult_le_0_compat; lra]); assert (Ee : (1 + c * (1 - q) - q * (1 + (c + 1) * (1 - q)) == (c + 1) * ((1 - q) * (1 - q)))%Q) by ring; lra).
    assert ((a * q * (1 + (c + 1) * (1 - q)) <= a * (1 + c * (1 - q))))%Q by (rewrite <- Qmult_assoc; rewrite !(Qmult_comm a); apply Qmult_le_compat_r; auto).
    lra.
Qed.

Lemma Qpower_vanishes (q eps : Q) : (0 <= q)%Q -> (q < 1)%Q -> (0 < eps)%Q -> exists s, (q ^ Z.of_nat (s + 1) <= eps)%Q.
Proof.
  intros H0 H1 He.
  set (x := (/ (eps * (1 - q)))%Q).
  assert (Hex : (0 < eps * (1 - q))%Q) by (apply Qmult_lt_0_compat; lra).
  exists (Z.to_nat (Qround.Qceiling x)). set (s := Z.to_nat (Qround.Qceiling x)).
  destruct (Qpower_bound q (s + 1) H0 ltac:(lra)) as [Hb Hp].
  assert (Hc : (x <= inject_Z (Z.of_nat (s + 1)))%Q).
  { eapply Qle_trans; [apply Qround.Qle_ceiling|]. rewrite <- Zle_Qle. unfold s. lia. }
  set (a := (q ^ Z.of_nat (s + 1))%Q) in *. set (c := inject_Z (Z.of_nat (s + 1))) in *.
  assert (Hx : (x * (eps * (1 - q)) == 1)%Q) by (unfold x; field; lra).
  assert (Hce : (1 <= c * (1 - q) * eps)%Q).
  { assert (Hm : (x * (eps * (1 - q)) <= c * (eps * (1 - q)))%Q) by (apply Qmult_le_compat_r; [auto|lra]).
    assert (Ee : (c * (eps * (1 - q)) == c * (1 - q) * eps)%Q) by ring. lra. }
  assert (Hac : (a * (c * (1 - q)) <= 1)%Q).
  { assert (a * (1 + c * (1 - q)) == a + a * (c * (1 - q)))%Q by ring. lra. }
  destruct (Qlt_le_dec eps a) as [Hlt|]; auto. exfalso.
  assert (Hcq : (0 < c * (1 - q))%Q).
  { destruct (Qlt_le_dec 0 (c * (1 - q))); auto. exfalso.
    assert (c * (1 - q) * eps <= 0)%Q; [|lra]. setoid_replace 0%Q with (0 * eps)%Q by ring. apply Qmult_le_compat_r; lra. }
  assert (eps * (c * (1 - q)) < a * (c * (1 - q)))%Q by (apply Qmult_lt_compat_r; auto).
  assert (eps * (c * (1 - q)) == c * (1 - q) * eps)%Q by ring. lra.
Qed.

Lemma skip_value_power t size s : 1 <= size -> size <= t ->
  (skip_value t size s == ((inject_Z (Z.of_nat (t + 1) - Z.of_nat size)) / inject_Z (Z.of_nat (t + 1))) ^ Z.of_nat (s + 1))%Q.
Proof.
  intros H1 H2. unfold skip_value, Qdiv. rewrite Qmult_power. rewrite Qinv_power. reflexivity.
Qed.

Lemma generate_skip_more f t size thr : forall skip s f', generate_skip f t size thr skip = Some s -> f <= f' -> generate_skip f' t size thr skip = Some s.
Proof.
  induction f as [|f IH]; intros skip s f' H Hf; cbn [generate_skip] in H; [discriminate|].
  destruct f' as [|f']; [lia|]. cbn [generate_skip]. destruct (Qltb thr (skip_value t size skip)); auto. apply IH; auto. lia.
Qed.

Lemma generate_skip_ends t size thr : 1 <= size -> size <= t -> (0 < thr)%Q -> exists f s, generate_skip f t size thr 0 = Some s.
Proof.
  intros H1 H2 Ht.
  set (q := (inject_Z (Z.of_nat (t + 1) - Z.of_nat size) / inject_Z (Z.of_nat (t + 1)))%Q).
  assert (Hpos : (0 < inject_Z (Z.of_nat (t + 1)))%Q) by (change 0%Q with (inject_Z 0); rewrite <- Zlt_Qlt; lia).
  assert (Hq0 : (0 <= q)%Q).
  { unfold q. apply Qle_shift_div_l; auto. rewrite Qmult_0_l. change 0%Q with (inject_Z 0). rewrite <- Zle_Qle. lia. }
  assert (Hq1 : (q < 1)%Q).
  { unfold q. apply Qlt_shift_div_r; auto. rewrite Qmult_1_l. rewrite <- Zlt_Qlt. lia. }
  destruct (Qpower_vanishes q thr Hq0 Hq1 Ht) as [s Hs].
  assert (Hg : forall d skip, skip + d = s -> exists f r, generate_skip f t size thr skip = Some r).
  { induction d as [|d IH]; intros skip E.
    - exists 1, skip. cbn [generate_skip]. assert (skip = s) as -> by lia.
      replace (Qltb thr (skip_value t size s)) with false; [reflexivity|]. symmetry. apply Qltb_false.
      rewrite skip_value_power by auto. exact Hs.
    - destruct (IH (S skip) ltac:(lia)) as (f & r & Er). destruct (Qltb thr (skip_value t size skip)) eqn:El.
      + exists (S f), r. cbn [generate_skip]. rewrite El. exact Er.
      + exists 1, skip. cbn [generate_skip]. rewrite El. reflexivity. }
  apply (Hg s 0). lia.
Qed.

Lemma reservoir_x_loop_more {A} (data : list A) n thr slots f : forall j i sample r f',
  reservoir_x_loop f data n thr slots j i sample = Some r -> f <= f' -> reservoir_x_loop f' data n thr slots j i sample = Some r.
Proof.
  induction f as [|f IH]; intros j i sample r f' H Hf; cbn [reservoir_x_loop] in H; [discriminate|].
  destruct f' as [|f']; [lia|]. cbn [reservoir_x_loop]. destruct (i <? length data); auto.
  destruct (generate_skip f i n (thr j) 0) as [s|] eqn:E; [|discriminate].
  rewrite (generate_skip_more _ _ _ _ _ _ f' E) by lia. apply IH; auto. lia.
Qed.

Theorem reservoir_x_ends {A} (data : list A) n thr slots : 1 <= n -> n <= length data -> (forall j, (0 < thr j)%Q) ->
  exists fuel sample, forall f, fuel <= f -> reservoir_x f data n thr slots = Ok (Some sample) /\ length sample = n /\ sampled data n sample.
Proof.
  intros Hn Hl Ht.
  assert (H : forall d i j sample, n <= i -> length data <= i + d -> exists f r, reservoir_x_loop f data n thr slots j i sample = Some r).
  { induction d as [|d IH]; intros i j sample Hi Hd.
    - exists 1. cbn [reservoir_x_loop]. destruct (Nat.ltb_spec i (length data)); [lia|]. eauto.
    - destruct (Nat.lt_ge_cases i (length data)) as [Hlt|Hge].
      2:{ exists 1. cbn [reservoir_x_loop]. destruct (Nat.ltb_spec i (length data)); [lia|]. eauto. }
      destruct (generate_skip_ends i n (thr j) Hn Hi (Ht j)) as (f1 & s & E1).
      destruct (IH (S (i + s)) (S j) (match nth_error data (i + s) with Some x => upd sample (slots j) x | None => sample end) ltac:(lia) ltac:(lia)) as (f2 & r & E2).
      exists (S (f1 + f2)), r. cbn [reservoir_x_loop]. destruct (Nat.ltb_spec i (length data)); [|lia].
      rewrite (generate_skip_more _ _ _ _ _ _ (f1 + f2) E1) by lia. cbn zeta. apply (reservoir_x_loop_more _ _ _ _ _ _ _ _ _ (f1 + f2) E2). lia. }
  destruct (H (length data) n 0 (firstn n data) (le_n _) ltac:(lia)) as (f & r & E). exists f, r. intros f' Hf.
  unfold reservoir_x. destruct (Nat.ltb_spec (length data) n); [lia|].
  rewrite (reservoir_x_loop_more _ _ _ _ _ _ _ _ _ f' E Hf). split; auto.
  assert (Hs : sampled data n r) by (apply (reservoir_x_loop_inv data n thr slots f 0 n (firstn n data) r); auto; apply res_inv_start; auto).
  split; auto. destruct Hs as (pos & H1 & _ & _ & H4). assert (El := f_equal (@length (option A)) H4). rewrite !map_length in El. lia.
Qed.

(** an empty sample from non-empty data: the skip loop never ends *)
Lemma generate_skip_zero f t thr : forall skip, (thr < 1)%Q -> generate_skip f t 0 thr skip = None.
Proof.
  induction f as [|f IH]; intros skip Ht; cbn [generate_skip]; auto.
  replace (Qltb thr (skip_value t 0 skip)) with true; [apply IH; auto|]. symmetry. apply Qltb_true.
  unfold skip_value. change (Z.of_nat 0) with 0%Z. rewrite Z.sub_0_r.
  assert (Hp : ~ (inject_Z (Z.of_nat (t + 1)) ^ Z.of_nat (skip + 1) == 0)%Q).
  { apply Qpower_not_0. intro E. unfold Qeq in E. simpl in E. lia. }
  setoid_replace (inject_Z (Z.of_nat (t + 1)) ^ Z.of_nat (skip + 1) / inject_Z (Z.of_nat (t + 1)) ^ Z.of_nat (skip + 1))%Q with 1%Q; auto.
  field. exact Hp.
Qed.

Theorem reservoir_x_zero_hangs {A} (data : list A) thr slots : data <> [] -> (forall j, (thr j < 1)%Q) ->
  forall fuel, reservoir_x fuel data 0 thr slots = Ok None.
Proof.
  intros Hd Ht fuel. unfold reservoir_x. cbn [Nat.ltb]. destruct (Nat.ltb_spec (length data) 0); [lia|]. f_equal.
  destruct fuel as [|f]; cbn [reservoir_x_loop]; auto. destruct data as [|x t]; [congruence|].
  destruct (Nat.ltb_spec 0 (length (x :: t))); [|simpl in *; lia]. now rewrite generate_skip_zero.
Qed.

(** ** uniformity of reservoir_r *)
(** all sequences of draws for [k] steps; the [j]-th draw is in [0 .. n+j] *)
Fixpoint outcomes (n k : nat) : list (list nat) :=
  match k with
  | 0 => [[]]
  | S k' => flat_map (fun ds => map (fun m => ds ++ [m]) (seq 0 (S (n + k')))) (outcomes n k')
  end.

Definition draw_of (n : nat) (ds : list nat) (i : nat) : nat := nth (i - n) ds 0.

(** positions drawn *)
Definition positions (n k : nat) (ds : list nat) : list nat :=
  reservoir_r_loop n (draw_of n ds) n (seq n k) (seq 0 n).

Lemma reservoir_loop_snoc {A} n draws (rest : list A) x : forall i res,
  reservoir_r_loop n draws i (rest ++ [x]) res =
  let r := reservoir_r_loop n draws i rest res in
  if draws (i + length rest) <? n then upd r (draws (i + length rest)) x else r.
Proof.
  induction rest as [|y t IH]; intros i res; cbn [app reservoir_r_loop length].
  - now rewrite Nat.add_0_r.
  - rewrite IH. replace (i + S (length t)) with (S i + length t) by lia. reflexivity.
Qed.

Lemma reservoir_loop_ext {A} n d1 d2 (rest : list A) : forall i res, (forall j, i <= j < i + length rest -> d1 j = d2 j) ->
  reservoir_r_loop n d1 i rest res = reservoir_r_loop n d2 i rest res.
Proof.
  induction rest as [|y t IH]; intros i res H; cbn [reservoir_r_loop]; auto.
  rewrite (H i) by (simpl; lia). apply IH. intros j Hj. apply H. simpl. lia.
Qed.

Lemma outcomes_length n k ds : In ds (outcomes n k) -> length ds = k.
Proof.
  revert ds. induction k as [|k IH]; intros ds H; cbn [outcomes] in H.
  - destruct H as [<-|[]]. reflexivity.
  - apply in_flat_map in H as [d [Hd H]]. apply in_map_iff in H as [m [<- _]]. rewrite app_length, (IH d Hd). simpl. lia.
Qed.

Lemma positions_snoc n k ds m : length ds = k ->
  positions n (S k) (ds ++ [m]) = if m <? n then upd (positions n k ds) m (n + k) else positions n k ds.
Proof.
  intros H. unfold positions. rewrite seq_S, reservoir_loop_snoc. cbn zeta. rewrite seq_length.
  assert (E : draw_of n (ds ++ [m]) (n + k) = m).
  { unfold draw_of. replace (n + k - n) with k by lia. rewrite app_nth2, H, Nat.sub_diag by lia. reflexivity. }
  rewrite E. rewrite (reservoir_loop_ext n (draw_of n (ds ++ [m])) (draw_of n ds)); [reflexivity|].
  intros j Hj. rewrite seq_length in Hj. unfold draw_of. apply app_nth1. lia.
Qed.

Lemma positions_inv n k ds : length ds = k -> length (positions n k ds) = n /\ NoDup (positions n k ds) /\ forall p, In p (positions n k ds) -> p < n + k.
Proof.
  revert ds. induction k as [|k IH]; intros ds H.
  - unfold positions. cbn [seq reservoir_r_loop]. split; [apply seq_length|]. split; [apply seq_NoDup|]. intros p Hp. apply in_seq in Hp. lia.
  - destruct ds as [|d0 dt] using rev_ind; [discriminate|]. clear IHdt. rewrite app_length in H. simpl in H.
    destruct (IH dt ltac:(lia)) as (H1 & H2 & H3). rewrite positions_snoc by lia. destruct (d0 <? n).
    + split; [rewrite upd_length; auto|]. split; [apply nodup_upd; auto; intro Hc; apply H3 in Hc; lia|].
      intros p Hp. apply in_upd in Hp as [->|Hp]; [lia|apply H3 in Hp; lia].
    + split; auto. split; auto. intros p Hp. apply H3 in Hp. lia.
Qed.

Lemma filter_ext_len {A} (f g : A -> bool) l : (forall x, In x l -> f x = g x) -> length (filter f l) = length (filter g l).
Proof. intros H. rewrite (filter_ext_in f g l H). reflexivity. Qed.

Lemma filter_flat_map_length {A B} (f : B -> bool) (g : A -> list B) l (c : A -> nat) :
  (forall a, In a l -> length (filter f (g a)) = c a) -> length (filter f (flat_map g l)) = list_sum (map c l).
Proof.
  induction l as [|a l IH]; intros H; simpl; auto. rewrite filter_app, app_length, H by (simpl; auto). rewrite IH; auto. intros; apply H; simpl; auto.
Qed.

Lemma filter_map_length {A B} (f : B -> bool) (g : A -> B) l : length (filter f (map g l)) = length (filter (fun x => f (g x)) l).
Proof. induction l as [|a l IH]; simpl; auto. destruct (f (g a)); simpl; auto. Qed.

Lemma sum_indicator {A} (f : A -> bool) (c : nat) l : list_sum (map (fun a => if f a then c else 0) l) = c * length (filter f l).
Proof. induction l as [|a l IH]; simpl; [lia|]. destruct (f a); simpl; rewrite IH; lia. Qed.

Lemma filter_neq_seq s m : s < m -> S (length (filter (fun x => negb (x =? s)) (seq 0 m))) = m.
Proof.
  intros H. assert (Hn := remove_nat_length s (seq 0 m) (seq_NoDup _ _)). rewrite seq_length in Hn. apply Hn. apply in_seq. lia.
Qed.

(** number of draws for the next step that keep position [p] *)
Lemma keep_count n k ds p : length ds = k -> p < n + k ->
  length (filter (fun m => mem p (positions n (S k) (ds ++ [m]))) (seq 0 (S (n + k)))) = if mem p (positions n k ds) then n + k else 0.
Proof.
  intros H Hp. destruct (positions_inv n k ds H) as (H1 & H2 & H3).
  destruct (mem p (positions n k ds)) eqn:E.
  - apply mem_true in E. apply (In_nth _ _ 0) in E as [s [Hs Es]].
    rewrite (filter_ext_len _ (fun m => negb (m =? s))).
    + pose proof (filter_neq_seq s (S (n + k)) ltac:(lia)). lia.
    + intros m Hm. rewrite positions_snoc by auto. destruct (Nat.eqb_spec m s) as [->|Hms]; cbn [negb].
      * destruct (Nat.ltb_spec s n); [|lia]. destruct (mem p (upd (positions n k ds) s (n + k))) eqn:E'; auto. exfalso.
        apply mem_true in E'. apply (In_nth _ _ 0) in E' as [a [Ha Ea]]. rewrite upd_length in Ha. rewrite upd_nth in Ea.
        destruct (Nat.eqb_spec s a) as [->|Hsa]; [destruct (Nat.ltb_spec a (length (positions n k ds))); cbn [andb] in Ea; lia|]. cbn [andb] in Ea.
        rewrite <- Es in Ea. apply NoDup_nth in Ea; auto.
      * destruct (Nat.ltb_spec m n); apply mem_true.
        -- rewrite <- Es. rewrite <- (upd_nth_neq _ m s (n + k) 0) by auto. apply nth_In. rewrite upd_length. auto.
        -- rewrite <- Es. apply nth_In. auto.
  - assert (Hz : forall m, mem p (positions n (S k) (ds ++ [m])) = false).
    { intros m. rewrite positions_snoc by auto. destruct (m <? n); auto. destruct (mem p (upd (positions n k ds) m (n + k))) eqn:E'; auto.
      apply mem_true in E'. apply in_upd in E' as [->|E']; [lia|]. apply mem_true in E'. congruence. }
    rewrite (filter_ext_len _ (fun _ => false)); [|intros; apply Hz]. clear. induction (seq 0 (S (n + k))); simpl; auto.
Qed.

Lemma new_count n k ds : length ds = k ->
  length (filter (fun m => mem (n + k) (positions n (S k) (ds ++ [m]))) (seq 0 (S (n + k)))) = n.
Proof.
  intros H. destruct (positions_inv n k ds H) as (H1 & H2 & H3).
  rewrite (filter_ext_len _ (fun m => m <? n)).
  - replace (S (n + k)) with (n + S k) by lia. rewrite seq_app, filter_app, app_length. simpl (0 + n).
    assert (Ha : forall l, (forall x, In x l -> x < n) -> filter (fun m => m <? n) l = l).
    { induction l as [|x l IH]; intros Hl; cbn [filter]; auto. destruct (Nat.ltb_spec x n); [rewrite IH; auto; intros; apply Hl; simpl; auto|]. specialize (Hl x (or_introl eq_refl)). lia. }
    assert (Hb : forall l, (forall x, In x l -> n <= x) -> filter (fun m => m <? n) l = []).
    { induction l as [|x l IH]; intros Hl; cbn [filter]; auto. destruct (Nat.ltb_spec x n); [specialize (Hl x (or_introl eq_refl)); lia|]. apply IH. intros; apply Hl; simpl; auto. }
    rewrite Ha, Hb; [rewrite seq_length; simpl; lia| |]; intros x Hx; apply in_seq in Hx; lia.
  - intros m Hm. rewrite positions_snoc by auto. destruct (Nat.ltb_spec m n).
    + apply mem_true. rewrite <- (upd_nth_eq (positions n k ds) m (n + k) 0) at 1 by lia. apply nth_In. rewrite upd_length. lia.
    + destruct (mem (n + k) (positions n k ds)) eqn:E; auto. apply mem_true in E. apply H3 in E. lia.
Qed.

Theorem reservoir_r_uniform n k p : p < n + k ->
  length (filter (fun ds => mem p (positions n k ds)) (outcomes n k)) * (n + k) = n * length (outcomes n k).
Proof.
  revert p. induction k as [|k IH]; intros p Hp.
  - cbn [outcomes]. unfold positions. cbn [seq reservoir_r_loop filter].
    assert (E : mem p (seq 0 n) = true) by (apply mem_true, in_seq; lia). rewrite E. simpl. lia.
  - cbn [outcomes].
    assert (Htot : length (flat_map (fun ds => map (fun m => ds ++ [m]) (seq 0 (S (n + k)))) (outcomes n k)) = (S (n + k)) * length (outcomes n k)).
    { clear. induction (outcomes n k) as [|d l IH]; cbn [flat_map length]; [lia|]. rewrite app_length, map_length, seq_length, IH. lia. }
    rewrite Htot. destruct (Nat.lt_ge_cases p (n + k)) as [Hlt|Hge].
    + rewrite (filter_flat_map_length _ _ _ (fun ds => if mem p (positions n k ds) then n + k else 0)).
      2:{ intros ds Hds. rewrite filter_map_length. apply keep_count; auto. apply outcomes_length with n; auto. }
      rewrite sum_indicator. specialize (IH p Hlt). replace (n + S k) with (S (n + k)) by lia.
      rewrite (Nat.mul_comm (n + k)), IH. lia.
    + assert (p = n + k) as -> by lia.
      rewrite (filter_flat_map_length _ _ _ (fun _ => n)).
      2:{ intros ds Hds. rewrite filter_map_length. apply new_count. apply outcomes_length with n; auto. }
      assert (Es : forall l : list (list nat), list_sum (map (fun _ => n) l) = n * length l) by (induction l; simpl; lia).
      rewrite Es. lia.
Qed.

(** the elements returned are those at the positions *)
Lemma reservoir_map {A} (data : list A) (d : A) n draws : forall rest i res,
  reservoir_r_loop n draws i (map (fun p => nth p data d) rest) (map (fun p => nth p data d) res) =
  map (fun p => nth p data d) (reservoir_r_loop n draws i rest res).
Proof.
  induction rest as [|x t IH]; intros i res; cbn [map reservoir_r_loop]; auto.
  rewrite <- IH. destruct (draws i <? n); auto. now rewrite map_upd.
Qed.

Lemma map_nth_seq {A} (data : list A) d : forall a m, a + m <= length data -> map (fun p => nth p data d) (seq a m) = firstn m (skipn a data).
Proof.
  intros a m. revert a. induction m as [|m IH]; intros a H; cbn [seq map]; [reflexivity|].
  rewrite IH by lia. clear IH. revert a H. induction data as [|x t IHd]; intros [|a] H; simpl in *; try lia; auto.
  apply IHd. lia.
Qed.

Theorem reservoir_r_positions {A} (data : list A) (d : A) n ds : n <= length data ->
  reservoir_r data n (draw_of n ds) = Ok (map (fun p => nth p data d) (positions n (length data - n) ds)).
Proof.
  intros H. unfold reservoir_r, positions. destruct (Nat.ltb_spec (length data) n); [lia|]. f_equal. rewrite <- reservoir_map.
  rewrite (map_nth_seq data d n (length data - n)), (map_nth_seq data d 0 n) by lia. cbn [skipn].
  rewrite (firstn_all2 (skipn n data)) by (rewrite skipn_length; lia). reflexivity.
Qed.
