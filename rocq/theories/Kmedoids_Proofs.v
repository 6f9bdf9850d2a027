(** k-medoids and BUILD: specification and proofs. *)
From Verif Require Import Base Kmeans_Model Kmeans_Proofs Kmedoids_Model.
From Coq Require Import Qminmax.

(** * Specification *)

(** [v] is the distance of [i] to its nearest medoid *)
Definition is_min_dist (D : nat -> nat -> Q) (medoids : list nat) (i : nat) (v : Q) : Prop :=
  (exists m, In m medoids /\ (v == D i m)%Q) /\ forall m, In m medoids -> (v <= D i m)%Q.

(** the least value of [f] over a list *)
Fixpoint least (f : nat -> Q) (l : list nat) : Q :=
  match l with
  | [] => 0%Q
  | [m] => f m
  | m :: t => Qmin (f m) (least f t)
  end.

(** total distance of all points to their nearest medoid *)
Definition deviation (D : nat -> nat -> Q) (n : nat) (medoids : list nat) : Q :=
  qsum (map (fun i => least (D i) medoids) (seq 0 n)).

(** an exchange PAM considers: replace position [k] by a point that is no medoid and does not
    coincide with one *)
Definition allowed (D : nat -> nat -> Q) (n : nat) (medoids : list nat) (k c : nat) : Prop :=
  k < length medoids /\ c < n /\ ~ In c medoids /\ ~ (least (D c) medoids == 0)%Q.

(** [M'] is the best exchange of [M] *)
Definition best_exchange (D : nat -> nat -> Q) (n : nat) (M M' : list nat) : Prop :=
  (exists k c, allowed D n M k c /\ M' = upd M k c) /\
  forall k c, allowed D n M k c -> (deviation D n M' <= deviation D n (upd M k c))%Q.

(** runs of the algorithm: [pam D n tol limit M T M']: at most [limit] exchanges lead from [M]
    to [M'] in [T] iterations; after an exchange that does not lower the deviation by more than
    [tol] nothing more is done *)
Inductive pam (D : nat -> nat -> Q) (n : nat) (tol : Q) : nat -> list nat -> nat -> list nat -> Prop :=
| pam_limit M : pam D n tol 0 M 0 M
| pam_none l M : (forall k c, ~ allowed D n M k c) -> pam D n tol (S l) M 1 M
| pam_last l M M' : best_exchange D n M M' -> (deviation D n M - deviation D n M' <= tol)%Q -> pam D n tol (S l) M 1 M'
| pam_step l M M' T M'' : best_exchange D n M M' -> (tol < deviation D n M - deviation D n M')%Q ->
    pam D n tol l M' T M'' -> pam D n tol (S l) M (S T) M''.

(** * least *)
Lemma Qmin_cases a b : (a <= b /\ Qmin a b == a)%Q \/ (b <= a /\ Qmin a b == b)%Q.
Proof.
  destruct (Qlt_le_dec b a) as [H|H].
  - right. split; [lra|]. apply Q.min_r. lra.
  - left. split; [lra|]. apply Q.min_l. lra.
Qed.

Lemma least_spec f l : l <> [] -> (exists m, In m l /\ (least f l == f m)%Q) /\ forall m, In m l -> (least f l <= f m)%Q.
Proof.
  induction l as [|x t IH]; intros Hne; [congruence|]. destruct t as [|y t].
  - simpl. split; [exists x; split; [auto|reflexivity]|]. intros m [<-|[]]. lra.
  - change (least f (x :: y :: t)) with (Qmin (f x) (least f (y :: t))).
    destruct (IH ltac:(discriminate)) as [[m [Hm Em]] Hle].
    destruct (Qmin_cases (f x) (least f (y :: t))) as [[H E]|[H E]]; split.
    + exists x. split; [simpl; auto|exact E].
    + intros z [<-|Hz]; [lra|]. specialize (Hle z Hz). lra.
    + exists m. split; [right; auto|lra].
    + intros z [<-|Hz]; [lra|]. specialize (Hle z Hz). lra.
Qed.

Lemma least_unique f l v : l <> [] -> (exists m, In m l /\ (v == f m)%Q) -> (forall m, In m l -> (v <= f m)%Q) -> (v == least f l)%Q.
Proof.
  intros Hne [m [Hm Em]] Hle. destruct (least_spec f l Hne) as [[m' [Hm' Em']] Hle'].
  specialize (Hle m' Hm'). specialize (Hle' m Hm). lra.
Qed.

Lemma least_is_min_dist D M i : M <> [] -> is_min_dist D M i (least (D i) M).
Proof. intros H. exact (least_spec (D i) M H). Qed.

(** * scan *)
Section Scan.
Variable D : nat -> nat -> Q.

(** [(io, first, second)] describes the medoids scanned so far *)
Definition scanned (i : nat) (pre : list nat) (b : nat * Q * option Q) : Prop :=
  let '(io, first, second) := b in
  io < length pre /\ (first == D i (nth io pre 0%nat))%Q /\ (forall k, k < length pre -> (first <= D i (nth k pre 0%nat))%Q) /\
  match second with
  | None => length pre = 1
  | Some s => (exists k, k < length pre /\ k <> io /\ (s == D i (nth k pre 0%nat))%Q) /\
              (forall k, k < length pre -> k <> io -> (s <= D i (nth k pre 0%nat))%Q)
  end.

Lemma nth_snoc (pre : list nat) m k : k < length (pre ++ [m]) ->
  (k < length pre /\ nth k (pre ++ [m]) 0 = nth k pre 0) \/ (k = length pre /\ nth k (pre ++ [m]) 0 = m).
Proof.
  intros H. rewrite app_length in H. simpl in H. destruct (Nat.lt_ge_cases k (length pre)).
  - left. split; auto. apply app_nth1; auto.
  - right. assert (k = length pre) as -> by lia. split; auto. rewrite app_nth2, Nat.sub_diag by lia. reflexivity.
Qed.

Lemma scanned_step i pre b m : scanned i pre b ->
  scanned i (pre ++ [m])
    (let '(io, first, second) := b in
     if Qltb (D i m) first then (length pre, D i m, Some first)
     else if (match second with None => true | Some s => Qltb (D i m) s end) then (io, first, Some (D i m))
     else (io, first, second)).
Proof.
  destruct b as [[io first] second]. intros (H1 & H2 & H3 & H4).
  assert (Hold : forall k, k < length pre -> nth k (pre ++ [m]) 0 = nth k pre 0) by (intros; apply app_nth1; auto).
  assert (Hnew : nth (length pre) (pre ++ [m]) 0 = m) by (rewrite app_nth2, Nat.sub_diag by lia; reflexivity).
  assert (Hlen : length (pre ++ [m]) = S (length pre)) by (rewrite app_length; simpl; lia).
  destruct (Qltb (D i m) first) eqn:E1.
  - apply Qltb_true in E1. unfold scanned. rewrite Hlen. split; [lia|]. split; [rewrite Hnew; reflexivity|]. split.
    + intros k Hk. destruct (Nat.eq_dec k (length pre)) as [->|]; [rewrite Hnew; lra|]. rewrite Hold by lia. specialize (H3 k ltac:(lia)). lra.
    + split; [exists io; split; [lia|]; split; [lia|]; rewrite Hold by lia; exact H2|].
      intros k Hk Hki. rewrite Hold by lia. apply H3. lia.
  - apply Qltb_false in E1.
    assert (Hfirst : forall k, k < S (length pre) -> (first <= D i (nth k (pre ++ [m]) 0%nat))%Q).
    { intros k Hk. destruct (Nat.eq_dec k (length pre)) as [->|]; [rewrite Hnew; lra|]. rewrite Hold by lia. apply H3. lia. }
    destruct second as [s|].
    + destruct H4 as [[k0 (Hk0 & Hk0' & Es)] Hs]. destruct (Qltb (D i m) s) eqn:E2.
      * apply Qltb_true in E2. unfold scanned. rewrite Hlen. split; [lia|]. split; [rewrite Hold by lia; exact H2|]. split; [exact Hfirst|].
        split; [exists (length pre); split; [lia|]; split; [lia|]; rewrite Hnew; reflexivity|].
        intros k Hk Hki. destruct (Nat.eq_dec k (length pre)) as [->|]; [rewrite Hnew; lra|]. rewrite Hold by lia. specialize (Hs k ltac:(lia) Hki). lra.
      * apply Qltb_false in E2. unfold scanned. rewrite Hlen. split; [lia|]. split; [rewrite Hold by lia; exact H2|]. split; [exact Hfirst|].
        split; [exists k0; split; [lia|]; split; [lia|]; rewrite Hold by lia; exact Es|].
        intros k Hk Hki. destruct (Nat.eq_dec k (length pre)) as [->|]; [rewrite Hnew; lra|]. rewrite Hold by lia. apply Hs; lia.
    + unfold scanned. rewrite Hlen. split; [lia|]. split; [rewrite Hold by lia; exact H2|]. split; [exact Hfirst|].
      split; [exists (length pre); split; [lia|]; split; [lia|]; rewrite Hnew; reflexivity|].
      intros k Hk Hki. assert (k = length pre) as -> by lia. rewrite Hnew. lra.
Qed.

Lemma scan_spec i t : forall pre b, scanned i pre b -> scanned i (pre ++ t) (scan D i t (length pre) b).
Proof.
  induction t as [|m t IH]; intros pre b H; cbn [scan].
  - now rewrite app_nil_r.
  - pose proof (scanned_step i pre b m H) as Hs. destruct b as [[io first] second].
    replace (pre ++ m :: t) with ((pre ++ [m]) ++ t) by (rewrite <- app_assoc; reflexivity).
    replace (S (length pre)) with (length (pre ++ [m])) by (rewrite app_length; simpl; lia).
    destruct (Qltb (D i m) first); [apply IH; exact Hs|].
    destruct (match second with None => true | Some s => Qltb (D i m) s end); apply IH; exact Hs.
Qed.

Lemma nearest2_spec i M : M <> [] -> scanned i M (nearest2 D M i).
Proof.
  destruct M as [|m t]; [congruence|]. intros _. apply (scan_spec i t [m]). unfold scanned. simpl.
  split; [lia|]. split; [reflexivity|]. split; auto. intros k Hk. assert (k = 0) as -> by lia. simpl. lra.
Qed.

Lemma nearest2_least i M : M <> [] -> (t_first (nearest2 D M i) == least (D i) M)%Q.
Proof.
  intros H. pose proof (nearest2_spec i M H) as Hs. destruct (nearest2 D M i) as [[io first] second]. destruct Hs as (H1 & H2 & H3 & _).
  cbn. apply least_unique; auto.
  - exists (nth io M 0). split; auto. apply nth_In; auto.
  - intros m Hm. apply (In_nth _ _ 0) in Hm as [k [Hk <-]]. auto.
Qed.
End Scan.

Section Medoids.
Variable D : nat -> nat -> Q.
Variable n : nat.

Lemma entry_table M i : i < n -> entry (table D n M) i = nearest2 D M i.
Proof. intros H. unfold entry, table. apply nth_map_seq0. auto. Qed.

Lemma med_deviation_spec M : M <> [] -> (med_deviation D n M == deviation D n M)%Q.
Proof.
  intros H. unfold med_deviation, table, deviation. rewrite sumQ_qsum, map_map. apply qsum_ext. intros i _. apply nearest2_least; auto.
Qed.

(** change of a point's distance *)
Lemma swap_point M k c i : M <> [] -> k < length M ->
  let e := nearest2 D M i in
  ((if t_label e =? k then (match t_second e with None => D i c | Some s => pymin (D i c) s end) - t_first e
    else if Qltb (D i c) (t_first e) then D i c - t_first e else 0)
   == least (D i) (upd M k c) - least (D i) M)%Q.
Proof.
  intros Hne Hk. cbn zeta. rewrite <- (nearest2_least D i M Hne).
  pose proof (nearest2_spec D i M Hne) as Hs. destruct (nearest2 D M i) as [[io first] second].
  destruct Hs as (H1 & H2 & H3 & H4). unfold t_label, t_first, t_second. cbn [fst snd].
  assert (Hne' : upd M k c <> []) by (intro E; assert (El := f_equal (@length nat) E); rewrite upd_length in El; destruct M; [congruence|discriminate]).
  assert (Hin : forall m, In m (upd M k c) -> m = c \/ exists j, j < length M /\ j <> k /\ m = nth j M 0).
  { intros m Hm. apply (In_nth _ _ 0) in Hm as [j [Hj <-]]. rewrite upd_length in Hj. rewrite upd_nth.
    destruct (Nat.eqb_spec k j) as [->|]; [destruct (Nat.ltb_spec j (length M)); [auto|lia]|]. right. exists j. auto. }
  assert (Hc : In c (upd M k c)).
  { rewrite <- (upd_nth_eq M k c 0 Hk) at 1. apply nth_In. rewrite upd_length. auto. }
  assert (Ho : forall j, j < length M -> j <> k -> In (nth j M 0) (upd M k c)).
  { intros j Hj Hjk. rewrite <- (upd_nth_neq M k j c 0) by auto. apply nth_In. rewrite upd_length. auto. }
  destruct (Nat.eqb_spec io k) as [->|Hio].
  - destruct second as [s|].
    + destruct H4 as [[k0 (Hk0 & Hk0' & Es)] Hs].
      assert (E : (pymin (D i c) s == least (D i) (upd M k c))%Q); [|lra].
      unfold pymin. destruct (Qltb s (D i c)) eqn:E; [apply Qltb_true in E|apply Qltb_false in E]; apply least_unique; auto.
      * exists (nth k0 M 0). split; [apply Ho; auto|auto].
      * intros m Hm. destruct (Hin m Hm) as [->|(j & Hj & Hjk & ->)]; [lra|apply Hs; auto].
      * exists c. split; [auto|reflexivity].
      * intros m Hm. destruct (Hin m Hm) as [->|(j & Hj & Hjk & ->)]; [lra|specialize (Hs j Hj Hjk); lra].
    + assert (E : (D i c == least (D i) (upd M k c))%Q); [|lra].
      apply least_unique; auto.
      * exists c. split; [auto|reflexivity].
      * intros m Hm. destruct (Hin m Hm) as [->|(j & Hj & Hjk & ->)]; [lra|lia].
  - destruct (Qltb (D i c) first) eqn:E; [apply Qltb_true in E|apply Qltb_false in E].
    + assert (E' : (D i c == least (D i) (upd M k c))%Q); [|lra].
      apply least_unique; auto.
      * exists c. split; [auto|reflexivity].
      * intros m Hm. destruct (Hin m Hm) as [->|(j & Hj & Hjk & ->)]; [lra|specialize (H3 j Hj); lra].
    + assert (E' : (first == least (D i) (upd M k c))%Q); [|lra].
      apply least_unique; auto.
      * exists (nth io M 0). split; [apply Ho; auto|auto].
      * intros m Hm. destruct (Hin m Hm) as [->|(j & Hj & Hjk & ->)]; [lra|apply H3; auto].
Qed.

Theorem swap_cost_exact M k c : M <> [] -> k < length M -> c < n ->
  (D c c == 0)%Q -> (forall m, In m (upd M k c) -> (0 <= D c m)%Q) ->
  (swap_cost D n (table D n M) c k == deviation D n (upd M k c) - deviation D n M)%Q.
Proof.
  intros Hne Hk Hc Hcc Hnn. unfold swap_cost.
  set (delta := fun i => (if i =? c then 0 else least (D i) (upd M k c) - least (D i) M)%Q).
  match goal with |- context [fold_left ?f (seq 0 n) 0%Q] =>
    assert (Hf : forall l a, (forall i, In i l -> i < n) -> (fold_left f l a == a + qsum (map delta l))%Q) end.
  { induction l as [|i l IH]; intros a Hl; cbn [fold_left map qsum]; [ring|]. rewrite IH by (intros; apply Hl; simpl; auto).
    unfold delta at 2. destruct (i =? c); [ring|]. rewrite entry_table by (apply Hl; simpl; auto).
    pose proof (swap_point M k c i Hne Hk) as Hp. cbn zeta in Hp |- *. rewrite <- Hp.
    destruct (t_label (nearest2 D M i) =? k); [ring|]. destruct (Qltb (D i c) (t_first (nearest2 D M i))); ring. }
  rewrite Hf by (intros i Hi; apply in_seq in Hi; lia). rewrite entry_table by auto. rewrite nearest2_least by auto.
  assert (Hne' : upd M k c <> []) by (intro E; assert (El := f_equal (@length nat) E); rewrite upd_length in El; destruct M; [congruence|discriminate]).
  assert (Hin : In c (upd M k c)) by (rewrite <- (upd_nth_eq M k c 0 Hk) at 1; apply nth_In; rewrite upd_length; auto).
  assert (Hz : (0 == least (D c) (upd M k c))%Q).
  { apply least_unique; auto. exists c. split; [auto|symmetry; auto]. }
  unfold deviation.
  assert (E : forall l, NoDup l -> In c l ->
     (qsum (map delta l) - least (D c) M == qsum (map (fun i => least (D i) (upd M k c)) l) - qsum (map (fun i => least (D i) M) l))%Q).
  { assert (E0 : forall l, ~ In c l -> (qsum (map delta l) == qsum (map (fun i => least (D i) (upd M k c)) l) - qsum (map (fun i => least (D i) M) l))%Q).
    { induction l as [|i l IH]; intros Hl; cbn [map qsum]; [ring|]. rewrite IH by (intro; apply Hl; simpl; auto).
      unfold delta at 1. destruct (Nat.eqb_spec i c) as [->|]; [exfalso; apply Hl; simpl; auto|]. ring. }
    induction l as [|i l IH]; intros Hnd Hl; [contradiction|]. inversion Hnd as [|? ? Hi Hnd']; subst. cbn [map qsum].
    unfold delta at 1. destruct (Nat.eqb_spec i c) as [->|Hic].
    - rewrite E0 by auto. rewrite <- Hz. ring.
    - destruct Hl as [->|Hl]; [congruence|]. specialize (IH Hnd' Hl). 
      transitivity (least (D i) (upd M k c) - least (D i) M + (qsum (map delta l) - least (D c) M))%Q; [ring|]. rewrite IH. ring. }
  rewrite <- E; [ring|apply seq_NoDup|apply in_seq; lia].
Qed.

Lemma mem_true i l : mem i l = true <-> In i l.
Proof.
  unfold mem. rewrite existsb_exists. split.
  - intros [x [Hx E]]. apply Nat.eqb_eq in E. now subst.
  - intros H. exists i. split; auto. apply Nat.eqb_refl.
Qed.

Lemma exchanges_allowed M k c : M <> [] -> (In (k, c) (exchanges n M (table D n M)) <-> allowed D n M k c).
Proof.
  intros Hne. unfold exchanges, allowed. rewrite in_flat_map. split.
  - intros (k' & Hk & H). apply in_map_iff in H as [c' [E H]]. inversion E; subst. apply filter_In in H as [Hc H].
    apply in_seq in Hk, Hc. apply negb_true_iff, orb_false_iff in H as [H1 H2]. rewrite entry_table in H2 by lia.
    split; [lia|]. split; [lia|]. split.
    + intro Hin. apply mem_true in Hin. congruence.
    + apply Qeq_bool_false in H2. rewrite nearest2_least in H2 by auto. exact H2.
  - intros (H1 & H2 & H3 & H4). exists k. split; [apply in_seq; lia|]. apply in_map_iff. exists c. split; auto.
    apply filter_In. split; [apply in_seq; lia|]. apply negb_true_iff, orb_false_iff. split.
    + destruct (mem c M) eqn:E; auto. apply mem_true in E. contradiction.
    + rewrite entry_table by lia. apply Qeq_bool_false. rewrite nearest2_least by auto. exact H4.
Qed.

(** distances of a metric: zero on the diagonal and nowhere negative *)
Hypothesis D_diag : forall i, i < n -> (D i i == 0)%Q.
Hypothesis D_pos : forall i j, i < n -> j < n -> (0 <= D i j)%Q.

Definition valid (M : list nat) : Prop := M <> [] /\ forall m, In m M -> m < n.

Lemma valid_upd M k c : valid M -> c < n -> k < length M -> valid (upd M k c).
Proof.
  intros [H1 H2] Hc Hk. split.
  - intro E. assert (El := f_equal (@length nat) E). rewrite upd_length in El. destruct M; [congruence|discriminate].
  - intros m Hm. apply (In_nth _ _ 0) in Hm as [j [Hj <-]]. rewrite upd_length in Hj. rewrite upd_nth.
    destruct (Nat.eqb_spec k j); [destruct (Nat.ltb_spec k (length M)); [auto|lia]|]. apply H2, nth_In; auto.
Qed.

Lemma swap_medoids_spec M : valid M ->
  match swap_medoids D n M (table D n M) with
  | Some M' => best_exchange D n M M' /\ valid M' /\ length M' = length M /\ (NoDup M -> NoDup M')
  | None => forall k c, ~ allowed D n M k c
  end.
Proof.
  intros Hv. pose proof Hv as [Hne Hlt]. unfold swap_medoids.
  destruct (min_by (fun kc => swap_cost D n (table D n M) (snd kc) (fst kc)) (exchanges n M (table D n M))) as [[k c]|] eqn:E.
  - destruct (min_by_spec _ _ _ E) as [Hin Hmin].
    assert (Hexact : forall k c, allowed D n M k c -> (swap_cost D n (table D n M) c k == deviation D n (upd M k c) - deviation D n M)%Q).
    { intros k0 c0 (H1 & H2 & H3 & H4). apply swap_cost_exact; auto. intros m Hm.
      destruct (valid_upd M k0 c0 Hv H2 H1) as [_ Hv']. apply D_pos; auto. }
    apply exchanges_allowed in Hin; auto. split; [split|].
    + exists k, c. auto.
    + intros k0 c0 Ha. pose proof (Hmin (k0, c0)) as Hm. cbn [fst snd] in Hm. specialize (Hm ltac:(apply exchanges_allowed; auto)).
      rewrite !Hexact in Hm by auto. lra.
    + destruct Hin as (H1 & H2 & H3 & H4). split; [apply valid_upd; auto|]. split; [apply upd_length|].
      intros Hnd. destruct (upd_split M k c 0 H1) as [Hs ->].
      rewrite Hs in Hnd. apply NoDup_remove in Hnd as [Hnd _].
      assert (Hc : ~ In c (firstn k M ++ skipn (S k) M)).
      { intro Hx. apply H3. rewrite Hs. apply in_app_iff in Hx as [Hx|Hx]; apply in_or_app; [auto|right; right; auto]. }
      revert Hnd Hc. generalize (firstn k M) (skipn (S k) M). intros l1 l2 Hnd Hc.
      apply (Permutation_NoDup (l := c :: l1 ++ l2)); [apply Permutation_middle|constructor; auto].
  - apply min_by_none in E. intros k c Ha. apply (exchanges_allowed M k c Hne) in Ha. rewrite E in Ha. contradiction.
Qed.

Lemma kmedoids_loop_spec tol left : forall change M it total, valid M -> (total == deviation D n M)%Q ->
  let '(M', it', total') := kmedoids_loop D n tol left change M it total in
  valid M' /\ length M' = length M /\ (NoDup M -> NoDup M') /\ (total' == deviation D n M')%Q /\ it <= it' <= it + left /\
  (exceeds change tol = true -> pam D n tol left M (it' - it) M') /\
  (exceeds change tol = false -> M' = M /\ it' = it).
Proof.
  induction left as [|left IH]; intros change M it total Hv Ht; cbn [kmedoids_loop].
  - split; auto. split; auto. split; auto. split; auto. split; [lia|]. split; auto. intros _. rewrite Nat.sub_diag. constructor.
  - destruct (exceeds change tol) eqn:E.
    2:{ split; auto. split; auto. split; auto. split; auto. split; [lia|]. split; [discriminate|auto]. }
    pose proof (swap_medoids_spec M Hv) as Hs. destruct (swap_medoids D n M (table D n M)) as [M1|].
    + destruct Hs as (Hb & Hv1 & Hl1 & Hn1).
      assert (Ht1 : (med_deviation D n M1 == deviation D n M1)%Q) by (apply med_deviation_spec; apply Hv1).
      specialize (IH (Some (total - med_deviation D n M1)%Q) M1 (S it) (med_deviation D n M1) Hv1 Ht1).
      destruct (kmedoids_loop D n tol left (Some (total - med_deviation D n M1)%Q) M1 (S it) (med_deviation D n M1)) as [[M' it'] total'].
      destruct IH as (H1 & H2 & H3 & H4 & H5 & H6 & H7).
      split; auto. split; [congruence|]. split; auto. split; auto. split; [lia|]. split; [|discriminate].
      intros _. cbn [exceeds] in H6, H7. destruct (Qltb tol (total - med_deviation D n M1)) eqn:Eq.
      * replace (it' - it) with (S (it' - S it)) by lia. apply pam_step with M1; auto. apply Qltb_true in Eq. lra.
      * destruct (H7 eq_refl) as [-> ->]. replace (S it - it) with 1 by lia. apply pam_last; auto. apply Qltb_false in Eq. lra.
    + split; auto. split; auto. split; auto. split; auto. split; [lia|]. split; [|discriminate]. intros _.
      replace (S it - it) with 1 by lia. apply pam_none; auto.
Qed.

(** ** the result *)
Lemma med_clusters_groups M : med_clusters D n M = groups_of (fun i => t_label (nearest2 D M i)) n (length M).
Proof. unfold med_clusters. apply push_groups. Qed.

Lemma erase_fst clusters medoids : length clusters = length medoids ->
  fst (erase_empty clusters medoids) = filter nonempty clusters.
Proof.
  revert medoids. induction clusters as [|c t IH]; intros [|m ms] H; simpl in *; try lia; auto.
  specialize (IH ms ltac:(lia)). unfold erase_empty in *. cbn [fst] in *. simpl. destruct (nonempty c); simpl; [f_equal|]; exact IH.
Qed.

Lemma erase_nth clusters medoids : length clusters = length medoids ->
  length (snd (erase_empty clusters medoids)) = length (fst (erase_empty clusters medoids)) /\
  forall k, k < length (fst (erase_empty clusters medoids)) ->
   exists j, j < length clusters /\ nth k (fst (erase_empty clusters medoids)) [] = nth j clusters [] /\
             nth k (snd (erase_empty clusters medoids)) 0 = nth j medoids 0.
Proof.
  intros H. unfold erase_empty. cbn [fst snd]. split; [now rewrite !map_length|]. intros k Hk. rewrite map_length in Hk.
  set (kept := filter (fun cm => nonempty (fst cm)) (combine clusters medoids)) in *.
  assert (Hin : In (nth k kept ([], 0)) (combine clusters medoids)).
  { assert (Hi : In (nth k kept ([], 0)) kept) by (apply nth_In; auto). apply filter_In in Hi. tauto. }
  destruct (combine_nth_in clusters medoids _ [] 0 H Hin) as [j [Hj E]]. exists j. split; auto.
  split.
  - change [] with (fst (@nil nat, 0)). rewrite map_nth. rewrite E. reflexivity.
  - change 0 with (snd (@nil nat, 0)). rewrite map_nth, E. reflexivity.
Qed.

Lemma erase_subset clusters medoids m : In m (snd (erase_empty clusters medoids)) -> In m medoids.
Proof.
  unfold erase_empty. cbn [snd]. intros H. apply in_map_iff in H as [[c x] [<- H]]. apply filter_In in H as [H _].
  apply in_combine_r in H. auto.
Qed.
Lemma erase_nodup clusters : forall medoids, NoDup medoids -> NoDup (snd (erase_empty clusters medoids)).
Proof.
  induction clusters as [|c t IH]; intros [|m ms] H; simpl; try constructor. inversion H as [|? ? H1 H2]; subst.
  specialize (IH ms H2). unfold erase_empty in *. cbn [snd] in *. destruct (nonempty c); simpl; auto. constructor; auto.
  intro Hin. apply H1. exact (erase_subset t ms m Hin).
Qed.

Theorem kmedoids_process_spec initial tol itermax r : valid initial -> 1 <= itermax ->
  kmedoids_process D n initial tol itermax = Ok r ->
  partitions n (r_clusters r) /\ no_empty (r_clusters r) /\ length (r_medoids r) = length (r_clusters r) /\
  length (r_medoids r) <= length initial /\ (forall m, In m (r_medoids r) -> m < n) /\ (NoDup initial -> NoDup (r_medoids r)) /\
  (forall k i, k < length (r_clusters r) -> In i (nth k (r_clusters r) []) ->
     forall m, In m (r_medoids r) -> (D i (nth k (r_medoids r) 0%nat) <= D i m)%Q) /\
  exists M, pam D n tol itermax initial (r_iterations r) M /\ (r_total r == deviation D n M)%Q /\
     (forall m, In m (r_medoids r) -> In m M) /\
     (forall i, i < n -> (least (D i) (r_medoids r) == least (D i) M)%Q).
Proof.
  intros Hv Hi H. pose proof Hv as [Hne Hlt]. unfold kmedoids_process in H.
  destruct (n =? 0) eqn:En; [discriminate|]. destruct initial as [|m0 mt] eqn:Einit; [discriminate|]. rewrite <- Einit in *. clear Einit.
  destruct (Qltb tol 0); [discriminate|]. destruct itermax as [|it]; [lia|].
  pose proof (kmedoids_loop_spec tol (S it) None initial 0 (med_deviation D n initial) Hv (med_deviation_spec initial Hne)) as Hs.
  destruct (kmedoids_loop D n tol (S it) None initial 0 (med_deviation D n initial)) as [[M T] total].
  destruct Hs as (Hv' & Hl & Hnd & Ht & _ & Hp & _). specialize (Hp eq_refl). rewrite Nat.sub_0_r in Hp.
  destruct (erase_empty (med_clusters D n M) M) as [cl ms] eqn:Ee. apply Ok_inj in H. subst r. cbn [r_clusters r_medoids r_total r_iterations].
  pose proof Hv' as [Hne' Hlt'].
  assert (Hlab : forall i, i < n -> t_label (nearest2 D M i) < length M).
  { intros i _. pose proof (nearest2_spec D i M Hne') as Hs. destruct (nearest2 D M i) as [[io f] s]. destruct Hs as (Hs & _). exact Hs. }
  assert (Hlen : length (med_clusters D n M) = length M) by (rewrite med_clusters_groups; unfold groups_of; now rewrite map_length, seq_length).
  pose proof (erase_fst _ _ Hlen) as Hf. pose proof (erase_nth _ _ Hlen) as [Hn1 Hn2].
  pose proof (erase_subset (med_clusters D n M) M) as Hsub. pose proof (erase_nodup (med_clusters D n M) M) as Hnd2.
  rewrite Ee in *. cbn [fst snd] in *.
  assert (Hpart : partitions n cl) by (rewrite Hf, med_clusters_groups; apply groups_partition; auto).
  assert (Hnear : forall k i, k < length cl -> In i (nth k cl []) -> i < n /\ forall m, In m M -> (D i (nth k ms 0%nat) <= D i m)%Q).
  { intros k i Hk Hin. destruct (Hn2 k Hk) as (j & Hj & E1 & E2). rewrite E1, med_clusters_groups in Hin. rewrite E2. unfold groups_of in Hin.
    rewrite Hlen in Hj. rewrite nth_map_seq0 in Hin by auto. apply filter_In in Hin as [Hin E]. apply in_seq in Hin. apply Nat.eqb_eq in E.
    split; [lia|]. pose proof (nearest2_spec D i M Hne') as Hs. destruct (nearest2 D M i) as [[io f] s]. destruct Hs as (_ & Hs1 & Hs2 & _).
    cbn in E. subst io. intros m Hm. apply (In_nth _ _ 0) in Hm as [a [Ha <-]]. specialize (Hs2 a Ha). lra. }
  split; [exact Hpart|]. split; [rewrite Hf; apply filter_nonempty_no_empty|]. split; [exact Hn1|].
  split. { rewrite Hn1, Hf, <- Hl, <- Hlen. apply filter_length_le'. }
  split; [intros m Hm; apply Hlt', Hsub, Hm|]. split; [intros; apply Hnd2, Hnd; auto|].
  split; [intros k i Hk Hin m Hm; apply Hnear; auto|].
  exists M. split; [exact Hp|]. split; [exact Ht|]. split; [exact Hsub|]. intros i Hin.
  assert (Hi2 : In i (concat cl)) by (apply (Permutation_in _ (Permutation_sym Hpart)); apply in_seq; lia).
  apply in_concat in Hi2 as [g [Hg Hig]]. apply (In_nth _ _ []) in Hg as [k [Hk <-]].
  assert (Hkm : In (nth k ms 0) ms) by (apply nth_In; rewrite Hn1; exact Hk).
  symmetry. apply least_unique.
  - intro E. rewrite E in Hkm. contradiction.
  - exists (nth k ms 0). split; auto. symmetry. apply least_unique; auto.
    + exists (nth k ms 0). split; [apply Hsub; auto|reflexivity].
    + intros m Hm. apply (Hnear k i Hk Hig). auto.
  - intros m Hm. apply least_spec; auto.
Qed.
End Medoids.

(** * BUILD *)
Section Build.
Variable D : nat -> nat -> Q.
Variable n : nat.
Hypothesis D_diag : forall i, i < n -> (D i i == 0)%Q.
Hypothesis D_pos : forall i j, i < n -> j < n -> (0 <= D i j)%Q.

(** deviation with the distance taken from the medoid to the point *)
Definition build_deviation (M : list nat) : Q := qsum (map (fun j => least (fun m => D m j) M) (seq 0 n)).

(** chosen greedily: every element minimises the deviation over all indexes not chosen before *)
Definition greedy (M : list nat) : Prop :=
  forall pre x post, M = pre ++ x :: post ->
  forall y, y < n -> ~ In y pre -> (build_deviation (pre ++ [x]) <= build_deviation (pre ++ [y]))%Q.

Definition build_inv (st : list nat * list Q) : Prop :=
  let '(M, closest) := st in
  M <> [] /\ NoDup M /\ (forall m, In m M -> m < n) /\ length closest = n /\
  (forall j, j < n -> (nth j closest 0 == least (fun m => D m j) M)%Q) /\ greedy M.

Lemma least_zero M j : In j M -> (forall m, In m M -> m < n) -> (0 == least (fun m => D m j) M)%Q.
Proof.
  intros Hj Hv. apply least_unique.
  - intro E. subst. contradiction.
  - exists j. split; auto. symmetry. apply D_diag. auto.
  - intros m Hm. apply D_pos; auto.
Qed.

Lemma least_snoc f M i : M <> [] -> (pymin (f i) (least f M) == least f (M ++ [i]))%Q.
Proof.
  intros Hne. destruct (least_spec f M Hne) as [[m [Hm Em]] Hle].
  unfold pymin. destruct (Qltb (least f M) (f i)) eqn:E; [apply Qltb_true in E|apply Qltb_false in E].
  - apply least_unique; [destruct M; discriminate| |].
    + exists m. split; [apply in_or_app; auto|auto].
    + intros z Hz. apply in_app_iff in Hz as [Hz|[<-|[]]]; [auto|lra].
  - apply least_unique; [destruct M; discriminate| |].
    + exists i. split; [apply in_or_app; simpl; auto|reflexivity].
    + intros z Hz. apply in_app_iff in Hz as [Hz|[<-|[]]]; [|lra]. specialize (Hle z Hz). lra.
Qed.

Lemma pymin_compat a a' b b' : (a == a')%Q -> (b == b')%Q -> (pymin a b == pymin a' b')%Q.
Proof.
  intros Ha Hb. unfold pymin. destruct (Qltb b a) eqn:E1, (Qltb b' a') eqn:E2;
  repeat match goal with H : Qltb _ _ = true |- _ => apply Qltb_true in H | H : Qltb _ _ = false |- _ => apply Qltb_false in H end; lra.
Qed.

Lemma next_distances_spec M closest i j : build_inv (M, closest) -> i < n -> j < n -> 
  (nth j (next_distances D n M closest i) 0 == least (fun m => D m j) (M ++ [i]))%Q.
Proof.
  intros (H1 & H2 & H3 & H4 & H5 & _) Hi Hj. unfold next_distances. rewrite nth_map_seq0 by auto.
  assert (Hv : forall m, In m (M ++ [i]) -> m < n) by (intros m Hm; apply in_app_iff in Hm as [Hm|[<-|[]]]; auto).
  destruct (Nat.eqb_spec i j) as [->|Hij]; [cbn [orb]; apply least_zero; auto; apply in_or_app; simpl; auto|].
  cbn [orb]. destruct (mem j M) eqn:E.
  - apply mem_true in E. apply least_zero; auto. apply in_or_app. auto.
  - rewrite <- (least_snoc (fun m => D m j)) by auto. apply pymin_compat; [reflexivity|auto].
Qed.

Lemma sum_next M closest i : build_inv (M, closest) -> i < n ->
  (sumQ (next_distances D n M closest i) == build_deviation (M ++ [i]))%Q.
Proof.
  intros Hinv Hi. rewrite sumQ_qsum. unfold build_deviation.
  assert (E : next_distances D n M closest i = map (fun j => nth j (next_distances D n M closest i) 0%Q) (seq 0 n)).
  { unfold next_distances at 1. apply map_ext_in. intros j Hj. apply in_seq in Hj. unfold next_distances. now rewrite nth_map_seq0 by lia. }
  rewrite E. apply qsum_ext. intros j Hj. apply in_seq in Hj. apply next_distances_spec; auto. lia.
Qed.

Lemma build_next_spec st st' : build_inv st -> build_next D n st = Some st' ->
  build_inv st' /\ length (fst st') = S (length (fst st)).
Proof.
  destruct st as [M closest]. intros Hinv H. unfold build_next in H.
  destruct (build_choose (next_distances D n M closest) (filter (fun i => negb (mem i M)) (seq 0 n))) as [i|] eqn:E; [|discriminate].
  assert (st' = (M ++ [i], next_distances D n M closest i)) as -> by congruence. clear H.
  unfold build_choose in E. apply min_by_spec in E as [Hin Hmin]. apply filter_In in Hin as [Hin Hm]. apply in_seq in Hin.
  apply negb_true_iff in Hm. assert (HiM : ~ In i M) by (intro Hc; apply mem_true in Hc; congruence).
  pose proof Hinv as (H1 & H2 & H3 & H4 & H5 & H6).
  split; [|cbn [fst]; rewrite app_length; simpl; lia].
  split; [destruct M; discriminate|]. split; [apply NoDup_app_snoc; auto|].
  split; [intros m Hm'; apply in_app_iff in Hm' as [Hm'|[<-|[]]]; [auto|lia]|].
  split; [unfold next_distances; now rewrite map_length, seq_length|].
  split; [intros j Hj; apply next_distances_spec; auto; lia|].
  intros pre x post Epre y Hy Hny. apply snoc_inv in Epre.
  destruct Epre as [(-> & <- & <-)|(post' & -> & E')].
  - rewrite <- !(sum_next _ closest) by (auto; lia). apply Hmin. apply filter_In. split; [apply in_seq; lia|].
    apply negb_true_iff. destruct (mem y M) eqn:Ey; auto. apply mem_true in Ey. contradiction.
  - apply (H6 pre x post'); auto.
Qed.

Lemma build_next_some M closest : build_inv (M, closest) -> length M < n -> exists st', build_next D n (M, closest) = Some st'.
Proof.
  intros (H1 & H2 & H3 & _) Hl. unfold build_next.
  destruct (build_choose (next_distances D n M closest) (filter (fun i => negb (mem i M)) (seq 0 n))) as [i|] eqn:E; [eauto|].
  exfalso. unfold build_choose in E. apply min_by_none in E.
  assert (Hincl : incl (seq 0 n) M).
  { intros i Hi. destruct (mem i M) eqn:Em; [apply mem_true; auto|]. exfalso.
    assert (Hf : In i (filter (fun i => negb (mem i M)) (seq 0 n))) by (apply filter_In; split; auto; now rewrite Em).
    rewrite E in Hf. contradiction. }
  apply NoDup_incl_length in Hincl; [|apply seq_NoDup]. rewrite seq_length in Hincl. lia.
Qed.

Lemma build_loop_spec k : forall M closest, build_inv (M, closest) -> length M + k <= n ->
  exists M' closest', build_loop D n k (M, closest) = Some (M', closest') /\ build_inv (M', closest') /\ length M' = length M + k.
Proof.
  induction k as [|k IH]; intros M closest Hinv Hl; cbn [build_loop].
  - exists M, closest. split; [auto|]. split; [auto|lia].
  - destruct (build_next_some M closest Hinv ltac:(lia)) as [[M1 c1] E]. rewrite E.
    destruct (build_next_spec _ _ Hinv E) as [Hinv1 Hl1]. cbn [fst] in Hl1.
    destruct (IH M1 c1 Hinv1 ltac:(lia)) as (M' & c' & H1 & H2 & H3). exists M', c'. split; auto. split; auto. lia.
Qed.

Lemma build_first_spec : 1 <= n -> exists M closest, build_first D n = (M, closest) /\ build_inv (M, closest) /\ length M = 1.
Proof.
  intros Hn. unfold build_first. destruct (build_choose (first_distances D n) (seq 0 n)) as [i|] eqn:E.
  2:{ unfold build_choose in E. apply min_by_none in E. destruct n; [lia|discriminate]. }
  exists [i], (first_distances D n i). split; auto. split; auto. unfold build_choose in E. apply min_by_spec in E as [Hin Hmin].
  apply in_seq in Hin.
  assert (Hd : forall i j, i < n -> j < n -> (nth j (first_distances D n i) 0 == D i j)%Q).
  { intros a j Ha Hj. unfold first_distances. rewrite nth_map_seq0 by auto. destruct (Nat.eqb_spec a j) as [->|]; [symmetry; auto|reflexivity]. }
  assert (Hs : forall i, i < n -> (sumQ (first_distances D n i) == build_deviation [i])%Q).
  { intros a Ha. rewrite sumQ_qsum. unfold build_deviation, first_distances. apply qsum_ext. intros j Hj. apply in_seq in Hj. cbn [least].
    destruct (Nat.eqb_spec a j) as [->|]; [symmetry; auto|reflexivity]. }
  split; [discriminate|]. split; [constructor; [simpl; tauto|constructor]|]. split; [intros m [<-|[]]; lia|].
  split; [unfold first_distances; now rewrite map_length, seq_length|].
  split; [intros j Hj; cbn [least]; apply Hd; lia|].
  intros pre x post Epre y Hy _. destruct pre as [|p pre]; [|destruct pre; discriminate].
  injection Epre as -> _. cbn [app]. rewrite <- !Hs by (auto; lia). apply Hmin. apply in_seq. lia.
Qed.

Theorem build_initialize_spec k : 1 <= k -> k <= n ->
  exists M, build_initialize D n k = Ok M /\ length M = k /\ NoDup M /\ (forall m, In m M -> m < n) /\ greedy M.
Proof.
  intros Hk Hn. unfold build_initialize. destruct (Nat.eqb_spec n 0); [lia|]. destruct (Nat.ltb_spec k 1); [lia|].
  destruct (Nat.ltb_spec n k); [lia|].
  destruct (build_first_spec ltac:(lia)) as (M & closest & E & Hinv & Hl). rewrite E.
  destruct (build_loop_spec (k - 1) M closest Hinv ltac:(lia)) as (M' & c' & E' & (H1 & H2 & H3 & H4 & H5 & H6) & Hl').
  rewrite E'. exists M'. split; auto. split; [lia|]. split; auto.
Qed.
End Build.
