(** C258: k-means and k-medians started from given centres give the same clusters
    whatever the order of the points, and also when every point is given several times. *)
From Verif Require Import Base Kmeans_Model Kmeans_Proofs Scaled_Proofs Unit_Props.
Open Scope nat_scope.

(** ** specification *)
(** [ord] is a list of positions of [n] points in which each stands [m] times *)
Definition copies (m n : nat) (ord : list nat) : Prop := Permutation ord (concat (repeat (seq 0 n) m)).
(** the points at these positions *)
Definition pick (data : list point) (ord : list nat) : list point := map (fun i => nth i data []) ord.
(** the group [g'] of the rewritten data has the copies of the members of [g] *)
Definition same_members (m : nat) (ord : list nat) (g g' : list nat) : Prop :=
  Permutation (map (fun i => nth i ord 0) g') (concat (repeat g m)).
Definition same_but_order (m : nat) (ord : list nat) (r r' : list (list nat) * list point * Q) : Prop :=
  let '(cl, ce, w) := r in let '(cl', ce', w') := r' in
  Forall2 (same_members m ord) cl cl' /\ Forall2 peq ce ce' /\ (w' == inject_Z (Z.of_nat m) * w)%Q.

(** ** lists *)
Lemma perm_filter {A} (f : A -> bool) l l' : Permutation l l' -> Permutation (filter f l) (filter f l').
Proof.
  induction 1; cbn [filter]; auto.
  - destruct (f x); auto.
  - destruct (f x), (f y); auto. apply perm_swap.
  - eapply Permutation_trans; eauto.
Qed.
Lemma filter_through {A B} (f : A -> B) (p : B -> bool) l : map f (filter (fun i => p (f i)) l) = filter p (map f l).
Proof. induction l as [|x t IH]; cbn [filter map]; [reflexivity|]. destruct (p (f x)); cbn [map]; congruence. Qed.
Lemma filter_concat_repeat {A} (p : A -> bool) l m : filter p (concat (repeat l m)) = concat (repeat (filter p l) m).
Proof. induction m as [|m IH]; cbn [repeat concat]; [reflexivity|]. now rewrite filter_app, IH. Qed.
Lemma map_concat_repeat {A B} (f : A -> B) l m : map f (concat (repeat l m)) = concat (repeat (map f l) m).
Proof. induction m as [|m IH]; cbn [repeat concat]; [reflexivity|]. now rewrite map_app, IH. Qed.
Lemma length_concat_repeat {A} (l : list A) m : length (concat (repeat l m)) = m * length l.
Proof. induction m as [|m IH]; cbn [repeat concat]; [reflexivity|]. rewrite app_length, IH. cbn. lia. Qed.
Lemma in_concat_repeat {A} (l : list A) m x : In x (concat (repeat l m)) -> In x l.
Proof. intro H. apply in_concat in H as (y & H1 & H2). apply repeat_spec in H1. now subst. Qed.
Lemma positions (ord : list nat) : map (fun i => nth i ord 0) (seq 0 (length ord)) = ord.
Proof.
  apply (nth_ext _ _ 0 0); rewrite map_length, seq_length; [reflexivity|]. intros k Hk. now rewrite nth_map_seq0 by exact Hk.
Qed.
Lemma qsum_repeat l m : (qsum (concat (repeat l m)) == inject_Z (Z.of_nat m) * qsum l)%Q.
Proof.
  induction m as [|m IH]; cbn [repeat concat]; [cbn; ring|]. rewrite qsum_app, IH, Nat2Z.inj_succ. unfold Z.succ. rewrite inject_Z_plus. ring.
Qed.

Lemma assign_nonempty metric (data centers : list point) : data <> [] -> centers <> [] -> assign metric data centers <> [].
Proof.
  intros Hne Hc E. pose proof (assign_partition metric data centers Hc) as P. unfold partitions in P. rewrite E in P. cbn in P. apply Permutation_nil in P. destruct data; [congruence|discriminate].
Qed.

Section Reordered.
Variables (metric : point -> point -> Q) (data : list point) (m : nat) (ord : list nat) (dim : nat).
Hypothesis metric_peq : forall p p' q q', peq p p' -> peq q q' -> (metric p' q' == metric p q)%Q.
Hypothesis m_pos : 0 < m.
Hypothesis Hord : copies m (length data) ord.
Hypothesis Hdim : forall p, In p data -> length p = dim.
Hypothesis Hne : data <> [].

Notation data' := (pick data ord).
Notation M := (inject_Z (Z.of_nat m)).

Lemma ord_bound i : In i ord -> i < length data.
Proof. intro H. apply (Permutation_in _ Hord), in_concat_repeat, in_seq in H. lia. Qed.
Lemma ord_length : length ord = m * length data.
Proof. rewrite (Permutation_length Hord), length_concat_repeat, seq_length. reflexivity. Qed.
Lemma pick_nth i : i < length ord -> nth i data' [] = nth (nth i ord 0) data [].
Proof. intro H. unfold pick. rewrite (nth_indep _ [] (nth 0 data [])) by (rewrite map_length; exact H). apply (map_nth (fun i => nth i data []) ord 0 i). Qed.
Lemma pick_in p : In p data' -> In p data.
Proof. intro H. apply in_map_iff in H as (i & <- & Hi). apply nth_In, ord_bound, Hi. Qed.
Lemma pick_nonempty : data' <> [].
Proof. intro E. apply map_eq_nil in E. pose proof ord_length as W. rewrite E in W. cbn in W. destruct data; [congruence|]. cbn in W. nia. Qed.
Lemma dims : dimension data = dim /\ dimension data' = dim.
Proof.
  unfold dimension. split; apply Hdim; [destruct data; [congruence|left; reflexivity]|]. apply pick_in, nth_In. pose proof pick_nonempty. destruct data'; [congruence|cbn; lia].
Qed.

Lemma one_times a b : (b == a)%Q -> times 1 a b. Proof. unfold times. intros ->. ring. Qed.
Lemma times_one a b : times 1 a b -> (b == a)%Q. Proof. unfold times. intros ->. ring. Qed.
Lemma one_pos : (0 < 1)%Q. Proof. reflexivity. Qed.

Definition label (centers : list point) (i : nat) : nat := argmin (map (metric (nth i data [])) centers).

Lemma labels_same' centers centers' i : Forall2 peq centers centers' -> i < length ord ->
  argmin (map (metric (nth i data' [])) centers') = label centers (nth i ord 0).
Proof.
  intros H Hi. rewrite pick_nth by exact Hi. unfold label. apply (times_argmin 1 one_pos). clear Hi.
  induction H as [|c c' l l' Hc Hl IH]; cbn [map]; constructor; auto. apply one_times, metric_peq; [apply peq_refl|exact Hc].
Qed.

Lemma groups_same centers centers' : Forall2 peq centers centers' -> Forall2 (same_members m ord) (assign metric data centers) (assign metric data' centers').
Proof.
  intro H. unfold assign. assert (L : length centers' = length centers) by apply (both_length _ _ _ H). rewrite L. unfold groups_of.
  induction (seq 0 (length centers)) as [|k t IH]; cbn [map filter]; [constructor|].
  assert (G : same_members m ord (filter (fun i => argmin (map (metric (nth i data [])) centers) =? k) (seq 0 (length data))) (filter (fun i => argmin (map (metric (nth i data' [])) centers') =? k) (seq 0 (length data')))).
  { unfold same_members. rewrite <- filter_concat_repeat.
    rewrite (filter_ext_in _ (fun i => label centers (nth i ord 0) =? k)).
    2:{ intros i Hi. apply in_seq in Hi. unfold pick in Hi. rewrite map_length in Hi. rewrite (labels_same' centers centers') by (auto; lia). reflexivity. }
    rewrite (filter_through (fun i => nth i ord 0) (fun j => label centers j =? k)). unfold pick at 1. rewrite map_length, positions. apply perm_filter. exact Hord. }
  destruct (filter (fun i => argmin (map (metric (nth i data [])) centers) =? k) (seq 0 (length data))) as [|a u] eqn:E1, (filter (fun i => argmin (map (metric (nth i data' [])) centers') =? k) (seq 0 (length data'))) as [|a' u'] eqn:E2; cbn [nonempty]; auto.
  - exfalso. apply Permutation_length in G. rewrite length_concat_repeat, map_length in G. cbn in G. lia.
  - exfalso. apply Permutation_length in G. rewrite length_concat_repeat, map_length in G. cbn in G. nia.
Qed.

(** groups of both data sets that belong together *)
Definition paired (g g' : list nat) : Prop := same_members m ord g g' /\ g <> [] /\ (forall i, In i g -> i < length data) /\ forall i, In i g' -> i < length ord.
Lemma paired_same clusters clusters' : Forall2 paired clusters clusters' -> Forall2 (same_members m ord) clusters clusters'.
Proof. induction 1 as [|? ? ? ? H]; constructor; auto. apply H. Qed.

Lemma groups_paired centers centers' : centers <> [] -> Forall2 peq centers centers' -> Forall2 paired (assign metric data centers) (assign metric data' centers').
Proof.
  intros Hc H. pose proof (groups_same _ _ H) as G. assert (Hc' : centers' <> []) by (intro; subst; inversion H; subst; congruence).
  assert (V : forall g, In g (assign metric data centers) -> g <> [] /\ forall i, In i g -> i < length data).
  { intros g Hg. rewrite <- kmeans_assign in Hg. destruct (update_valid metric data centers Hc g Hg); auto. }
  assert (V' : forall g, In g (assign metric data' centers') -> forall i, In i g -> i < length ord).
  { intros g Hg i Hi. rewrite <- kmeans_assign in Hg. destruct (update_valid metric data' centers' Hc' g Hg) as (_ & W). specialize (W i Hi). unfold pick in W. now rewrite map_length in W. }
  clear H. induction G as [|g g' l l' Hg Hl IH]; constructor.
  - split; [exact Hg|]. destruct (V g (or_introl eq_refl)). split; [assumption|]. split; [assumption|]. intros i. apply V'. left. reflexivity.
  - apply IH; intros; [apply V|eapply V']; try (right; eassumption); eauto.
Qed.

(** values of the members *)
Lemma members_values (f : point -> Q) g g' : paired g g' -> Permutation (map (fun i => f (nth i data' [])) g') (concat (repeat (map (fun i => f (nth i data [])) g) m)).
Proof.
  intros (H & _ & _ & B). rewrite <- map_concat_repeat. rewrite (map_ext_in _ (fun i => (fun j => f (nth j data [])) (nth i ord 0))).
  2:{ intros i Hi. now rewrite pick_nth by (apply B; exact Hi). }
  rewrite <- (map_map (fun i => nth i ord 0) (fun j => f (nth j data []))). apply Permutation_map. exact H.
Qed.
Lemma paired_length g g' : paired g g' -> length g' = m * length g.
Proof. intros (H & _). apply Permutation_length in H. now rewrite map_length, length_concat_repeat in H. Qed.

Lemma mean_same g g' : paired g g' -> peq (mean_point dim (map (fun i => nth i data []) g)) (mean_point dim (map (fun i => nth i data' []) g')).
Proof.
  intro H. unfold mean_point. rewrite !map_length, (paired_length _ _ H). induction (seq 0 dim) as [|d t IH]; cbn [map]; constructor; [|exact IH].
  rewrite !map_map, !sumQ_qsum, (qsum_perm _ _ (members_values (fun p => coord p d) _ _ H)), qsum_repeat.
  rewrite Nat2Z.inj_mul, inject_Z_mult. field. destruct H as (_ & Hg & _). split; [destruct g; [congruence|]|]; unfold Qeq, inject_Z; cbn; lia.
Qed.

Lemma centers_same clusters clusters' : Forall2 paired clusters clusters' -> Forall2 peq (kmeans_update_centers data clusters) (kmeans_update_centers data' clusters').
Proof.
  intro H. unfold kmeans_update_centers. destruct dims as (-> & ->). induction H; cbn [map]; constructor; auto. apply mean_same. assumption.
Qed.

Lemma nth_peq l l' : Forall2 peq l l' -> forall i, peq (nth i l []) (nth i l' []).
Proof. induction 1; intros [|i]; cbn [nth]; auto; constructor. Qed.

Lemma changes_same centers centers' up up' : Forall2 peq centers centers' -> Forall2 peq up up' -> times_opt 1 (kmeans_changes metric centers up) (kmeans_changes metric centers' up').
Proof.
  intros H1 H2. unfold kmeans_changes. rewrite (both_length _ _ _ H1), (both_length _ _ _ H2). destruct (length centers =? length up); [|exact I]. cbn [times_opt]. apply (times_max 1 one_pos).
  revert up up' H2. induction H1 as [|c c' l l' Hc Hl IH]; intros up up' H2; cbn [combine map]; [constructor|]. destruct H2 as [|u u' k k' Hu Hk]; cbn [map]; constructor; cbn [fst snd]; auto.
  apply one_times, metric_peq; assumption.
Qed.

Lemma exceeds_same change change' tol : times_opt 1 change change' -> exceeds change' tol = exceeds change tol.
Proof. intro H. apply (exceeds_times 1 one_pos _ _ _ _ H). apply one_times. reflexivity. Qed.

Lemma paired_nth clusters clusters' : Forall2 paired clusters clusters' -> forall k, k < length clusters -> paired (nth k clusters []) (nth k clusters' []).
Proof. induction 1; intros [|k] Hk; cbn [nth length] in *; auto; try lia. apply IHForall2. lia. Qed.

Lemma wce_same clusters clusters' centers centers' : Forall2 paired clusters clusters' -> Forall2 peq centers centers' ->
  (total_wce metric data' clusters' centers' == M * total_wce metric data clusters centers)%Q.
Proof.
  intros H Hc. unfold total_wce. rewrite !sumQ_qsum, (both_length _ _ _ H).
  assert (G : forall l, (forall k, In k l -> k < length clusters) ->
    (qsum (concat (map (fun k => map (fun i => metric (nth i data' []) (nth k centers' [])) (nth k clusters' [])) l)) ==
     M * qsum (concat (map (fun k => map (fun i => metric (nth i data []) (nth k centers [])) (nth k clusters [])) l)))%Q).
  { induction l as [|k t IH]; intro Hk; cbn [map concat]; [cbn; ring|]. rewrite !qsum_app, IH by (intros; apply Hk; right; assumption).
    rewrite (qsum_perm _ _ (members_values (fun p => metric p (nth k centers' [])) _ _ (paired_nth _ _ H k (Hk k (or_introl eq_refl))))), qsum_repeat.
    assert (E : (qsum (map (fun i => metric (nth i data []) (nth k centers' [])) (nth k clusters [])) == qsum (map (fun i => metric (nth i data []) (nth k centers [])) (nth k clusters [])))%Q).
    { induction (nth k clusters []) as [|i u IHu]; cbn [map]; [reflexivity|]. unfold qsum in *. cbn [fold_right]. rewrite IHu. rewrite (metric_peq (nth i data []) (nth i data []) _ _ (peq_refl _) (nth_peq _ _ Hc k)). reflexivity. }
    rewrite E. ring. }
  apply G. intros k Hk. apply in_seq in Hk. lia.
Qed.

Lemma loop_reordered tol : forall left change change' clusters clusters' centers centers', times_opt 1 change change' -> centers <> [] -> Forall2 peq centers centers' -> Forall2 paired clusters clusters' ->
  let '(cl, ce) := kmeans_loop metric data tol left change clusters centers in let '(cl', ce') := kmeans_loop metric data' tol left change' clusters' centers' in
  Forall2 paired cl cl' /\ Forall2 peq ce ce'.
Proof.
  induction left as [|left IH]; intros change change' clusters clusters' centers centers' Hc Hn H Hp; cbn [kmeans_loop]; [auto|].
  rewrite (exceeds_same _ _ _ Hc). destruct (exceeds change tol); [|auto]. cbv zeta. rewrite !kmeans_assign.
  pose proof (groups_paired _ _ Hn H) as G. pose proof (centers_same _ _ G) as U. apply IH; auto; [apply changes_same; assumption|].
  unfold kmeans_update_centers. intro E. apply map_eq_nil in E. apply (assign_nonempty _ _ _ Hne Hn E).
Qed.

Lemma kmeans_reordered initial tol itermax :
  same_run (same_but_order m ord) (kmeans_process metric data initial tol itermax) (kmeans_process metric data' initial tol itermax).
Proof.
  unfold kmeans_process. pose proof dims as (D1 & D2). unfold dimension in D1, D2. pose proof pick_nonempty as Hn'.
  pose proof (loop_reordered tol itermax None None [] [] initial initial I) as W. pose proof wce_same as WC.
  destruct data as [|p0 dt] eqn:Ed; [congruence|]. rewrite <- Ed in *. destruct (pick data ord) as [|q0 dt'] eqn:Ed'; [congruence|]. rewrite <- Ed' in *.
  assert (L0 : length p0 = dim) by (rewrite <- D1, Ed; reflexivity). assert (L1 : length q0 = dim) by (rewrite <- D2, Ed'; reflexivity).
  destruct initial as [|c0 it] eqn:Ei; [reflexivity|]. rewrite <- Ei in *. destruct (Qltb tol 0); [reflexivity|]. rewrite L0, L1. destruct (dim =? length c0); [|reflexivity].
  destruct (kmeans_loop metric data tol itermax None [] initial) as [cl ce], (kmeans_loop metric (pick data ord) tol itermax None [] initial) as [cl' ce'].
  destruct W as (W1 & W2); [rewrite Ei; discriminate| |constructor|].
  { clear. induction initial; constructor; auto. apply peq_refl. }
  cbn [same_run same_but_order]. split; [apply paired_same, W1|]. split; [exact W2|]. apply WC; assumption.
Qed.

(** ** medians *)
Definition below (v : Q) (l : list Q) : nat := length (filter (fun x => Qle_bool x v) l).
Lemma below_sorted v l : StronglySorted Qle l -> forall r, r < length l -> ((nth r l 0 <= v)%Q <-> r < below v l).
Proof.
  unfold below. induction 1 as [|x t Hs IH Hf]; intros r Hr; cbn [length filter] in *; [lia|]. rewrite Forall_forall in Hf.
  destruct (Qle_bool x v) eqn:E.
  - apply Qle_bool_iff in E. destruct r as [|r]; cbn [nth length]; [split; [lia|auto]|]. rewrite IH by lia. lia.
  - apply Qle_bool_false in E. assert (N : filter (fun y => Qle_bool y v) t = []).
    { clear - Hf E. induction t as [|y t IH]; cbn [filter]; [reflexivity|]. destruct (Qle_bool y v) eqn:F; [|apply IH; intros; apply Hf; right; assumption].
      apply Qle_bool_iff in F. specialize (Hf y (or_introl eq_refl)). lra. }
    rewrite N. cbn [length]. split; [|lia]. intro Hx. destruct r as [|r]; cbn [nth] in Hx; [lra|].
    specialize (Hf (nth r t 0%Q) ltac:(apply nth_In; lia)). lra.
Qed.

Lemma ranks_same l l' : StronglySorted Qle l -> StronglySorted Qle l' -> Permutation l' (concat (repeat l m)) -> forall r, r < length l' -> (nth r l' 0 == nth (r / m) l 0)%Q.
Proof.
  intros Hl Hl' P r Hr. assert (L : length l' = m * length l) by (rewrite (Permutation_length P); apply length_concat_repeat).
  assert (D : forall c, r / m < c <-> r < m * c).
  { intro c. split; intro H; [|apply Nat.div_lt_upper_bound; lia]. pose proof (Nat.div_mod r m ltac:(lia)). pose proof (Nat.mod_upper_bound r m ltac:(lia)). nia. }
  assert (Hr' : r / m < length l) by (apply D; lia).
  assert (C : forall v, below v l' = m * below v l).
  { intro v. unfold below. rewrite (Permutation_length (perm_filter _ _ _ P)), filter_concat_repeat. apply length_concat_repeat. }
  apply Qle_antisym.
  - apply (below_sorted _ _ Hl' r Hr). rewrite C. apply D. apply (below_sorted _ _ Hl _ Hr'). lra.
  - apply (below_sorted _ _ Hl _ Hr'). apply D. rewrite <- C. apply (below_sorted _ _ Hl' r Hr). lra.
Qed.

Lemma sorted_keys {A} (key : A -> Q) l : StronglySorted Qle (map key (sort_key key l)).
Proof.
  pose proof (sort_key_sorted key l) as H. induction H as [|x t Hs IH Hf]; cbn [map]; constructor; auto. apply Forall_map. exact Hf.
Qed.

Lemma median_same g g' d : paired g g' -> (kmedians_coord data' g' d == kmedians_coord data g d)%Q.
Proof.
  intro H. unfold kmedians_coord. set (key := fun i => coord (nth i data []) d). set (key' := fun i => coord (nth i data' []) d). cbv beta zeta. fold key key'.
  assert (P : Permutation (map key' (sort_key key' g')) (concat (repeat (map key (sort_key key g)) m))).
  { eapply Permutation_trans; [apply Permutation_map, sort_key_perm|]. eapply Permutation_trans; [apply (members_values (fun p => coord p d) _ _ H)|]. fold key.
    rewrite <- !map_concat_repeat. apply Permutation_map. clear. induction m as [|k IH]; cbn [repeat concat]; [constructor|]. apply Permutation_app; [apply Permutation_sym, sort_key_perm|exact IH]. }
  pose proof (ranks_same _ _ (sorted_keys key g) (sorted_keys key' g') P) as R. rewrite map_length, sort_key_length in R.
  assert (R' : forall r, r < length g' -> (key' (nth r (sort_key key' g') 0%nat) == key (nth (r / m) (sort_key key g) 0%nat))%Q).
  { intros r Hr. specialize (R r Hr). rewrite (nth_indep _ 0%Q (key' 0)) in R by (rewrite map_length, sort_key_length; exact Hr). rewrite map_nth in R. rewrite R.
    assert (Hr' : r / m < length g) by (apply Nat.div_lt_upper_bound; [lia|]; rewrite <- (paired_length _ _ H); exact Hr).
    rewrite (nth_indep _ 0%Q (key 0)) by (rewrite map_length, sort_key_length; exact Hr'). rewrite map_nth. reflexivity. }
  clear R P. rewrite (paired_length _ _ H) in *. destruct H as (_ & Hg & _). assert (Lg : 0 < length g) by (destruct g; [congruence|cbn; lia]). clear Hg. revert R' Lg. generalize (length g). intros n R' Ln. unfold key, key' in R' |- *. cbv beta in R' |- *.
  assert (DU : forall a q, m * q <= a < m * q + m -> a / m = q). { intros a q Ha. symmetry. apply (Nat.div_unique a m q (a - m * q)); lia. }
  assert (H2 : forall a q, 2 * q <= a < 2 * q + 2 -> a / 2 = q). { intros a q Ha. symmetry. apply (Nat.div_unique a 2 q (a - 2 * q)); lia. }
  destruct (Nat.Even_or_Odd n) as [(k & Ek) | (k & Ek)].
  - (* an even number of members *)
    assert (E0 : n mod 2 = 0) by (subst n; rewrite Nat.mul_comm; apply Nat.mod_mul; lia). assert (E1 : (m * n) mod 2 = 0) by (subst n; replace (m * (2 * k)) with (m * k * 2) by lia; apply Nat.mod_mul; lia). rewrite E0, E1. cbn [Nat.eqb].
    assert (A : (m * n - 1) / 2 = m * k - 1) by (apply H2; subst n; nia). assert (B : (n - 1) / 2 = k - 1) by (apply H2; lia). rewrite A, B.
    rewrite !R' by (subst n; nia). rewrite (DU (m * k - 1) (k - 1)) by nia. rewrite (DU (m * k - 1 + 1) k) by nia. replace (k - 1 + 1) with k by lia. reflexivity.
  - assert (E0 : n mod 2 = 1) by (subst n; symmetry; apply (Nat.mod_unique (2 * k + 1) 2 k 1); lia). rewrite E0. cbn [Nat.eqb]. assert (B : (n - 1) / 2 = k) by (apply H2; lia). rewrite B.
    destruct (Nat.Even_or_Odd m) as [(j & Ej) | (j & Ej)].
    + assert (E1 : (m * n) mod 2 = 0) by (replace (m * n) with (j * n * 2) by (rewrite Ej; lia); apply Nat.mod_mul; lia). rewrite E1. cbn [Nat.eqb].
      assert (A : (m * n - 1) / 2 = m * k + j - 1) by (apply H2; nia). rewrite A. rewrite !R' by nia. rewrite (DU (m * k + j - 1) k) by nia. rewrite (DU (m * k + j - 1 + 1) k) by nia. field.
    + assert (E1 : (m * n) mod 2 = 1) by (symmetry; apply (Nat.mod_unique (m * n) 2 (m * k + j) 1); nia). rewrite E1. cbn [Nat.eqb].
      assert (A : (m * n - 1) / 2 = m * k + j) by (apply H2; nia). rewrite A, R' by nia. rewrite (DU (m * k + j) k) by nia. reflexivity.
Qed.

Lemma medians_same clusters clusters' : Forall2 paired clusters clusters' -> Forall2 peq (kmedians_update_medians data clusters) (kmedians_update_medians data' clusters').
Proof.
  intro H. unfold kmedians_update_medians. destruct dims as (-> & ->). induction H as [|g g' l l' Hg Hl IH]; cbn [map]; constructor; [|exact IH].
  clear IH. induction (seq 0 dim) as [|d t IHd]; cbn [map]; constructor; [|exact IHd]. symmetry. apply median_same. exact Hg.
Qed.

Lemma med_changes_same centers centers' up up' : Forall2 peq centers centers' -> Forall2 peq up up' -> times 1 (kmedians_changes metric centers up) (kmedians_changes metric centers' up').
Proof.
  intros H1 H2. unfold kmedians_changes. rewrite (both_length _ _ _ H2). apply (times_max 1 one_pos), map_times. intros k _. apply one_times, metric_peq; apply nth_peq; assumption.
Qed.

Lemma med_loop_reordered tol : forall left change change' clusters clusters' centers centers', times_opt 1 change change' -> centers <> [] -> Forall2 peq centers centers' -> Forall2 paired clusters clusters' ->
  let '(cl, ce) := kmedians_loop metric data tol left change clusters centers in let '(cl', ce') := kmedians_loop metric data' tol left change' clusters' centers' in
  Forall2 paired cl cl' /\ Forall2 peq ce ce'.
Proof.
  induction left as [|left IH]; intros change change' clusters clusters' centers centers' Hc Hn H Hp; cbn [kmedians_loop]; [auto|].
  rewrite (exceeds_same _ _ _ Hc). destruct (exceeds change tol); [|auto]. cbv zeta. assert (Hn' : centers' <> []) by (intro; subst; inversion H; subst; congruence). rewrite (kmedians_assign _ _ _ Hn), (kmedians_assign _ _ _ Hn').
  pose proof (groups_paired _ _ Hn H) as G. pose proof (medians_same _ _ G) as U. apply IH; auto; [cbn [times_opt]; apply med_changes_same; assumption|].
  unfold kmedians_update_medians. intro E. apply map_eq_nil in E. apply (assign_nonempty _ _ _ Hne Hn E).
Qed.

Lemma kmedians_reordered initial tol itermax :
  same_run (same_but_order m ord) (kmedians_process metric data initial tol itermax) (kmedians_process metric data' initial tol itermax).
Proof.
  unfold kmedians_process. pose proof dims as (D1 & D2). unfold dimension in D1, D2. pose proof pick_nonempty as Hn'.
  pose proof (med_loop_reordered tol itermax None None [] [] initial initial I) as W. pose proof wce_same as WC.
  destruct data as [|p0 dt] eqn:Ed; [congruence|]. rewrite <- Ed in *. destruct (pick data ord) as [|q0 dt'] eqn:Ed'; [congruence|]. rewrite <- Ed' in *.
  assert (L0 : length p0 = dim) by (rewrite <- D1, Ed; reflexivity). assert (L1 : length q0 = dim) by (rewrite <- D2, Ed'; reflexivity).
  destruct initial as [|c0 it] eqn:Ei; [reflexivity|]. rewrite <- Ei in *. destruct (Qltb tol 0); [reflexivity|]. rewrite L0, L1. destruct (dim =? length c0); [|reflexivity].
  destruct (kmedians_loop metric data tol itermax None [] initial) as [cl ce], (kmedians_loop metric (pick data ord) tol itermax None [] initial) as [cl' ce'].
  destruct W as (W1 & W2); [rewrite Ei; discriminate| |constructor|].
  { clear. induction initial; constructor; auto. apply peq_refl. }
  cbn [same_run same_but_order]. split; [apply paired_same, W1|]. split; [exact W2|]. apply WC; assumption.
Qed.
End Reordered.

Lemma sqdist_same p p' q q' : peq p p' -> peq q q' -> (sqdist p' q' == sqdist p q)%Q.
Proof. intros H1 H2. rewrite <- (sqdist_peq_l _ _ q' H1), <- (sqdist_peq_r p _ _ H2). reflexivity. Qed.
Lemma manhattan_same p p' q q' : peq p p' -> peq q q' -> (manhattan p' q' == manhattan p q)%Q.
Proof.
  intro H. revert q q'. induction H as [|x x' p p' Hx Hp IH]; intros q q' Hq; destruct Hq as [|y y' q q' Hy Hq]; cbn [manhattan]; try reflexivity. rewrite (IH _ _ Hq), Hx, Hy. reflexivity.
Qed.

(** any order of the points, each given the same number of times *)
Theorem C258_kmeans data m ord dim initial tolerance itermax : (forall p, In p data -> length p = dim) -> 0 < m -> copies m (length data) ord ->
  same_run (same_but_order m ord) (kmeans_process sqdist data initial tolerance itermax) (kmeans_process sqdist (pick data ord) initial tolerance itermax) /\
  same_run (same_but_order m ord) (kmeans_process manhattan data initial tolerance itermax) (kmeans_process manhattan (pick data ord) initial tolerance itermax).
Proof.
  intros Hd Hm Ho. destruct data as [|p t] eqn:E.
  - assert (ord = []) as ->. { apply Permutation_nil. apply Permutation_sym. eapply Permutation_trans; [exact Ho|]. clear. cbn. induction m; cbn; auto. }
    split; reflexivity.
  - rewrite <- E in *. assert (data <> []) by (rewrite E; discriminate). split; eapply kmeans_reordered; eauto using sqdist_same, manhattan_same.
Qed.
Print Assumptions C258_kmeans.

Theorem C258_kmedians data m ord dim initial tolerance itermax : (forall p, In p data -> length p = dim) -> 0 < m -> copies m (length data) ord ->
  same_run (same_but_order m ord) (kmedians_process sqdist data initial tolerance itermax) (kmedians_process sqdist (pick data ord) initial tolerance itermax) /\
  same_run (same_but_order m ord) (kmedians_process manhattan data initial tolerance itermax) (kmedians_process manhattan (pick data ord) initial tolerance itermax).
Proof.
  intros Hd Hm Ho. destruct data as [|p t] eqn:E.
  - assert (ord = []) as ->. { apply Permutation_nil. apply Permutation_sym. eapply Permutation_trans; [exact Ho|]. clear. cbn. induction m; cbn; auto. }
    split; reflexivity.
  - rewrite <- E in *. assert (data <> []) by (rewrite E; discriminate). split; eapply kmedians_reordered; eauto using sqdist_same, manhattan_same.
Qed.
Print Assumptions C258_kmedians.

(** five points, doubled and mixed; both runs end with the same two clusters *)
Example C258_example :
  let data := [[0%Q]; [1%Q]; [2%Q]; [10%Q]; [12%Q]] in let ord := [4; 0; 3; 1; 2; 2; 4; 1; 0; 3] in
  copies 2 5 ord /\
  match kmeans_process sqdist data [[0%Q]; [3%Q]] (1#100) 100, kmeans_process sqdist (pick data ord) [[0%Q]; [3%Q]] (1#100) 100 with
  | Ok (cl, _, _), Ok (cl', _, _) => cl = [[0; 1; 2]; [3; 4]] /\ cl' = [[1; 3; 4; 5; 7; 8]; [0; 2; 6; 9]]
  | _, _ => False
  end.
Proof.
  split; [|vm_compute; split; reflexivity]. unfold copies. cbn [seq repeat concat app].
  apply (Permutation_count_occ Nat.eq_dec). intro x. do 6 (destruct x; [reflexivity|]). reflexivity.
Qed.

(** ** the order of the initial centres (C259) *)
(** no point has two nearest centres *)
Definition untied (metric : point -> point -> Q) (data centers : list point) : Prop :=
  forall p j k, In p data -> nearest metric centers p j -> nearest metric centers p k -> j = k.
(** the same clusters and centres under other numbers *)
Definition renumbered (r r' : list (list nat) * list point * Q) : Prop :=
  let '(cl, ce, w) := r in let '(cl', ce', w') := r' in
  Permutation cl cl' /\ Permutation ce ce' /\ (length cl = length ce -> Permutation (combine cl ce) (combine cl' ce')) /\ (w' == w)%Q.

(** when a point is as near to two centres, the clusters depend on the order *)
Theorem C259_ties_refuted : exists data initial initial' cl cl', Permutation initial initial' /\
  (exists ce w, kmeans_process sqdist data initial (1#1000) 100 = Ok (cl, ce, w)) /\
  (exists ce w, kmeans_process sqdist data initial' (1#1000) 100 = Ok (cl', ce, w)) /\
  ~ exists cl'', Permutation cl' cl'' /\ Forall2 (@Permutation nat) cl cl''.
Proof.
  exists [[0%Q]; [2%Q]; [1%Q]], [[0%Q]; [2%Q]], [[2%Q]; [0%Q]], [[0; 2]; [1]], [[1; 2]; [0]]. split; [apply perm_swap|].
  split; [eexists _, _; vm_compute; reflexivity|]. split; [eexists _, _; vm_compute; reflexivity|].
  intros (cl'' & P & F). inversion F as [|g1 h1 l1 k1 F1 F2]; subst. assert (W : In h1 [[1; 2]; [0]]) by (apply (Permutation_in _ (Permutation_sym P)); left; reflexivity).
  assert (In 0 h1) by (apply (Permutation_in _ F1); left; reflexivity). assert (In 2 h1) by (apply (Permutation_in _ F1); right; left; reflexivity).
  destruct W as [<- | [<- | []]]; cbn in *; lia.
Qed.
Print Assumptions C259_ties_refuted.

Section Renumbered.
Variables (metric : point -> point -> Q) (data : list point).
Hypothesis Hne : data <> [].

(** the points of which [c] is a nearest one of [centers] *)
Definition drawn (centers : list point) (c : point) : list nat :=
  filter (fun i => forallb (fun c' => Qle_bool (metric (nth i data []) c) (metric (nth i data []) c')) centers) (seq 0 (length data)).

Lemma drawn_perm centers centers' c : Permutation centers centers' -> drawn centers' c = drawn centers c.
Proof.
  intro P. apply filter_ext. intro i. apply eq_true_iff_eq. rewrite !forallb_forall. split; intros H x Hx; apply H; [apply (Permutation_in _ P)|apply (Permutation_in _ (Permutation_sym P))]; exact Hx.
Qed.

Lemma groups_drawn centers : centers <> [] -> untied metric data centers ->
  groups_of (fun i => argmin (map (metric (nth i data [])) centers)) (length data) (length centers) = map (drawn centers) centers.
Proof.
  intros Hc Hu. apply (nth_ext _ _ [] []); unfold groups_of; rewrite !map_length, seq_length; [reflexivity|]. intros k Hk. rewrite nth_map_seq0 by exact Hk.
  rewrite (nth_indep _ [] (drawn centers [])) by (rewrite map_length; exact Hk). rewrite (map_nth (drawn centers)). unfold drawn. apply filter_ext_in. intros i Hi. apply in_seq in Hi.
  pose proof (argmin_nearest metric centers (nth i data []) Hc) as N. apply eq_true_iff_eq. rewrite Nat.eqb_eq, forallb_forall. split.
  - intros <- c Hin. apply (In_nth _ _ []) in Hin as (j & Hj & <-). apply Qle_bool_iff. apply N. exact Hj.
  - intro H. apply (Hu (nth i data [])); [apply nth_In; lia|exact N|]. split; [exact Hk|]. intros j Hj. apply Qle_bool_iff, H, nth_In, Hj.
Qed.

Lemma assign_drawn centers : centers <> [] -> untied metric data centers -> assign metric data centers = filter nonempty (map (drawn centers) centers).
Proof. intros Hc Hu. unfold assign. now rewrite groups_drawn. Qed.

(** two nearest positions stay two under another order *)
Lemma untied_perm centers centers' : Permutation centers centers' -> untied metric data centers -> untied metric data centers'.
Proof.
  intros P Hu p j k Hp Nj Nk. destruct (Nat.eq_dec j k) as [|D]; [assumption|]. exfalso.
  destruct (Permutation_nth centers centers' []) as (X & _). destruct (X P) as (E & f & F1 & F2 & F3). clear X.
  assert (G : forall j, nearest metric centers' p j -> nearest metric centers p (f j)).
  { intros i (Hi & H). assert (Hi' : i < length centers) by (unfold point in *; lia). split; [apply F1, Hi'|]. intros q Hq. rewrite <- F3 by exact Hi'.
    assert (W : In (nth q centers []) centers') by (apply (Permutation_in _ P), nth_In, Hq). apply (In_nth _ _ []) in W as (q' & Hq' & <-). apply H. exact Hq'. }
  pose proof (Hu p (f j) (f k) Hp (G j Nj) (G k Nk)) as W. apply D. apply F2; [destruct Nj; unfold point in *; lia|destruct Nk; unfold point in *; lia|exact W].
Qed.

Lemma assign_renumbered centers centers' : centers <> [] -> untied metric data centers -> Permutation centers centers' -> Permutation (assign metric data centers) (assign metric data centers').
Proof.
  intros Hc Hu P. assert (Hc' : centers' <> []) by (intro; subst; apply Permutation_sym, Permutation_nil in P; congruence).
  rewrite (assign_drawn centers), (assign_drawn centers') by eauto using untied_perm. apply perm_filter.
  rewrite (map_ext (drawn centers') (drawn centers)) by (intro; apply drawn_perm, P). apply Permutation_map. exact P.
Qed.

Lemma maxQ_perm l l' : Permutation l l' -> (maxQ l == maxQ l')%Q.
Proof.
  intro P. destruct l as [|x t] eqn:E.
  - apply Permutation_nil in P. subst. reflexivity.
  - rewrite <- E in *. assert (l <> []) by (rewrite E; discriminate). assert (l' <> []) by (intro; subst l'; apply Permutation_sym, Permutation_nil in P; congruence).
    apply Qle_antisym; apply maxQ_ge; [apply (Permutation_in _ P)|apply (Permutation_in _ (Permutation_sym P))]; apply maxQ_in; assumption.
Qed.

Notation middle g := (mean_point (dimension data) (map (fun i => nth i data []) g)).

Lemma combine_map_self {A B} (f : A -> B) l : combine l (map f l) = map (fun x => (x, f x)) l.
Proof. induction l; cbn; congruence. Qed.

Lemma changes_renumbered centers centers' : centers <> [] -> untied metric data centers -> Permutation centers centers' -> forall tol,
  exceeds (kmeans_changes metric centers' (kmeans_update_centers data (assign metric data centers'))) tol = exceeds (kmeans_changes metric centers (kmeans_update_centers data (assign metric data centers))) tol.
Proof.
  intros Hc Hu P tol. assert (Hc' : centers' <> []) by (intro; subst; apply Permutation_sym, Permutation_nil in P; congruence). pose proof (untied_perm _ _ P Hu) as Hu'.
  pose proof (assign_renumbered _ _ Hc Hu P) as PA. unfold kmeans_changes, kmeans_update_centers. rewrite !map_length. pose proof (Permutation_length P) as LP. pose proof (Permutation_length PA) as LA. unfold point in *. rewrite <- LP, <- LA.
  destruct (Nat.eqb_spec (length centers) (length (assign metric data centers))) as [E|E]; [|reflexivity]. cbn [exceeds].
  rewrite (assign_full data metric centers) by (symmetry; exact E). rewrite (assign_full data metric centers') by (unfold point in *; rewrite <- LA, <- LP; symmetry; exact E).
  rewrite !groups_drawn by assumption. rewrite (map_ext (drawn centers') (drawn centers)) by (intro; apply drawn_perm, P). rewrite !map_map, !combine_map_self, !map_map. cbn [fst snd].
  set (f := fun x => metric x (middle (drawn centers x))). assert (M : (maxQ (map f centers) == maxQ (map f centers'))%Q) by (apply maxQ_perm, Permutation_map, P).
  unfold Qltb. apply eq_true_iff_eq. rewrite !negb_true_iff, !Qle_bool_false, M. reflexivity.
Qed.

Lemma loop_renumbered tol : forall left change change' clusters clusters' centers centers', exceeds change' tol = exceeds change tol -> centers <> [] -> Permutation centers centers' -> Permutation clusters clusters' ->
  (clusters = [] \/ (centers = kmeans_update_centers data clusters /\ centers' = kmeans_update_centers data clusters')) ->
  (forall t, t < left -> untied metric data (snd (kmeans_loop metric data tol t change clusters centers))) ->
  let '(cl, ce) := kmeans_loop metric data tol left change clusters centers in let '(cl', ce') := kmeans_loop metric data tol left change' clusters' centers' in
  Permutation cl cl' /\ Permutation ce ce' /\ (cl = [] \/ (ce = kmeans_update_centers data cl /\ ce' = kmeans_update_centers data cl')).
Proof.
  induction left as [|left IH]; intros change change' clusters clusters' centers centers' He Hn P Pc Hm Hu; cbn [kmeans_loop]; [auto|].
  rewrite He. destruct (exceeds change tol) eqn:Ex; [|auto]. cbv zeta. rewrite !kmeans_assign. pose proof (Hu 0 ltac:(lia)) as U0. cbn [kmeans_loop snd] in U0.
  pose proof (assign_renumbered _ _ Hn U0 P) as PA. apply IH; auto.
  - apply changes_renumbered; assumption.
  - unfold kmeans_update_centers. intro E. apply map_eq_nil in E. apply (assign_nonempty _ _ _ Hne Hn E).
  - unfold kmeans_update_centers. apply Permutation_map. exact PA.
  - intros t Ht. pose proof (Hu (Datatypes.S t) ltac:(lia)) as W. cbn [kmeans_loop] in W. rewrite Ex in W. cbv zeta in W. rewrite kmeans_assign in W. exact W.
Qed.

Lemma wce_means clusters : (total_wce metric data clusters (kmeans_update_centers data clusters) ==
  qsum (concat (map (fun g => map (fun i => metric (nth i data []) (middle g)) g) clusters)))%Q.
Proof.
  unfold total_wce. rewrite sumQ_qsum. rewrite (map_ext_in _ (fun k => (fun g => map (fun i => metric (nth i data []) (middle g)) g) (nth k clusters []))).
  - rewrite <- (map_map (fun k => nth k clusters []) (fun g => map (fun i => metric (nth i data []) (middle g)) g)).
    replace (map (fun k => nth k clusters []) (seq 0 (length clusters))) with clusters; [reflexivity|].
    apply (nth_ext _ _ [] []); [now rewrite map_length, seq_length|]. intros k Hk. now rewrite nth_map_seq0 by exact Hk.
  - intros k Hk. apply in_seq in Hk. unfold kmeans_update_centers. rewrite (nth_indep _ [] (middle [])) by (rewrite map_length; lia). rewrite (map_nth (fun g => middle g)). reflexivity.
Qed.
Lemma concat_perm {A} (l l' : list (list A)) : Permutation l l' -> Permutation (concat l) (concat l').
Proof.
  induction 1; cbn [concat]; auto; [apply Permutation_app_head; assumption| |eapply Permutation_trans; eauto]. rewrite !app_assoc. apply Permutation_app_tail, Permutation_app_comm.
Qed.
End Renumbered.

(** as long as no point is as near to two centres of any round, the order of the initial centres only
    numbers the clusters; the rounds are those that smaller limits of iterations show *)
Theorem C259_untied metric data initial initial' dim tolerance itermax : (forall c, In c initial -> length c = dim) -> Permutation initial initial' ->
  (forall t cl ce w, t < itermax -> kmeans_process metric data initial tolerance t = Ok (cl, ce, w) -> untied metric data ce) ->
  same_run renumbered (kmeans_process metric data initial tolerance itermax) (kmeans_process metric data initial' tolerance itermax).
Proof.
  intros Hd P Hu. unfold kmeans_process in *. destruct data as [|p0 dt] eqn:Ed; [reflexivity|]. rewrite <- Ed in *. assert (Hne : data <> []) by (rewrite Ed; discriminate).
  destruct initial as [|c0 it] eqn:Ei; [apply Permutation_nil in P; subst; reflexivity|]. destruct initial' as [|c0' it'] eqn:Ei'; [apply Permutation_sym, Permutation_nil in P; discriminate|]. rewrite <- Ei, <- Ei' in *.
  destruct (Qltb tolerance 0); [reflexivity|].
  rewrite (Hd c0) in Hu |- * by (rewrite Ei; left; reflexivity). rewrite (Hd c0') by (apply (Permutation_in _ (Permutation_sym P)); rewrite Ei'; left; reflexivity).
  destruct (length p0 =? dim); [|reflexivity].
  pose proof (loop_renumbered metric data Hne tolerance itermax None None [] [] initial initial' eq_refl) as W.
  destruct (kmeans_loop metric data tolerance itermax None [] initial) as [cl ce], (kmeans_loop metric data tolerance itermax None [] initial') as [cl' ce'].
  destruct W as (W1 & W2 & W3); auto.
  - rewrite Ei. discriminate.
  - intros t Ht. specialize (Hu t). destruct (kmeans_loop metric data tolerance t None [] initial) as [c1 c2]. cbn [snd]. exact (Hu c1 c2 _ Ht eq_refl).
  - cbn [same_run renumbered]. split; [exact W1|]. split; [exact W2|]. destruct W3 as [-> | (-> & ->)].
    + apply Permutation_nil in W1. subst cl'. split; [intros _; constructor|reflexivity].
    + split; [intros _; unfold kmeans_update_centers; rewrite !combine_map_self; apply Permutation_map, W1|]. rewrite !wce_means. apply qsum_perm, concat_perm, Permutation_map, Permutation_sym, W1.
Qed.
Print Assumptions C259_untied.

(** two rounds, and no point with two nearest centres in either *)
Example C259_example : let data := [[0%Q]; [1%Q]; [2%Q]; [10%Q]; [12%Q]] in
  (forall t cl ce w, t < 3 -> kmeans_process sqdist data [[0%Q]; [3%Q]] (1#100) t = Ok (cl, ce, w) -> untied sqdist data ce) /\
  match kmeans_process sqdist data [[0%Q]; [3%Q]] (1#100) 3, kmeans_process sqdist data [[3%Q]; [0%Q]] (1#100) 3 with
  | Ok (cl, _, _), Ok (cl', _, _) => cl = [[0; 1; 2]; [3; 4]] /\ cl' = [[3; 4]; [0; 1; 2]]
  | _, _ => False
  end.
Proof.
  split; [|vm_compute; split; reflexivity].
  assert (G : forall a b, forallb (fun p => negb (Qeq_bool (sqdist p a) (sqdist p b))) [[0%Q]; [1%Q]; [2%Q]; [10%Q]; [12%Q]] = true -> untied sqdist [[0%Q]; [1%Q]; [2%Q]; [10%Q]; [12%Q]] [a; b]).
  { intros a b H p j k Hp (Hj & Nj) (Hk & Nk). rewrite forallb_forall in H. specialize (H p Hp). apply negb_true_iff, Qeq_bool_neq in H. cbn [length] in *.
    destruct j as [|[|j]], k as [|[|k]]; try lia; exfalso; apply H; [pose proof (Nj 1 ltac:(lia)); pose proof (Nk 0 ltac:(lia))|pose proof (Nj 0 ltac:(lia)); pose proof (Nk 1 ltac:(lia))]; cbn [nth] in *; apply Qle_antisym; assumption. }
  intros t cl ce w Ht E. destruct t as [|[|[|t]]]; [| | |lia]; vm_compute in E; injection E as _ <- _; apply G; reflexivity.
Qed.

(** k-medians compares the old and the new medians by position also when a cluster was left out: there the
    order of the initial medians decides when it stops, and so the clusters, although no point ever has two nearest medians *)
Definition untied_rounds (process : nat -> res (list (list nat) * list point * Q)) (data : list point) (itermax : nat) : Prop :=
  forall t cl ce w, t < itermax -> process t = Ok (cl, ce, w) -> untied sqdist data ce.
Definition plain_untied (data centers : list point) : bool :=
  forallb (fun p => forallb (fun jk => negb (Qeq_bool (sqdist p (nth (fst jk) centers [])) (sqdist p (nth (snd jk) centers []))) || (fst jk =? snd jk))
    (list_prod (seq 0 (length centers)) (seq 0 (length centers)))) data.
Lemma plain_untied_true data centers : plain_untied data centers = true -> untied sqdist data centers.
Proof.
  intros H p j k Hp (Hj & Nj) (Hk & Nk). unfold plain_untied in H. rewrite forallb_forall in H. specialize (H p Hp). rewrite forallb_forall in H.
  specialize (H (j, k) ltac:(apply in_prod; apply in_seq; lia)). cbn [fst snd] in H. apply orb_true_iff in H as [H|H]; [|now apply Nat.eqb_eq].
  exfalso. apply negb_true_iff, Qeq_bool_neq in H. apply H. apply Qle_antisym; [apply Nj, Hk|apply Nk, Hj].
Qed.
Definition rounds_untied (process : nat -> res (list (list nat) * list point * Q)) (data : list point) (itermax : nat) : bool :=
  forallb (fun t => match process t with Ok (_, ce, _) => plain_untied data ce | Raise _ => true end) (seq 0 itermax).
Lemma rounds_untied_true process data itermax : rounds_untied process data itermax = true -> untied_rounds process data itermax.
Proof.
  intros H t cl ce w Ht E. unfold rounds_untied in H. rewrite forallb_forall in H. specialize (H t ltac:(apply in_seq; lia)). rewrite E in H. apply plain_untied_true, H.
Qed.

Theorem C259_kmedians_refuted : exists data initial initial' tolerance cl cl', Permutation initial initial' /\
  untied_rounds (kmedians_process sqdist data initial tolerance) data 100 /\ untied_rounds (kmedians_process sqdist data initial' tolerance) data 100 /\
  (exists ce w, kmedians_process sqdist data initial tolerance 100 = Ok (cl, ce, w)) /\
  (exists ce w, kmedians_process sqdist data initial' tolerance 100 = Ok (cl', ce, w)) /\
  ~ Permutation cl cl' /\ cl = [[2]; [0; 1]] /\ cl' = [[1; 2]; [0]].
Proof.
  exists [[7%Q]; [10%Q]; [11%Q]], [[12%Q]; [9%Q]; [40%Q]], [[40%Q]; [12%Q]; [9%Q]], 4%Q, [[2]; [0; 1]], [[1; 2]; [0]].
  split. { eapply Permutation_trans; [apply perm_skip, perm_swap|]. apply perm_swap. }
  split; [apply rounds_untied_true; vm_compute; reflexivity|]. split; [apply rounds_untied_true; vm_compute; reflexivity|].
  split; [eexists _, _; vm_compute; reflexivity|]. split; [eexists _, _; vm_compute; reflexivity|]. split; [|split; reflexivity].
  intro P. assert (W : In [0; 1] [[1; 2]; [0]]) by (apply (Permutation_in _ P); right; left; reflexivity). destruct W as [W | [W | []]]; discriminate.
Qed.
Print Assumptions C259_kmedians_refuted.
