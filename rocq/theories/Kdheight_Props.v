(** C247: the height of kdtree_balanced. *)
From Verif Require Import Base Search_Model Search_Proofs Kd_Model Kd_Proofs.
Open Scope nat_scope.

(** ** Specification *)
(** the number of nodes on the longest way from the root *)
Fixpoint height {P} (t : tree P) : nat := match t with KLeaf => 0 | KNode l _ _ r => S (Nat.max (height l) (height r)) end.
(** no two items have a coordinate in common *)
Definition all_different {P} (dims : nat) (items : list (item P)) : Prop :=
  forall d i j x y, d < dims -> i < j -> nth_error items i = Some x -> nth_error items j = Some y -> ~ (coord (pt x) d == coord (pt y) d)%Q.

Section Height.
Context {P : Type}.
Variable D : nat.
Hypothesis HD : 0 < D.
Notation item := (item P).

Definition key (d : nat) (x : item) : Q := Qred (coord (pt x) d).
Definition keys_differ (items : list item) : Prop := forall d, d < D -> NoDup (map (key d) items).

Lemma different_keys items : all_different D items -> keys_differ items.
Proof.
  intros H d Hd. apply NoDup_nth_error. intros i j Hi E. rewrite map_length in Hi.
  destruct (nth_error items i) as [x|] eqn:Ex; [|apply nth_error_None in Ex; lia].
  rewrite (map_nth_error (key d) i items Ex) in E. symmetry in E.
  destruct (nth_error items j) as [y|] eqn:Ey.
  2:{ apply nth_error_None in Ey. assert (W : nth_error (map (key d) items) j = None) by (apply nth_error_None; rewrite map_length; exact Ey). congruence. }
  rewrite (map_nth_error (key d) j items Ey) in E. injection E as E.
  assert (Q0 : (coord (pt x) d == coord (pt y) d)%Q) by (rewrite <- (Qred_correct (coord (pt x) d)), <- (Qred_correct (coord (pt y) d)); unfold key in E; rewrite E; reflexivity).
  destruct (Nat.lt_trichotomy i j) as [L|[L|L]]; [|exact L|].
  - exfalso. apply (H d i j x y Hd L Ex Ey Q0).
  - exfalso. apply (H d j i y x Hd L Ey Ex). symmetry. exact Q0.
Qed.

Lemma keys_perm a b : Permutation a b -> keys_differ b -> keys_differ a.
Proof. intros HP H d Hd. eapply Permutation_NoDup; [apply Permutation_map; symmetry; exact HP|apply H, Hd]. Qed.
Lemma keys_part a x b : keys_differ (a ++ x :: b) -> keys_differ a /\ keys_differ b.
Proof.
  intro H. split; intros d Hd; specialize (H d Hd); rewrite map_app in H; cbn [map] in H; apply NoDup_app_inv in H as (H1 & H2 & _); [exact H1|]. inversion H2; assumption.
Qed.

Lemma log2_half n m : 2 * m <= n -> 0 < m -> S (Nat.log2 m) <= Nat.log2 n.
Proof. intros H Hm. rewrite <- Nat.log2_double by exact Hm. apply Nat.log2_le_mono. exact H. Qed.

Lemma create_height : forall fuel nodes depth, length nodes <= fuel -> Forall (fun x : item => length (pt x) = D) nodes -> keys_differ nodes ->
  exists t, create_tree fuel D nodes depth = Ok t /\ (nodes <> [] -> height t <= Nat.log2 (length nodes) + 1) /\ (nodes = [] -> height t = 0).
Proof.
  induction fuel as [|fuel IH]; intros nodes depth Hf Hall Hk.
  - destruct nodes; [|cbn in Hf; lia]. exists KLeaf. split; [reflexivity|]. split; [congruence|reflexivity].
  - destruct nodes as [|n0 nodes0]; [exists KLeaf; split; [reflexivity|]; split; [congruence|reflexivity]|].
    cbn [create_tree]. destruct (Nat.eqb_spec D 0) as [->|_]; [lia|].
    set (d := depth mod D). set (ns := sort_by d (n0 :: nodes0)).
    assert (Hd : d < D) by (apply Nat.mod_upper_bound; lia).
    assert (Hperm : Permutation ns (n0 :: nodes0)) by apply sort_by_perm.
    assert (Hsort : StronglySorted (kle d) ns) by apply sort_by_sorted.
    assert (Hlen : length ns = S (length nodes0)) by (rewrite (Permutation_length Hperm); reflexivity).
    assert (Hmed : length ns / 2 < length ns) by (apply Nat.div_lt; lia).
    pose proof (keys_perm _ _ Hperm Hk) as Hks.
    destruct (find_left_element_correct _ (key_swo (fun n : item => coord (pt n) d)) ns (length ns / 2) (ssorted_sorted_by D HD d ns Hsort) Hmed) as [i [Ei [Hi Hsp]]].
    cbv beta in Ei. fold ns. rewrite Ei. cbn [bind].
    destruct (nth_error ns i) as [x|] eqn:Ex; [|apply nth_error_None in Ex; lia].
    destruct (nth_error ns (length ns / 2)) as [t|] eqn:Et; [|apply nth_error_None in Et; lia].
    destruct (Hsp t eq_refl) as [Hlo Hhi].
    assert (Em : i = length ns / 2).
    { destruct (Nat.lt_trichotomy i (length ns / 2)) as [L|[L|L]]; [|exact L|].
      - exfalso. assert (A : Qltb (coord (pt x) d) (coord (pt t) d) = false) by (apply (Hhi i x Ex); lia). apply Qltb_false in A.
        pose proof (ssorted_nth D HD d ns Hsort i (length ns / 2) x t ltac:(lia) Ex Et) as B. unfold kle in B.
        specialize (Hks d Hd). rewrite NoDup_nth_error in Hks. specialize (Hks i (length ns / 2)). rewrite map_length in Hks. specialize (Hks ltac:(lia)).
        rewrite (map_nth_error (key d) i ns Ex), (map_nth_error (key d) _ ns Et) in Hks. enough (i = length ns / 2) by lia. apply Hks. f_equal. apply Qred_complete. apply Qle_antisym; assumption.
      - exfalso. specialize (Hlo _ t Et L). apply Qltb_true in Hlo. apply (Qlt_irrefl _ Hlo). }
    pose proof (nth_error_split_at ns i x Ex) as Hsplit. destruct (keys_part (firstn i ns) x (skipn (i + 1) ns)) as (K1 & K2); [rewrite <- Hsplit; exact Hks|].
    assert (Hall' : Forall (fun x : item => length (pt x) = D) ns) by (eapply Permutation_Forall; [symmetry; exact Hperm | exact Hall]).
    rewrite Forall_forall in Hall'.
    destruct (IH (firstn i ns) (depth + 1)) as (tl & E1 & H1 & Z1); [rewrite firstn_length; cbn in Hf; lia| |exact K1|].
    { apply Forall_forall. intros y Hy. apply Hall'. rewrite Hsplit. apply in_or_app; auto. }
    destruct (IH (skipn (i + 1) ns) (depth + 1)) as (tr & E2 & H2 & Z2); [rewrite skipn_length; cbn in Hf; lia| |exact K2|].
    { apply Forall_forall. intros y Hy. apply Hall'. rewrite Hsplit. apply in_or_app; cbn; auto. }
    rewrite E1, E2. cbn [bind]. exists (KNode tl x d tr). split; [reflexivity|]. split; [intros _|discriminate]. cbn [height].
    change (length (n0 :: nodes0)) with (S (length nodes0)). rewrite <- Hlen.
    assert (L1 : length (firstn i ns) = length ns / 2) by (rewrite firstn_length; lia). assert (L2 : length (skipn (i + 1) ns) = length ns - length ns / 2 - 1) by (rewrite skipn_length; lia).
    assert (Half : 2 * (length ns / 2) <= length ns /\ 2 * (length ns - length ns / 2 - 1) <= length ns).
    { pose proof (Nat.div_mod (length ns) 2 ltac:(lia)). pose proof (Nat.mod_upper_bound (length ns) 2 ltac:(lia)). lia. }
    assert (B1 : height tl <= Nat.log2 (length ns)).
    { destruct (firstn i ns) as [|z l] eqn:Ez; [rewrite (Z1 eq_refl); lia|]. specialize (H1 ltac:(discriminate)). rewrite L1 in H1. cbn [length] in L1. pose proof (log2_half (length ns) (length ns / 2) ltac:(lia) ltac:(lia)). lia. }
    assert (B2 : height tr <= Nat.log2 (length ns)).
    { destruct (skipn (i + 1) ns) as [|z l] eqn:Ez; [rewrite (Z2 eq_refl); lia|]. specialize (H2 ltac:(discriminate)). rewrite L2 in H2. cbn [length] in L2. pose proof (log2_half (length ns) (length ns - length ns / 2 - 1) ltac:(lia) ltac:(lia)). lia. }
    lia.
Qed.
End Height.

Theorem C247_balanced {P} D (items : list (item P)) : 0 < D -> items <> [] -> Forall (fun x => length (pt x) = D) items -> all_different D items ->
  exists k, build items = Ok k /\ height (root k) <= Nat.log2 (length items) + 1.
Proof.
  intros HD Hne Hall Hdiff. unfold build. destruct items as [|x t] eqn:E; [congruence|]. rewrite <- E in *.
  assert (Hx : length (pt x) = D) by (rewrite E in Hall; inversion Hall; assumption). rewrite Hx.
  destruct (create_height D HD (length items) items 0 (Nat.le_refl _) Hall (different_keys D HD items Hdiff)) as (t' & E1 & H & _). rewrite E1. cbn [bind]. eexists. split; [reflexivity|]. apply H, Hne.
Qed.
Print Assumptions C247_balanced.

(** equal points make a chain *)
Lemma sort_equal {P} d (x : item P) n : sort_by d (repeat x n) = repeat x n.
Proof. induction n as [|n IH]; [reflexivity|]. cbn [repeat]. unfold sort_by in *. cbn [fold_right]. rewrite IH. destruct n; [reflexivity|]. cbn [repeat ins_by]. assert (E : Qle_bool (coord (pt x) d) (coord (pt x) d) = true) by (apply Qle_bool_iff, Qle_refl). rewrite E. reflexivity. Qed.

Lemma create_equal {P} D (x : item P) : 0 < D -> forall n fuel depth, n <= fuel -> exists t, create_tree fuel D (repeat x n) depth = Ok t /\ height t = n.
Proof.
  intros HD. induction n as [|n IH]; intros fuel depth Hf; [exists KLeaf; destruct fuel; split; reflexivity|]. destruct fuel as [|fuel]; [lia|].
  change (repeat x (S n)) with (x :: repeat x n). cbn [create_tree]. destruct (Nat.eqb_spec D 0); [lia|]. change (x :: repeat x n) with (repeat x (S n)). rewrite sort_equal.
  set (d := depth mod D). assert (L : length (repeat x (S n)) = S n) by apply repeat_length.
  destruct (find_left_element_correct _ (key_swo (fun z : item P => coord (pt z) d)) (repeat x (S n)) (length (repeat x (S n)) / 2)) as [i [Ei [Hi Hsp]]].
  { intros a b y z _ Hy Hz. apply nth_error_In, repeat_spec in Hy, Hz. subst. apply Qltb_false, Qle_refl. }
  { rewrite L. apply Nat.div_lt; lia. }
  cbv beta in Ei. rewrite Ei. cbn [bind]. destruct (nth_error (repeat x (S n)) (length (repeat x (S n)) / 2)) as [t|] eqn:Et.
  2:{ apply nth_error_None in Et. rewrite L in Et. pose proof (Nat.div_lt (S n) 2 ltac:(lia) ltac:(lia)). lia. }
  destruct (Hsp t eq_refl) as (Hlo & _). apply nth_error_In, repeat_spec in Et. subst t.
  assert (i = 0) as ->. { destruct i as [|i]; [reflexivity|]. specialize (Hlo 0 x eq_refl ltac:(lia)). apply Qltb_true in Hlo. destruct (Qlt_irrefl _ Hlo). }
  cbn [nth_error repeat firstn skipn Nat.add].
  assert (E0 : create_tree fuel D [] (depth + 1) = Ok (@KLeaf P)) by (destruct fuel; reflexivity). rewrite E0. cbn [bind].
  destruct (IH fuel (depth + 1) ltac:(lia)) as (tr & Er & Hr). rewrite Er. cbn [bind]. eexists. split; [reflexivity|]. cbn [height]. rewrite Hr. reflexivity.
Qed.

Theorem C247_equal_points {P} (x : item P) n : pt x <> [] -> 0 < n -> exists k, build (repeat x n) = Ok k /\ height (root k) = n.
Proof.
  intros Hx Hn. destruct n as [|n]; [lia|]. unfold build. cbn [repeat]. change (x :: repeat x n) with (repeat x (S n)).
  assert (HD : 0 < length (pt x)) by (destruct (pt x); [congruence|cbn; lia]).
  destruct (create_equal (length (pt x)) x HD (S n) (length (repeat x (S n))) 0) as (t & E & H); [rewrite repeat_length; lia|]. rewrite E. cbn [bind]. eexists. split; [reflexivity|exact H].
Qed.
Print Assumptions C247_equal_points.

Theorem C247_height_refuted : exists (items : list (item nat)) k, items <> [] /\ Forall (fun x => length (pt x) = 1) items /\ build items = Ok k /\ Nat.log2 (length items) + 1 < height (root k).
Proof.
  destruct (C247_equal_points (mkItem [1%Q] 0) 3 ltac:(discriminate) ltac:(lia)) as (k & E & H). exists (repeat (mkItem [1%Q] 0) 3), k.
  split; [discriminate|]. split; [repeat constructor|]. split; [exact E|]. rewrite H. cbn. lia.
Qed.
Print Assumptions C247_height_refuted.

Example C247_example : all_different 2 [mkItem [0; 3]%Q 0; mkItem [1; 2]%Q 1; mkItem [2; 1]%Q 2; mkItem [3; 0]%Q 3; mkItem [4; 5]%Q 4] /\
  match build [mkItem [0; 3]%Q 0; mkItem [1; 2]%Q 1; mkItem [2; 1]%Q 2; mkItem [3; 0]%Q 3; mkItem [4; 5]%Q 4] with Ok k => height (root k) = 3 | _ => False end.
Proof.
  split; [|vm_compute; reflexivity]. intros d i j x y Hd Hij Hx Hy. assert (Hj : nth_error [mkItem [0; 3]%Q 0; mkItem [1; 2]%Q 1; mkItem [2; 1]%Q 2; mkItem [3; 0]%Q 3; mkItem [4; 5]%Q 4] j <> None) by congruence. apply nth_error_Some in Hj. cbn [length] in Hj. destruct d as [|[|d]]; [| |lia];
  destruct i as [|[|[|[|[|i]]]]], j as [|[|[|[|[|j]]]]]; try lia; cbn in Hx, Hy; injection Hx as <-; injection Hy as <-; cbn; intro W; discriminate W.
Qed.
