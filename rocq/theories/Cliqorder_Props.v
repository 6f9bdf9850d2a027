(** C264: CLIQUE gives the same clusters, in the same sequence, and the same noise whatever the order of the
    points, and also when every point is given [m] times and the density threshold is multiplied by [m]. *)
From Verif Require Import Base Kmeans_Model Kmeans_Proofs Scaled_Proofs Unit_Props Reorder_Props Clique_Model Clique_Proofs.
Open Scope nat_scope.

(** ** specification: the clusters one by one and the noise have the copies of the same points *)
Definition same_clique (m : nat) (ord : list nat) (s s' : cst) : Prop :=
  Forall2 (same_members m ord) (clusters s) (clusters s') /\ same_members m ord (noise s) (noise s').

(** ** lists *)
Lemma members_app m ord a a' b b' : same_members m ord a a' -> same_members m ord b b' -> same_members m ord (a ++ b) (a' ++ b').
Proof.
  unfold same_members. intros H1 H2. rewrite map_app. apply Permutation_trans with (concat (repeat a m) ++ concat (repeat b m)); [now apply Permutation_app|].
  clear. induction m as [|m IH]; cbn [repeat concat]; [apply perm_nil|]. rewrite <- !app_assoc. apply Permutation_app_head.
  apply Permutation_trans with (b ++ concat (repeat a m) ++ concat (repeat b m)); [|now apply Permutation_app_head].
  rewrite !app_assoc. apply Permutation_app_tail, Permutation_app_comm.
Qed.
Lemma members_nil m ord : same_members m ord [] [].
Proof. unfold same_members. cbn. induction m as [|m IH]; cbn [repeat concat]; [constructor|exact IH]. Qed.
Lemma members_length m ord g g' : same_members m ord g g' -> length g' = m * length g.
Proof. intro H. apply Permutation_length in H. now rewrite map_length, length_concat_repeat in H. Qed.
Lemma nth_upd_fold l : forall (a : list bool) i, nth i (fold_left (fun a i => upd a i false) l a) false = nth i a false && negb (if in_dec Nat.eq_dec i l then true else false).
Proof.
  induction l as [|j t IH]; intros a i; cbn [fold_left]; [destruct (in_dec Nat.eq_dec i []) as [[]|]; now rewrite andb_true_r|].
  rewrite IH. destruct (Nat.eq_dec j i) as [->|N].
  - destruct (in_dec Nat.eq_dec i (i :: t)) as [_|W]; [|exfalso; apply W; now left]. cbn [negb]. rewrite andb_false_r.
    destruct (Nat.lt_ge_cases i (length a)) as [H|H]; [rewrite upd_nth_eq by exact H; reflexivity|]. rewrite nth_overflow by (rewrite upd_length; exact H). reflexivity.
  - rewrite upd_nth_neq by auto. destruct (in_dec Nat.eq_dec i t) as [I|I], (in_dec Nat.eq_dec i (j :: t)) as [J|J]; auto.
    + exfalso. apply J. now right.
    + exfalso. destruct J; auto.
Qed.

Lemma Qltb_same x x' y y' : (x == x')%Q -> (y == y')%Q -> Qltb x y = Qltb x' y'.
Proof. intros H1 H2. destruct (Qltb x y) eqn:E, (Qltb x' y') eqn:E'; auto; [apply Qltb_true in E; apply Qltb_false in E'|apply Qltb_false in E; apply Qltb_true in E']; rewrite ?H1, ?H2 in E; lra. Qed.

Section Order.
Variables (data : list point) (m : nat) (ord : list nat) (dim a t : nat).
Hypothesis m_pos : 0 < m.
Hypothesis Hord : copies m (length data) ord.
Hypothesis Hdim : forall p, In p data -> length p = dim.
Hypothesis Hne : data <> [].
Notation data' := (pick data ord).
Notation same := (same_members m ord).

Lemma points_both p : In p data' <-> In p data.
Proof.
  split; [eapply pick_in; eassumption|]. intro H. apply (In_nth _ _ []) in H as (i & Hi & <-). unfold pick. apply (in_map (fun i => nth i data [])).
  apply (Permutation_in _ (Permutation_sym Hord)). clear - Hi m_pos. destruct m as [|k]; [exfalso; lia|]. cbn [repeat concat]. apply in_or_app. left. apply in_seq. split; [lia|exact Hi].
Qed.
Lemma nonempty' : data' <> [].
Proof. eapply pick_nonempty; eassumption. Qed.
Lemma dimension_both : dimension data' = dimension data.
Proof.
  unfold dimension. transitivity dim; [|symmetry]; apply Hdim; [apply points_both|]; apply nth_In; [pose proof nonempty'; destruct data'; [congruence|cbn; lia]|destruct data; [congruence|cbn; lia]].
Qed.
Lemma uniform_both : uniform (dimension data) data /\ uniform (dimension data') data'.
Proof.
  assert (E : dimension data = dim) by (unfold dimension; apply Hdim, nth_In; destruct data; [congruence|cbn; lia]).
  split; intros p Hp; rewrite ?dimension_both, E; apply Hdim; [exact Hp|now apply points_both].
Qed.
Lemma corners d : (min_corner data' d == min_corner data d)%Q /\ (max_corner data' d == max_corner data d)%Q.
Proof.
  pose proof (min_lowest data' nonempty' (proj2 uniform_both) d) as (L1 & L2). pose proof (max_highest data' nonempty' (proj2 uniform_both) d) as (H1 & H2). split.
  - apply (lowest_unique data d); [|apply min_lowest; [exact Hne|apply uniform_both]]. split; [destruct L1 as (p & Hp & E); exists p; split; [now apply points_both|exact E]|]. intros p Hp. apply L2, points_both, Hp.
  - apply (highest_unique data d); [|apply max_highest; [exact Hne|apply uniform_both]]. split; [destruct H1 as (p & Hp & E); exists p; split; [now apply points_both|exact E]|]. intros p Hp. apply H2, points_both, Hp.
Qed.
Lemma size_both d : (cell_size data' a d == cell_size data a d)%Q.
Proof. unfold cell_size. destruct (corners d) as (-> & ->). reflexivity. Qed.
Lemma contains_both loc p : contains data' a loc p = contains data a loc p.
Proof.
  unfold contains. induction (seq 0 (length p)) as [|d l IH]; cbn [forallb]; [reflexivity|]. rewrite IH. f_equal. f_equal. f_equal; apply Qltb_same; try reflexivity.
  - unfold cell_min. destruct (corners d) as (-> & _). rewrite size_both. reflexivity.
  - unfold cell_max. destruct (corners d) as (E1 & E2). destruct (_ =? _); [exact E2|]. unfold cell_min. rewrite E1, size_both. reflexivity.
Qed.
Lemma cells_both : cells data' a = cells data a.
Proof. unfold cells. now rewrite dimension_both. Qed.

(** a copy of a point is free when the point is *)
Definition in_step (av av' : list bool) : Prop := forall i, i < length ord -> nth i av' false = nth (nth i ord 0) av false.

Lemma capture_both loc av av' : in_step av av' -> let '(c, r) := capture_points data a loc av in let '(c', r') := capture_points data' a loc av' in same c c' /\ in_step r r'.
Proof.
  intro H. unfold capture_points. assert (Ld : length data' = length ord) by (unfold pick; apply map_length). rewrite Ld.
  set (P := fun i => nth i av false && contains data a loc (nth i data [])). set (P' := fun i => nth i av' false && contains data' a loc (nth i data' [])).
  assert (E : forall i, i < length ord -> P' i = P (nth i ord 0)). { intros i Hi. unfold P', P. rewrite (H i Hi), contains_both. now rewrite (pick_nth data ord i Hi). }
  assert (F : filter P' (seq 0 (length ord)) = filter (fun i => P (nth i ord 0)) (seq 0 (length ord))) by (apply filter_ext_in; intros i Hi; apply in_seq in Hi; apply E; lia).
  split.
  - unfold same_members. rewrite F, (filter_through (fun i => nth i ord 0) P), positions, <- filter_concat_repeat. apply perm_filter, Hord.
  - intros i Hi. rewrite !nth_upd_fold, (H i Hi). f_equal. f_equal. assert (B : nth i ord 0 < length data) by (eapply ord_bound; [eassumption..|apply nth_In, Hi]).
    destruct (in_dec Nat.eq_dec i (filter P' (seq 0 (length ord)))) as [I|I], (in_dec Nat.eq_dec (nth i ord 0) (filter P (seq 0 (length data)))) as [J|J]; auto; exfalso.
    + apply J. apply filter_In in I as (_ & I). apply filter_In. split; [apply in_seq; lia|]. now rewrite <- E.
    + apply I. apply filter_In in J as (_ & J). apply filter_In. split; [apply in_seq; lia|]. now rewrite E.
Qed.
Lemma capture_all_both locs : forall av av', in_step av av' -> Forall2 same (capture_all data a locs av) (capture_all data' a locs av').
Proof.
  induction locs as [|loc l IH]; intros av av' H; cbn [capture_all]; [constructor|]. pose proof (capture_both loc av av' H) as W.
  destruct (capture_points data a loc av) as (c, r), (capture_points data' a loc av') as (c', r'). destruct W as (W1 & W2). constructor; auto.
Qed.
Lemma points_same c : same (points_of data a c) (points_of data' a c).
Proof.
  unfold points_of, cell_points. rewrite cells_both.
  assert (W : Forall2 same (capture_all data a (cells data a) (repeat true (length data))) (capture_all data' a (cells data a) (repeat true (length data')))).
  { apply capture_all_both. intros i Hi. assert (B : nth i ord 0 < length data) by (eapply ord_bound; [eassumption..|apply nth_In, Hi]).
    unfold pick. rewrite map_length. rewrite !(nth_indep _ false true) by (rewrite repeat_length; assumption). now rewrite !nth_repeat. }
  revert c. induction W as [|g g' l l' H Hl IH]; intros [|c]; cbn [nth]; auto using members_nil.
Qed.
Lemma dense_both c : dense data' a (m * t) c = dense data a t c.
Proof. unfold dense. rewrite (members_length _ _ _ _ (points_same c)). destruct (Nat.ltb_spec (m * t) (m * length (points_of data a c))), (Nat.ltb_spec t (length (points_of data a c))); auto; nia. Qed.
Lemma get_neighbors_both locs : forall V, get_neighbors data' a locs V = get_neighbors data a locs V.
Proof. induction locs as [|l r IH]; intro V; cbn [get_neighbors]; [reflexivity|]. rewrite cells_both. destruct (index_of l (cells data a)); [|reflexivity]. destruct (nth n V false); now rewrite IH. Qed.
Lemma neighbors_both c V : neighbors data' a c V = neighbors data a c V.
Proof. unfold neighbors. rewrite cells_both. apply get_neighbors_both. Qed.

Definition same_loop (x x' : list nat * list nat * list bool) : Prop :=
  let '(c, n, V) := x in let '(c', n', V') := x' in same c c' /\ same n n' /\ V' = V.
Lemma loop_both fuel : forall work c c' n n' V, same c c' -> same n n' -> same_run same_loop (expand_loop data a t fuel work c n V) (expand_loop data' a (m * t) fuel work c' n' V).
Proof.
  induction fuel as [|f IH]; intros [|w work] c c' n n' V H1 H2; cbn [expand_loop]; try (cbn; auto; fail).
  rewrite dense_both, neighbors_both. pose proof (points_same w) as P. destruct (dense data a t w).
  - destruct (neighbors data a w V) as [r|e]; cbn [bind]; [|reflexivity]. apply IH; [now apply members_app|exact H2].
  - apply IH; [exact H1|now apply members_app].
Qed.

Lemma expand_both c V s s' : same_clique m ord s s' ->
  same_run (fun r r' => fst r' = fst r /\ same_clique m ord (snd r) (snd r')) (expand_cluster data a t c V s) (expand_cluster data' a (m * t) c V s').
Proof.
  intros (H1 & H2). unfold expand_cluster. rewrite dense_both, neighbors_both, cells_both. pose proof (points_same c) as P. destruct (dense data a t c).
  - destruct (neighbors data a c (upd V c true)) as [r|e]; cbn [bind]; [|reflexivity].
    pose proof (loop_both (length (cells data a)) (fst r) _ _ _ _ (snd r) P H2) as W. destruct (expand_loop data a t _ _ _ _ _) as [((g, n), V1)|e], (expand_loop data' a (m * t) _ _ _ _ _) as [((g', n'), V1')|e']; cbn [same_run bind] in W |- *; try exact W; try (destruct W; fail).
    destruct W as (W1 & W2 & ->). cbn. split; [reflexivity|]. split; [|exact W2]. cbn. apply Forall2_app; [exact H1|constructor; [exact W1|constructor]].
  - cbn. split; [reflexivity|]. split; cbn; [exact H1|now apply members_app].
Qed.
Lemma allocate_both cs : forall V s s', same_clique m ord s s' -> same_run (same_clique m ord) (allocate data a t cs V s) (allocate data' a (m * t) cs V s').
Proof.
  induction cs as [|c cs IH]; intros V s s' H; cbn [allocate]; [exact H|]. destruct (nth c V false); [now apply IH|].
  pose proof (expand_both c V s s' H) as W. destruct (expand_cluster data a t c V s) as [r|e], (expand_cluster data' a (m * t) c V s') as [r'|e']; cbn [same_run bind] in W |- *; try exact W; try (destruct W; fail).
  destruct W as (-> & W). now apply IH.
Qed.
End Order.

Theorem C264_copies (data : list point) m ord dim intervals threshold : data <> [] -> (forall p, In p data -> length p = dim) -> 1 <= intervals -> 0 < m -> copies m (length data) ord ->
  exists s s', clique data intervals threshold = Ok s /\ clique (pick data ord) intervals (m * threshold) = Ok s' /\ same_clique m ord s s'.
Proof.
  intros Hne Hd Ha Hm Ho. assert (U : uniform (dimension data) data). { intros p Hp. rewrite (Hd p Hp). symmetry. unfold dimension. apply Hd, nth_In. destruct data; [congruence|cbn; lia]. }
  destruct (clique_spec data intervals threshold) as (s & w & E & _); auto. exists s.
  assert (W : same_run (same_clique m ord) (clique data intervals threshold) (clique (pick data ord) intervals (m * threshold))).
  { unfold clique. pose proof (nonempty' data m ord dim Hm Ho Hd Hne) as N. destruct data as [|p l]; [congruence|]. destruct (pick (p :: l) ord) as [|p' l'] eqn:Ep; [congruence|]. rewrite <- Ep.
    destruct (intervals =? 0); [reflexivity|]. unfold process. rewrite (cells_both (p :: l) m ord dim intervals Hm Ho Hd Hne). apply (allocate_both (p :: l) m ord dim); auto. split; [constructor|apply members_nil]. }
  rewrite E in W. destruct (clique (pick data ord) intervals (m * threshold)) as [s'|e]; [|destruct W]. exists s'. auto.
Qed.
Print Assumptions C264_copies.

(** one copy of each: another order *)
Theorem C264_order (data : list point) ord dim intervals threshold : data <> [] -> (forall p, In p data -> length p = dim) -> 1 <= intervals -> Permutation ord (seq 0 (length data)) ->
  exists s s', clique data intervals threshold = Ok s /\ clique (pick data ord) intervals threshold = Ok s' /\
    Forall2 (fun g g' => Permutation (map (fun i => nth i ord 0) g') g) (clusters s) (clusters s') /\ Permutation (map (fun i => nth i ord 0) (noise s')) (noise s).
Proof.
  intros Hne Hd Ha Ho. destruct (C264_copies data 1 ord dim intervals threshold Hne Hd Ha) as (s & s' & E & E' & H1 & H2); [lia|unfold copies; cbn [repeat concat]; now rewrite app_nil_r|].
  rewrite Nat.mul_1_l in E'. exists s, s'. split; [exact E|]. split; [exact E'|]. unfold same_members in *. cbn [repeat concat] in *. rewrite app_nil_r in H2. split; [|exact H2].
  induction H1 as [|g g' l l' H Hl IH]; constructor; auto. cbn [repeat concat] in H. now rewrite app_nil_r in H.
Qed.
Print Assumptions C264_order.

(** eight points, in another order; and each point three times *)
Example C264_example : let data := [[0;0];[1;0];[1;1];[9;9];[10;9];[4;4];[10;0];[5;5]]%Q in let ord := [7; 2; 6; 0; 4; 1; 3; 5] in
  Permutation ord (seq 0 (length data)) /\ (forall p, In p data -> length p = 2) /\
  clique data 4 1 = Ok (mkS [[3; 4]; [0; 1; 2]] [6; 5; 7]) /\ clique (pick data ord) 4 1 = Ok (mkS [[4; 6]; [1; 3; 5]] [2; 7; 0]) /\
  copies 3 (length data) (ord ++ rev ord ++ ord) /\ exists s, clique (pick data (ord ++ rev ord ++ ord)) 4 3 = Ok s /\ map (@length nat) (clusters s) = [6; 9].
Proof.
  cbn zeta. split; [apply (Permutation_count_occ Nat.eq_dec); intro x; do 9 (destruct x; [reflexivity|]); reflexivity|]. split; [intros p Hp; cbn in Hp; repeat (destruct Hp as [<- | Hp]; [reflexivity|]); destruct Hp|].
  split; [vm_compute; reflexivity|]. split; [vm_compute; reflexivity|]. split; [apply (Permutation_count_occ Nat.eq_dec); intro x; do 9 (destruct x; [reflexivity|]); reflexivity|].
  eexists. split; [vm_compute; reflexivity|reflexivity].
Qed.
