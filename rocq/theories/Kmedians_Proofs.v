(** k-medians: proofs. *)
From Verif Require Import Base Kmeans_Model Kmeans_Proofs.

(** at least half of the values on either side *)
Fixpoint cnt {A} (f : A -> bool) (l : list A) : nat :=
  match l with [] => 0 | x :: t => (if f x then 1 else 0) + cnt f t end.

Lemma cnt_perm {A} (f : A -> bool) l l' : Permutation l l' -> cnt f l = cnt f l'.
Proof. induction 1; simpl; lia. Qed.

Lemma cnt_le_length {A} (f : A -> bool) l : cnt f l <= length l.
Proof. induction l as [|x t IH]; simpl; auto. destruct (f x); lia. Qed.

Lemma cnt_app {A} (f : A -> bool) l l' : cnt f (l ++ l') = cnt f l + cnt f l'.
Proof. induction l as [|x t IH]; simpl; lia. Qed.

Lemma cnt_all {A} (f : A -> bool) l : (forall x, In x l -> f x = true) -> cnt f l = length l.
Proof.
  induction l as [|x t IH]; intros H; simpl; auto. rewrite H by (simpl; auto). rewrite IH; auto. intros; apply H; simpl; auto.
Qed.

Definition zq (n : nat) : Q := inject_Z (Z.of_nat n).

Lemma zq_S n : (zq (S n) == zq n + 1)%Q.
Proof. unfold zq. rewrite Nat2Z.inj_succ, <- Z.add_1_r, inject_Z_plus. reflexivity. Qed.

Lemma zq_plus a b : (zq (a + b) == zq a + zq b)%Q.
Proof. unfold zq. rewrite Nat2Z.inj_add, inject_Z_plus. reflexivity. Qed.

Lemma zq_le a b : a <= b -> (zq a <= zq b)%Q.
Proof. intros. unfold zq. rewrite <- Zle_Qle. lia. Qed.

Lemma Qabs_cases x : (0 <= x /\ Qabs x == x)%Q \/ (x <= 0 /\ Qabs x == - x)%Q.
Proof.
  destruct (Qlt_le_dec x 0) as [H|H].
  - right. split; [lra|]. apply Qabs_neg. lra.
  - left. split; [lra|]. apply Qabs_pos. lra.
Qed.

(** moving away from [m] to the right costs at least the surplus of values on the left *)
Lemma abs_right vals m y : (m <= y)%Q ->
  (qsum (map (fun x => Qabs (x - m)) vals) + (y - m) * (2 * zq (cnt (fun x => Qle_bool x m) vals) - zq (length vals))
   <= qsum (map (fun x => Qabs (x - y)) vals))%Q.
Proof.
  intros Hy. induction vals as [|v t IH].
  - simpl. change (zq 0) with 0%Q. lra.
  - cbn [map qsum cnt length]. rewrite (zq_S (length t)).
    destruct (Qle_bool v m) eqn:E.
    + apply Qle_bool_iff in E. change (1 + cnt (fun x => Qle_bool x m) t) with (S (cnt (fun x => Qle_bool x m) t)).
      rewrite zq_S.
      destruct (Qabs_cases (v - m)) as [[? ->]|[? ->]], (Qabs_cases (v - y)) as [[? ->]|[? ->]]; nra.
    + apply Qle_bool_false in E. change (0 + cnt (fun x => Qle_bool x m) t) with (cnt (fun x => Qle_bool x m) t).
      destruct (Qabs_cases (v - m)) as [[? ->]|[? ->]], (Qabs_cases (v - y)) as [[? ->]|[? ->]]; nra.
Qed.

Lemma abs_left vals m y : (y <= m)%Q ->
  (qsum (map (fun x => Qabs (x - m)) vals) + (m - y) * (2 * zq (cnt (fun x => Qle_bool m x) vals) - zq (length vals))
   <= qsum (map (fun x => Qabs (x - y)) vals))%Q.
Proof.
  intros Hy. induction vals as [|v t IH].
  - simpl. change (zq 0) with 0%Q. lra.
  - cbn [map qsum cnt length]. rewrite (zq_S (length t)).
    destruct (Qle_bool m v) eqn:E.
    + apply Qle_bool_iff in E. change (1 + cnt (fun x => Qle_bool m x) t) with (S (cnt (fun x => Qle_bool m x) t)).
      rewrite zq_S.
      destruct (Qabs_cases (v - m)) as [[? ->]|[? ->]], (Qabs_cases (v - y)) as [[? ->]|[? ->]]; nra.
    + apply Qle_bool_false in E. change (0 + cnt (fun x => Qle_bool m x) t) with (cnt (fun x => Qle_bool m x) t).
      destruct (Qabs_cases (v - m)) as [[? ->]|[? ->]], (Qabs_cases (v - y)) as [[? ->]|[? ->]]; nra.
Qed.

Lemma median_minimises vals m :
  length vals <= 2 * cnt (fun x => Qle_bool x m) vals -> length vals <= 2 * cnt (fun x => Qle_bool m x) vals ->
  minimises_abs vals m.
Proof.
  intros H1 H2 y. destruct (Qlt_le_dec y m) as [H|H].
  - pose proof (abs_left vals m y ltac:(lra)) as Ha.
    assert (0 <= 2 * zq (cnt (fun x => Qle_bool m x) vals) - zq (length vals))%Q.
    { apply zq_le in H2. replace (2 * cnt (fun x => Qle_bool m x) vals) with (cnt (fun x => Qle_bool m x) vals + cnt (fun x => Qle_bool m x) vals) in H2 by lia.
      rewrite zq_plus in H2. lra. }
    assert (0 <= (m - y) * (2 * zq (cnt (fun x => Qle_bool m x) vals) - zq (length vals)))%Q by (apply Qmult_le_0_compat; lra). lra.
  - pose proof (abs_right vals m y H) as Ha.
    assert (0 <= 2 * zq (cnt (fun x => Qle_bool x m) vals) - zq (length vals))%Q.
    { apply zq_le in H1. replace (2 * cnt (fun x => Qle_bool x m) vals) with (cnt (fun x => Qle_bool x m) vals + cnt (fun x => Qle_bool x m) vals) in H1 by lia.
      rewrite zq_plus in H1. lra. }
    assert (0 <= (y - m) * (2 * zq (cnt (fun x => Qle_bool x m) vals) - zq (length vals)))%Q by (apply Qmult_le_0_compat; lra). lra.
Qed.

(** a value between two middle positions of a sorted list *)
Lemma sorted_nth (key : nat -> Q) l : StronglySorted (key_le key) l -> forall a b, a <= b -> b < length l ->
  (key (nth a l 0%nat) <= key (nth b l 0%nat))%Q.
Proof.
  induction 1 as [|x t Hs IH Hf]; intros a b Hab Hb; [simpl in Hb; lia|].
  destruct a as [|a], b as [|b]; cbn [nth]; try lra; try lia.
  - rewrite Forall_forall in Hf. apply Hf. apply nth_In. simpl in Hb. lia.
  - apply IH; simpl in Hb; lia.
Qed.

Lemma cnt_low (key : nat -> Q) l r m : StronglySorted (key_le key) l -> r < length l -> (key (nth r l 0%nat) <= m)%Q ->
  S r <= cnt (fun i => Qle_bool (key i) m) l.
Proof.
  intros Hs Hr Hm. rewrite <- (firstn_skipn (S r) l), cnt_app.
  rewrite cnt_all; [rewrite firstn_length; lia|]. intros x Hx. apply Qle_bool_iff.
  apply (In_nth _ _ 0%nat) in Hx as [a [Ha <-]]. rewrite firstn_length in Ha.
  assert (E : nth a (firstn (S r) l) 0%nat = nth a l 0%nat).
  { rewrite <- (firstn_skipn (S r) l) at 2. rewrite app_nth1 by (rewrite firstn_length; lia). reflexivity. }
  rewrite E. pose proof (sorted_nth key l Hs a r ltac:(lia) Hr). lra.
Qed.

Lemma cnt_high (key : nat -> Q) l r m : StronglySorted (key_le key) l -> r < length l -> (m <= key (nth r l 0%nat))%Q ->
  length l - r <= cnt (fun i => Qle_bool m (key i)) l.
Proof.
  intros Hs Hr Hm. rewrite <- (firstn_skipn r l) at 2. rewrite cnt_app.
  rewrite (cnt_all _ (skipn r l)); [rewrite skipn_length; lia|]. intros x Hx. apply Qle_bool_iff.
  apply (In_nth _ _ 0%nat) in Hx as [a [Ha <-]]. rewrite skipn_length in Ha.
  assert (E : nth a (skipn r l) 0%nat = nth (r + a) l 0%nat).
  { rewrite <- (firstn_skipn r l) at 2. rewrite app_nth2 by (rewrite firstn_length; lia). f_equal. rewrite firstn_length. lia. }
  rewrite E. pose proof (sorted_nth key l Hs r (r + a) ltac:(lia) ltac:(lia)). lra.
Qed.

Lemma cnt_map {A B} (g : A -> B) (f : B -> bool) l : cnt f (map g l) = cnt (fun x => f (g x)) l.
Proof. induction l; simpl; auto. Qed.

Lemma kmedians_coord_minimises data cluster d : cluster <> [] ->
  minimises_abs (map (fun i => coord (nth i data []) d) cluster) (kmedians_coord data cluster d).
Proof.
  intros Hne. set (key := fun i => coord (nth i data []) d).
  pose proof (sort_key_sorted key cluster) as Hs. pose proof (sort_key_perm key cluster) as Hp.
  pose proof (sort_key_length key cluster) as Hl.
  assert (Hn : 1 <= length cluster) by (destruct cluster; [congruence|simpl; lia]).
  set (n := length cluster) in *. set (r := (n - 1) / 2).
  assert (Hr : 2 * r <= n - 1 < 2 * r + 2) by (unfold r; pose proof (Nat.div_mod (n - 1) 2 ltac:(lia)); pose proof (Nat.mod_upper_bound (n - 1) 2 ltac:(lia)); lia).
  assert (Hmod : n mod 2 = 0 -> n = 2 * r + 2).
  { intros H. pose proof (Nat.div_mod n 2 ltac:(lia)). lia. }
  assert (Hmod1 : n mod 2 <> 0 -> n = 2 * r + 1).
  { intros H. pose proof (Nat.div_mod n 2 ltac:(lia)). pose proof (Nat.mod_upper_bound n 2 ltac:(lia)). lia. }
  assert (Hcase : exists b, (key (nth r (sort_key key cluster) 0%nat) <= kmedians_coord data cluster d)%Q /\
     (kmedians_coord data cluster d <= key (nth b (sort_key key cluster) 0%nat))%Q /\ b < n /\ n <= 2 * (r + 1) /\ n <= 2 * (n - b)).
  { unfold kmedians_coord. fold key n r. cbn zeta. destruct (Nat.eqb_spec (n mod 2) 0) as [E|E].
    - specialize (Hmod E). exists (r + 1).
      pose proof (sorted_nth key _ Hs r (r + 1) ltac:(lia) ltac:(lia)) as Hle.
      assert (Hh : forall a b : Q, (a <= b)%Q -> (a <= (a + b) / 2)%Q /\ ((a + b) / 2 <= b)%Q).
      { intros a b Hab. assert (Eh : ((a + b) / 2 == (1 # 2) * (a + b))%Q) by field. split; rewrite Eh; lra. }
      destruct (Hh _ _ Hle) as [Hh1 Hh2]. split; [exact Hh1|]. split; [exact Hh2|]. lia.
    - specialize (Hmod1 E). exists r. split; [apply Qle_refl|]. split; [apply Qle_refl|]. lia. }
  destruct Hcase as (b & H1 & H2 & H3 & H4 & H5).
  apply median_minimises; rewrite map_length, cnt_map; fold n.
  - rewrite <- (cnt_perm _ _ _ Hp). pose proof (cnt_low key (sort_key key cluster) r _ Hs ltac:(lia) H1). unfold key in *. lia.
  - rewrite <- (cnt_perm _ _ _ Hp). pose proof (cnt_high key (sort_key key cluster) b _ Hs ltac:(lia) H2). unfold key in *. lia.
Qed.

Lemma manhattan_sum a b dim : length a = dim -> length b = dim ->
  (manhattan a b == qsum (map (fun d => Qabs (coord a d - coord b d)) (seq 0 dim)))%Q.
Proof.
  intros Ha Hb. subst dim. revert b Hb. induction a as [|x a IH]; intros [|y b] Hb; simpl in *; try lia; [reflexivity|].
  rewrite IH by lia. rewrite <- seq_shift, map_map. reflexivity.
Qed.

(** * The loop *)
(** [c] is, in each coordinate, a value with minimal sum of absolute differences *)
Definition is_median (dim : nat) (pts : list point) (c : point) : Prop :=
  length c = dim /\ forall d, d < dim -> minimises_abs (map (fun p => coord p d) pts) (coord c d).

Definition kmedians_ok (data : list point) (k0 : nat) (clusters : list (list nat)) (medians : list point) : Prop :=
  partitions (length data) clusters /\ no_empty clusters /\
  length medians = length clusters /\ length clusters <= k0 /\
  forall k, k < length clusters -> is_median (dimension data) (map (fun i => nth i data []) (nth k clusters [])) (nth k medians []).

Definition median_of (data : list point) (cl : list nat) : point := map (kmedians_coord data cl) (seq 0 (dimension data)).

Lemma median_of_is_median data cl : cl <> [] -> is_median (dimension data) (map (fun i => nth i data []) cl) (median_of data cl).
Proof.
  intros Hne. unfold median_of. split; [now rewrite map_length, seq_length|]. intros d Hd.
  unfold coord at 2. rewrite nth_map_seq0 by auto. rewrite map_map. apply kmedians_coord_minimises. auto.
Qed.

Lemma kmedians_step_ok metric data k0 medians : medians <> [] -> length medians <= k0 ->
  kmedians_ok data k0 (kmedians_update_clusters metric data medians)
               (kmedians_update_medians data (kmedians_update_clusters metric data medians)).
Proof.
  intros Hne Hl. rewrite kmedians_assign by auto. split; [|split; [|split; [|split]]].
  - apply assign_partition; auto.
  - apply assign_no_empty.
  - unfold kmedians_update_medians. apply map_length.
  - pose proof (assign_length metric data medians). lia.
  - intros k Hk. change (kmedians_update_medians data) with (map (median_of data)).
    rewrite (nth_indep _ [] (median_of data [])) by (rewrite map_length; auto).
    rewrite (map_nth (median_of data)). apply median_of_is_median.
    pose proof (assign_no_empty metric data medians) as Hn. unfold no_empty in Hn. rewrite Forall_forall in Hn.
    exact (Hn _ (nth_In _ [] Hk)).
Qed.

Lemma kmedians_ok_uniform data k0 clusters centers : data <> [] -> kmedians_ok data k0 clusters centers ->
  centers <> [] /\ uniform (dimension data) centers.
Proof.
  intros Hd (H1 & _ & H3 & _ & H5). split.
  - intro. subst. apply (partition_ne data Hd clusters H1). destruct clusters; [auto|discriminate].
  - intros p Hp. apply (In_nth _ _ []) in Hp as [k [Hk <-]].
    assert (Hk' : k < length clusters) by (rewrite <- H3; exact Hk). apply H5 in Hk' as [Hk' _]. auto.
Qed.

Lemma kmedians_loop_ok metric data tol k0 : data <> [] -> forall left change clusters centers,
  kmedians_ok data k0 clusters centers ->
  kmedians_ok data k0 (fst (kmedians_loop metric data tol left change clusters centers))
                      (snd (kmedians_loop metric data tol left change clusters centers)).
Proof.
  intros Hd. induction left as [|left IH]; intros change clusters centers H; cbn [kmedians_loop]; auto.
  destruct (exceeds change tol); auto.
  apply IH. destruct (kmedians_ok_uniform _ _ _ _ Hd H) as [Hne _]. destruct H as (_ & _ & H3 & H4 & _).
  apply kmedians_step_ok; auto. lia.
Qed.

Lemma kmedians_loop_more metric data tol m j : forall change clusters centers,
  exists change', kmedians_loop metric data tol (m + j) change clusters centers =
    kmedians_loop metric data tol j change' (fst (kmedians_loop metric data tol m change clusters centers))
      (snd (kmedians_loop metric data tol m change clusters centers)).
Proof.
  induction m as [|m IH]; intros change clusters centers; cbn [Nat.add kmedians_loop].
  - exists change. reflexivity.
  - destruct (exceeds change tol) eqn:E.
    + apply IH.
    + exists change. destruct j; cbn [kmedians_loop fst snd]; [reflexivity|]. now rewrite E.
Qed.

Lemma kmedians_process_inv metric data initial tol itermax r :
  kmedians_process metric data initial tol itermax = Ok r ->
  data <> [] /\ initial <> [] /\
  r = (fst (kmedians_loop metric data tol itermax None [] initial), snd (kmedians_loop metric data tol itermax None [] initial),
       total_wce metric data (fst (kmedians_loop metric data tol itermax None [] initial)) (snd (kmedians_loop metric data tol itermax None [] initial))).
Proof.
  unfold kmedians_process. intros H. destruct data as [|p0 t]; [discriminate|].
  destruct initial as [|c0 ct]; [discriminate|].
  destruct (Qltb tol 0) eqn:Et; [discriminate|].
  destruct (Nat.eqb_spec (length p0) (length c0)); [|discriminate].
  split; [discriminate|]. split; [discriminate|].
  destruct (kmedians_loop metric (p0 :: t) tol itermax None [] (c0 :: ct)) as [cl ce].
  apply Ok_inj in H. auto.
Qed.

Theorem kmedians_process_ok metric data initial tol itermax clusters medians wce :
  kmedians_process metric data initial tol itermax = Ok (clusters, medians, wce) -> 1 <= itermax ->
  kmedians_ok data (length initial) clusters medians /\ (wce == cost metric data clusters medians)%Q.
Proof.
  intros H Hi. apply kmedians_process_inv in H as (Hd & Hin & H). inversion H; subst. clear H.
  destruct itermax as [|m]; [lia|]. cbn [kmedians_loop exceeds].
  match goal with |- context [kmedians_loop ?a ?b ?c ?d ?e ?f ?g] =>
    assert (Hok : kmedians_ok data (length initial) (fst (kmedians_loop a b c d e f g)) (snd (kmedians_loop a b c d e f g))) end.
  { apply kmedians_loop_ok; auto. apply kmedians_step_ok; auto. }
  split; auto. apply total_wce_cost. destruct Hok as (_ & _ & Hok & _). auto.
Qed.

Section Mono.
Variable data : list point.
Hypothesis data_ne : data <> [].
Hypothesis data_dim : uniform (dimension data) data.

Lemma kmedians_update_opt g c : g <> [] -> (forall i, In i g -> i < length data) -> length c = dimension data ->
  (qsum (map (fun i => manhattan (nth i data []) (median_of data g)) g)
   <= qsum (map (fun i => manhattan (nth i data []) c) g))%Q.
Proof.
  intros Hg Hi Hc. destruct (median_of_is_median data g Hg) as [Hml Hm].
  assert (Hdim : forall i, In i g -> length (nth i data []) = dimension data) by (intros i Hig; apply data_dim, nth_In, Hi, Hig).
  rewrite (qsum_ext (fun i => manhattan (nth i data []) (median_of data g))
    (fun i => qsum (map (fun d => Qabs (coord (nth i data []) d - coord (median_of data g) d)) (seq 0 (dimension data))))%Q).
  2:{ intros i Hig. apply manhattan_sum; auto. }
  rewrite (qsum_ext (fun i => manhattan (nth i data []) c)
    (fun i => qsum (map (fun d => Qabs (coord (nth i data []) d - coord c d)) (seq 0 (dimension data))))%Q).
  2:{ intros i Hig. apply manhattan_sum; auto. }
  rewrite !(qsum_swap _ g). apply qsum_le. intros d Hd. apply in_seq in Hd.
  specialize (Hm d ltac:(lia) (coord c d)). rewrite !map_map in Hm. exact Hm.
Qed.

Lemma kmedians_loop_cost tol k0 left : forall change clusters centers, kmedians_ok data k0 clusters centers ->
  (cost manhattan data (fst (kmedians_loop manhattan data tol left change clusters centers))
                    (snd (kmedians_loop manhattan data tol left change clusters centers))
   <= cost manhattan data clusters centers)%Q.
Proof.
  induction left as [|left IH]; intros change clusters centers H; cbn [kmedians_loop]; [simpl; lra|].
  destruct (exceeds change tol); [|simpl; lra].
  destruct (kmedians_ok_uniform _ _ _ _ data_ne H) as [Hne Hu].
  assert (Hl : length centers <= k0) by (destruct H as (_ & _ & H3 & H4 & _); lia).
  eapply Qle_trans; [apply IH; apply kmedians_step_ok; eauto|].
  rewrite kmedians_assign by auto. change (kmedians_update_medians data) with (map (median_of data)).
  eapply Qle_trans.
  - apply (step_cost_best manhattan data (median_of data) (fun c => length c = dimension data)); auto.
    + apply kmedians_update_opt.
    + apply Forall_forall. auto.
  - apply cost_ge_best; destruct H as (H1 & _ & H3 & _); auto.
Qed.

Theorem kmedians_monotone initial tol m m' cl ce w cl' ce' w' : 1 <= m -> m <= m' ->
  kmedians_process manhattan data initial tol m = Ok (cl, ce, w) ->
  kmedians_process manhattan data initial tol m' = Ok (cl', ce', w') -> (w' <= w)%Q.
Proof.
  intros Hm Hmm H H'.
  destruct (kmedians_process_ok _ _ _ _ _ _ _ _ H Hm) as [Hok Hw].
  destruct (kmedians_process_ok _ _ _ _ _ _ _ _ H' ltac:(lia)) as [Hok' Hw'].
  rewrite Hw, Hw'.
  apply kmedians_process_inv in H as (_ & _ & H). apply kmedians_process_inv in H' as (_ & _ & H').
  replace m' with (m + (m' - m)) in H' by lia.
  destruct (kmedians_loop_more manhattan data tol m (m' - m) None [] initial) as [change' E]. rewrite E in H'.
  inversion H. subst cl ce. inversion H'. subst cl' ce'. apply (kmedians_loop_cost tol (length initial)). exact Hok.
Qed.
End Mono.

Lemma predict_nearest metric clusters centers points : clusters <> [] -> centers <> [] ->
  length (kmeans_predict metric clusters centers points) = length points /\
  forall j, j < length points -> nearest metric centers (nth j points []) (nth j (kmeans_predict metric clusters centers points) 0).
Proof.
  intros Hc Hne. unfold kmeans_predict. destruct clusters as [|c0 ct]; [congruence|].
  split; [apply map_length|]. intros j Hj.
  rewrite (nth_indep _ 0 ((fun p => argmin (map (metric p) centers)) [])) by (rewrite map_length; auto).
  rewrite (map_nth (fun p => argmin (map (metric p) centers))). apply argmin_nearest; auto.
Qed.

Lemma kmedians_predict_nearest metric clusters medians points : clusters <> [] -> medians <> [] ->
  length (kmedians_predict metric clusters medians points) = length points /\
  forall j, j < length points -> nearest metric medians (nth j points []) (nth j (kmedians_predict metric clusters medians points) 0).
Proof.
  intros Hc Hne. unfold kmedians_predict. destruct clusters as [|c0 ct]; [congruence|].
  split; [apply map_length|]. intros j Hj.
  rewrite (nth_indep _ 0 ((fun p => argmin (map (metric p) medians)) [])) by (rewrite map_length; auto).
  rewrite (map_nth (fun p => argmin (map (metric p) medians))). apply argmin_nearest; auto.
Qed.
