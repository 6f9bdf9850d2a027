(** Specification and proofs for Cldist_Model.v *)
From Verif Require Import Base Kmeans_Model Kmeans_Proofs Aggl_Model Aggl_Proofs Bsas_Proofs Cure_Model Cftree_Model Cftree_Proofs Birch_Model Birch_Proofs Cldist_Model.

(** ** Specification *)
(** the points a group stands for *)
Definition group_points (c : group) : list point :=
  match c with ByPoints ps => ps | ByIndexes data idx => map (fun i => nth i data []) idx end.

(** the distance of two points by index, taken in the order of the indexes; 0 on the diagonal *)
Definition pair_distance (distance : point -> point -> Q) (points : list point) (i j : nat) : Q :=
  if j <? i then distance (nth j points []) (nth i points [])
  else if i <? j then distance (nth i points []) (nth j points []) else 0%Q.

(** [N] are [k] nearest neighbours of point [i] among [n] points, [dist] being the distance of two of them by index *)
Definition nearest_neighbours (dist : nat -> nat -> Q) (n k i : nat) (N : list nat) : Prop :=
  NoDup N /\ length N = k /\ (forall j, In j N -> j < n /\ j <> i) /\
  forall j c, In j N -> c < n -> c <> i -> ~ In c N -> (dist i j <= dist i c)%Q.

(** ** Proofs *)
Lemma fold_add_qsum {A} (f : A -> Q) l : forall a, (fold_left (fun acc x => acc + f x) l a == a + qsum (map f l))%Q.
Proof. induction l as [|x t IH]; intros a; simpl; [ring|]. rewrite IH. ring. Qed.

Lemma fold_add_qsum2 {A B} (f : A -> B -> Q) l l2 : forall a,
  (fold_left (fun acc x => fold_left (fun acc y => acc + f x y) l2 acc) l a == a + qsum (map (fun x => qsum (map (f x) l2)) l))%Q.
Proof.
  induction l as [|x t IH]; intros a; simpl; [ring|]. rewrite IH, fold_add_qsum. ring.
Qed.

Lemma group_at_points c : map (group_at c) (seq 0 (group_len c)) = group_points c.
Proof.
  destruct c as [ps|data idx]; simpl.
  - rewrite <- (firstn_all ps) at 2. generalize (Nat.le_refl (length ps)).
    assert (G : forall l : list point, map (fun i => nth i l []) (seq 0 (length l)) = l).
    { induction l as [|x t IH]; auto. cbn [length seq map nth]. rewrite <- seq_shift, map_map. cbn [nth]. now rewrite IH. }
    intros _. rewrite firstn_all. apply G.
  - assert (G : forall l : list nat, map (fun i => nth (nth i l 0) data []) (seq 0 (length l)) = map (fun i => nth i data []) l).
    { induction l as [|x t IH]; auto. cbn [length seq map nth]. rewrite <- seq_shift, map_map. cbn [nth]. now rewrite IH. }
    apply G.
Qed.

Lemma group_len_points c : length (group_points c) = group_len c.
Proof. destruct c; simpl; auto. apply map_length. Qed.

Lemma map_group c {A} (f : point -> A) : map (fun i => f (group_at c i)) (seq 0 (group_len c)) = map f (group_points c).
Proof. rewrite <- group_at_points, map_map. reflexivity. Qed.

Lemma joint_points c1 c2 : map (joint_at c1 c2) (seq 0 (group_len c1 + group_len c2)) = group_points c1 ++ group_points c2.
Proof.
  rewrite seq_app, map_app. f_equal.
  - rewrite <- group_at_points. apply map_ext_in. intros i Hi. apply in_seq in Hi. unfold joint_at.
    destruct (Nat.ltb_spec i (group_len c1)); auto. lia.
  - rewrite <- group_at_points. cbn [Nat.add].
    rewrite <- (Nat.add_0_r (group_len c1)) at 1.
    assert (G : forall n k, seq (group_len c1 + k) n = map (fun i => group_len c1 + i) (seq k n)).
    { induction n as [|n IH]; intros k; simpl; auto. f_equal. rewrite <- IH. f_equal. lia. }
    rewrite G, map_map. apply map_ext_in. intros i _. unfold joint_at.
    destruct (Nat.ltb_spec (group_len c1 + i) (group_len c1)); [lia|]. f_equal. lia.
Qed.

Lemma countq_pos n : 0 < n -> (0 < countq n)%Q.
Proof. intros H. unfold countq. change 0%Q with (inject_Z 0). rewrite <- Zlt_Qlt. lia. Qed.

Lemma countq_mult a b : (countq (a * b) == countq a * countq b)%Q.
Proof. unfold countq. rewrite Nat2Z.inj_mul, inject_Z_mult. reflexivity. Qed.
Lemma countq_plus a b : (countq (a + b) == countq a + countq b)%Q.
Proof. unfold countq. rewrite Nat2Z.inj_add, inject_Z_plus. reflexivity. Qed.

Lemma inter_utils c1 c2 : group_points c1 <> [] -> group_points c2 <> [] ->
  exists v, average_inter_sq c1 c2 = Ok v /\
   (countq (group_len c1) * countq (group_len c2) * v == cross (group_points c1) (group_points c2))%Q.
Proof.
  intros H1 H2. unfold average_inter_sq.
  assert (L1 : 0 < group_len c1) by (rewrite <- group_len_points; destruct (group_points c1); simpl; [congruence|lia]).
  assert (L2 : 0 < group_len c2) by (rewrite <- group_len_points; destruct (group_points c2); simpl; [congruence|lia]).
  destruct (Nat.eqb_spec (group_len c1 * group_len c2) 0) as [E|E]; [nia|]. eexists. split; [reflexivity|].
  rewrite (fold_add_qsum2 (fun i j => sqdist (group_at c1 i) (group_at c2 j))). rewrite countq_mult.
  pose proof (countq_pos _ L1). pose proof (countq_pos _ L2).
  set (T := qsum _).
  assert (ET : (T == cross (group_points c1) (group_points c2))%Q).
  { unfold T, cross. rewrite <- (map_group c1). apply qsum_ext. intros i _. rewrite <- (map_group c2). reflexivity. }
  rewrite <- ET. field. split; lra.
Qed.

Lemma intra_utils c1 c2 : group_points c1 <> [] -> group_points c2 <> [] ->
  exists v, average_intra_sq c1 c2 = Ok v /\
   ((countq (group_len c1) + countq (group_len c2)) * (countq (group_len c1) + countq (group_len c2) - 1) * v ==
    cross (group_points c1 ++ group_points c2) (group_points c1 ++ group_points c2))%Q.
Proof.
  intros H1 H2. unfold average_intra_sq.
  assert (L1 : 0 < group_len c1) by (rewrite <- group_len_points; destruct (group_points c1); simpl; [congruence|lia]).
  assert (L2 : 0 < group_len c2) by (rewrite <- group_len_points; destruct (group_points c2); simpl; [congruence|lia]).
  set (n := group_len c1 + group_len c2). destruct (Nat.eqb_spec (n * (n - 1)) 0) as [E|E]; [unfold n in E; nia|]. eexists. split; [reflexivity|].
  rewrite (fold_add_qsum2 (fun i j => sqdist (joint_at c1 c2 i) (joint_at c1 c2 j))).
  assert (Hn : (2 <= countq n)%Q) by (unfold countq; change 2%Q with (inject_Z 2); rewrite <- Zle_Qle; unfold n; lia).
  rewrite <- countq_plus. fold n. set (T := qsum _).
  assert (ET : (T == cross (group_points c1 ++ group_points c2) (group_points c1 ++ group_points c2))%Q).
  { unfold T, cross. rewrite <- joint_points. fold n. rewrite map_map. apply qsum_ext. intros i _. rewrite map_map. reflexivity. }
  rewrite <- ET. field. split; lra.
Qed.

Section Sums.
Variable D : nat.

Lemma sum_fold (f : nat -> point) l : forall acc : point, length acc = D -> (forall i, In i l -> length (f i) = D) ->
  length (fold_left (fun acc i => list_math_addition acc (f i)) l acc) = D /\
  forall d, d < D -> (coord (fold_left (fun acc i => list_math_addition acc (f i)) l acc) d == coord acc d + qsum (map (fun i => coord (f i) d) l))%Q.
Proof.
  induction l as [|x t IH]; intros acc Ha Hf; cbn [fold_left].
  - split; auto. intros d Hd. simpl. ring.
  - assert (La : length (list_math_addition acc (f x)) = D) by (unfold list_math_addition; now rewrite map_length, seq_length).
    destruct (IH _ La) as [A B]; [intros; apply Hf; simpl; auto|]. split; [exact A|]. intros d Hd. rewrite (B d Hd).
    unfold list_math_addition at 1. unfold coord at 1. rewrite nth_map_seq0 by lia. cbn [map qsum]. simpl. ring.
Qed.

Lemma group_sum_ok c : uniform D (group_points c) -> group_points c <> [] ->
  (forall data idx, c = ByIndexes data idx -> uniform D data /\ data <> []) ->
  exists s, group_sum c = Ok s /\ length s = D /\ forall d, d < D -> (coord s d == qsum (map (fun p => coord p d) (group_points c)))%Q.
Proof.
  intros Hu Hne Hdata.
  assert (Hf : forall i, In i (seq 0 (group_len c)) -> length (group_at c i) = D).
  { intros i Hi. apply Hu. rewrite <- group_at_points. apply in_map. auto. }
  assert (Z : forall d, (coord (repeat 0%Q D) d == 0)%Q).
  { intros d. unfold coord. destruct (nth_in_or_default d (repeat 0%Q D) 0%Q) as [Hin|E]; [apply repeat_spec in Hin; rewrite Hin|rewrite E]; reflexivity. }
  destruct (sum_fold (group_at c) (seq 0 (group_len c)) (repeat 0%Q D) (repeat_length _ _) Hf) as [A B].
  exists (fold_left (fun acc i => list_math_addition acc (group_at c i)) (seq 0 (group_len c)) (repeat 0%Q D)).
  split; [|split; [exact A|]].
  - unfold group_sum. destruct c as [ps|data idx].
    + destruct ps as [|p0 t]; [contradiction Hne; reflexivity|]. replace (length p0) with D by (symmetry; apply Hu; simpl; auto). reflexivity.
    + destruct (Hdata data idx eq_refl) as [Hd1 Hd2]. destruct data as [|p0 t]; [contradiction Hd2; reflexivity|].
      destruct idx as [|i0 ti]; [contradiction Hne; reflexivity|]. replace (length p0) with D by (symmetry; apply Hd1; simpl; auto). reflexivity.
  - intros d Hd. rewrite (B d Hd), Z. rewrite <- (map_group c (fun p => coord p d)). ring.
Qed.

Lemma scatter_spread c center from : (group_scatter c center from == from + spread (group_points c) center)%Q.
Proof. unfold group_scatter. rewrite fold_add_qsum. unfold spread. rewrite <- (map_group c (fun p => sqdist p center)). reflexivity. Qed.

Lemma spread_peq ps a b : peq a b -> (spread ps a == spread ps b)%Q.
Proof. intros H. unfold spread. apply qsum_ext. intros p _. rewrite (sqdist_sym p a), (sqdist_sym p b). apply sqdist_peq_l. exact H. Qed.

Lemma division_mean s n ps : 0 < n -> length s = D -> n = length ps -> (forall d, d < D -> (coord s d == qsum (map (fun p => coord p d) ps))%Q) ->
  is_mean D ps (list_math_division_number s (countq n)).
Proof.
  intros Hn Hl -> H. split; [unfold list_math_division_number; now rewrite map_length, seq_length|].
  intros d Hd. unfold list_math_division_number, coord at 1. rewrite nth_map_seq0 by lia. rewrite <- H by auto.
  pose proof (countq_pos _ Hn). unfold countq in *. field. lra.
Qed.

Lemma mean_unique ps a b : ps <> [] -> is_mean D ps a -> is_mean D ps b -> peq a b.
Proof.
  intros Hc [L1 Q1] [L2 Q2]. apply peq_of_coord; [lia|]. intros d Hd. rewrite L1 in Hd. specialize (Q1 d Hd). specialize (Q2 d Hd). rewrite <- Q2 in Q1.
  apply Qmult_inj_l in Q1; auto. destruct ps; [congruence|]. unfold Qeq. simpl. lia.
Qed.

Lemma variance_utils c1 c2 : uniform D (group_points c1) -> uniform D (group_points c2) -> group_points c1 <> [] -> group_points c2 <> [] ->
  (forall data idx, c1 = ByIndexes data idx \/ c2 = ByIndexes data idx -> uniform D data /\ data <> []) ->
  exists v m1 m2 m12, variance_increase_distance c1 c2 = Ok v /\
    is_mean D (group_points c1) m1 /\ is_mean D (group_points c2) m2 /\ is_mean D (group_points c1 ++ group_points c2) m12 /\
    (v == spread (group_points c1 ++ group_points c2) m12 - spread (group_points c1) m1 - spread (group_points c2) m2)%Q.
Proof.
  intros U1 U2 N1 N2 Hd.
  destruct (group_sum_ok c1 U1 N1) as [s1 (E1 & L1 & C1)]; [intros; apply (Hd data idx); auto|].
  destruct (group_sum_ok c2 U2 N2) as [s2 (E2 & L2 & C2)]; [intros; apply (Hd data idx); auto|].
  assert (P1 : 0 < group_len c1) by (rewrite <- group_len_points; destruct (group_points c1); simpl; [congruence|lia]).
  assert (P2 : 0 < group_len c2) by (rewrite <- group_len_points; destruct (group_points c2); simpl; [congruence|lia]).
  unfold variance_increase_distance. rewrite E1, E2. cbn [bind]. do 4 eexists. split; [reflexivity|].
  split; [apply division_mean; [exact P1|exact L1|symmetry; apply group_len_points|exact C1]|].
  split; [apply division_mean; [exact P2|exact L2|symmetry; apply group_len_points|exact C2]|].
  split.
  - apply (division_mean (list_math_addition s1 s2) (group_len c1 + group_len c2)); [lia| |rewrite app_length, !group_len_points; auto|].
    + unfold list_math_addition. now rewrite map_length, seq_length.
    + intros d Hdd. unfold list_math_addition, coord at 1. rewrite nth_map_seq0 by lia. rewrite map_app, qsum_app, C1, C2 by auto. reflexivity.
  - rewrite !scatter_spread.
    assert (G : forall m, (spread (group_points c1 ++ group_points c2) m == spread (group_points c1) m + spread (group_points c2) m)%Q)
      by (intros m; unfold spread; rewrite map_app, qsum_app; reflexivity).
    rewrite G. ring.
Qed.

(** the feature of a list of points made with linear_sum and square_sum *)
Lemma square_dot (p : point) : (qsum (list_math_multiplication p p) == dot p p)%Q.
Proof.
  unfold list_math_multiplication. induction p as [|x q IH]; [reflexivity|]. cbn [length seq map dot qsum].
  rewrite <- seq_shift, map_map. unfold coord in *. simpl in *. rewrite IH. reflexivity.
Qed.

Lemma linear_sum_ok ps : uniform D ps -> ps <> [] ->
  linear_sum ps = Ok (map (fun d => sumQ (map (fun p => coord p d) ps)) (seq 0 D)).
Proof.
  intros Hu Hne. destruct ps as [|p0 t]; [contradiction Hne; reflexivity|]. unfold linear_sum.
  replace (length p0) with D by (symmetry; apply Hu; simpl; auto). reflexivity.
Qed.

Lemma square_sum_ok ps : ps <> [] -> square_sum ps = Ok (sumQ (map (fun p => sumQ (list_math_multiplication p p)) ps)).
Proof. intros Hne. destruct ps; [contradiction Hne; reflexivity|]. reflexivity. Qed.

Lemma sums_describe ps : uniform D ps -> ps <> [] ->
  exists ls ss, linear_sum ps = Ok ls /\ square_sum ps = Ok ss /\ describes D (Ent None (length ps) ls ss) ps.
Proof.
  intros Hu Hne. rewrite (linear_sum_ok ps Hu Hne), (square_sum_ok ps Hne).
  do 2 eexists. split; [reflexivity|]. split; [reflexivity|]. unfold describes. cbn [num lsum ssum]. split; [reflexivity|].
  split; [now rewrite map_length, seq_length|]. split.
  - intros d Hd. unfold coord at 1. rewrite nth_map_seq0 by lia. apply sumQ_qsum.
  - rewrite sumQ_qsum. apply qsum_ext. intros p Hp. rewrite sumQ_qsum. rewrite sqdist_origin by (apply Hu; auto). apply square_dot.
Qed.

Lemma dot_scale_l k a b : (dot (map (fun x => x / k) a) b == dot a b / k)%Q.
Proof. rewrite dot_comm, dot_scale, dot_comm. reflexivity. Qed.

Lemma variance_closed a ps b qs : describes D a ps -> describes D b qs -> uniform D ps -> uniform D qs -> ps <> [] -> qs <> [] ->
  (variance_increase a b == numq a * numq b / (numq a + numq b) * sqdist (centroid a) (centroid b))%Q.
Proof.
  intros Ha Hb Hp Hq N1 N2. pose proof (numq_pos D a ps Ha N1) as P1. pose proof (numq_pos D b qs Hb N2) as P2.
  rewrite sqdist_dot by (rewrite (centroid_length D a ps Ha), (centroid_length D b qs Hb); auto).
  unfold centroid. rewrite !dot_scale, !dot_scale_l. unfold variance_increase.
  assert (La : length (lsum a) = D) by apply Ha. assert (Lb : length (lsum b) = D) by apply Hb.
  rewrite dot_padd by lia. rewrite (dot_comm (padd (lsum a) (lsum b)) (lsum a)), (dot_comm (padd (lsum a) (lsum b)) (lsum b)).
  rewrite !dot_padd by lia. rewrite (dot_comm (lsum b) (lsum a)). field. repeat split; lra.
Qed.
End Sums.

(** *** Neighbours *)
Section Neighbors.
Variable distance : point -> point -> Q.
Variable points : list point.
Let n := length points.
Let dd (i j : nat) : Q := distance (nth i points []) (nth j points []).

(** row [i] of the full matrix *)
Definition full (i c : nat) : Q := if c <? i then dd c i else if i <? c then dd i c else 0%Q.

(** entry [(k, c)] after the iterations below [i] and the inner iterations below [j] of iteration [i] *)
Definition partial (i j k c : nat) : Q :=
  if k =? i then (if c <? i then dd c i else if (i <? c) && (c <? j) then dd i c else 0%Q)
  else if c <? i then dd c k
  else if (c =? i) && (k <? j) then dd i k else 0%Q.

Definition row_of (f : nat -> Q) : list Q := map f (seq 0 n).

Definition inner_inv (i j : nat) (m : list (list Q)) : Prop :=
  length m = n /\ forall k, k < n ->
    nth k m [] = if k <? i then sort_key (fun v => v) (row_of (full k)) else row_of (partial i j k).

Lemma upd_row f c v : c < n -> upd (row_of f) c v = row_of (fun x => if x =? c then v else f x).
Proof.
  intros Hc. unfold row_of. apply nth_ext with (d := 0%Q) (d' := 0%Q).
  - now rewrite upd_length, !map_length.
  - intros x Hx. rewrite upd_length, map_length, seq_length in Hx. rewrite upd_nth, map_length, seq_length.
    rewrite !nth_map_seq0 by auto. rewrite (Nat.eqb_sym c x). destruct (Nat.eqb_spec x c); auto.
    replace (c <? n) with true by (symmetry; apply Nat.ltb_lt; auto). reflexivity.
Qed.

Lemma row_ext f g : (forall c, c < n -> f c = g c) -> row_of f = row_of g.
Proof. intros H. apply map_ext_in. intros c Hc. apply in_seq in Hc. apply H. lia. Qed.

Lemma inner_step i j m : i < j -> j < n -> inner_inv i j m ->
  inner_inv i (S j) (set2 (set2 m i j (dd i j)) j i (dd i j)).
Proof.
  intros Hij Hj [L H]. unfold set2. split; [now rewrite !upd_length|]. intros k Hk.
  rewrite !upd_nth, !upd_length. replace (i <? length m) with true by (symmetry; apply Nat.ltb_lt; lia).
  replace (j <? length m) with true by (symmetry; apply Nat.ltb_lt; lia). rewrite !andb_true_r.
  replace (i =? j) with false by (symmetry; apply Nat.eqb_neq; lia).
  destruct (Nat.eqb_spec j k) as [<-|Hjk].
  - replace (j <? i) with false by (symmetry; apply Nat.ltb_ge; lia). rewrite (H j Hj).
    replace (j <? i) with false by (symmetry; apply Nat.ltb_ge; lia). rewrite upd_row by lia. apply row_ext.
    intros c Hc. unfold partial. replace (j =? i) with false by (symmetry; apply Nat.eqb_neq; lia).
    destruct (Nat.eqb_spec c i) as [->|Hci].
    + rewrite Nat.ltb_irrefl. cbn [andb]. replace (j <? S j) with true by (symmetry; apply Nat.ltb_lt; lia). reflexivity.
    + cbn [andb]. reflexivity.
  - destruct (Nat.eqb_spec i k) as [<-|Hik].
    + rewrite Nat.ltb_irrefl. rewrite (H i ltac:(lia)), Nat.ltb_irrefl. rewrite upd_row by lia. apply row_ext.
      intros c Hc. unfold partial. rewrite Nat.eqb_refl. destruct (Nat.eqb_spec c j) as [->|Hcj].
      * replace (j <? i) with false by (symmetry; apply Nat.ltb_ge; lia). replace (i <? j) with true by (symmetry; apply Nat.ltb_lt; lia).
        replace (j <? S j) with true by (symmetry; apply Nat.ltb_lt; lia). reflexivity.
      * destruct (c <? i); auto. destruct (i <? c); cbn [andb]; auto.
        replace (c <? S j) with (c <? j); auto. apply eq_true_iff_eq. rewrite !Nat.ltb_lt. lia.
    + rewrite (H k Hk). destruct (k <? i); auto. apply row_ext. intros c Hc. unfold partial.
      replace (k =? i) with false by (symmetry; apply Nat.eqb_neq; lia). destruct (c <? i); auto.
      destruct (c =? i); cbn [andb]; auto. replace (k <? S j) with (k <? j); auto. apply eq_true_iff_eq. rewrite !Nat.ltb_lt. lia.
Qed.

Lemma inner_loop i : i < n -> forall cnt j m, i < j -> j + cnt = n -> inner_inv i j m ->
  inner_inv i n (fold_left (fun m j => let v := distance (nth i points []) (nth j points []) in set2 (set2 m i j v) j i v) (seq j cnt) m).
Proof.
  intros Hi. induction cnt as [|cnt IH]; intros j m Hij Hj H; cbn [seq fold_left].
  - replace n with j by lia. auto.
  - apply IH; try lia. apply inner_step; auto. lia.
Qed.

Definition outer_inv (i : nat) (m : list (list Q)) : Prop :=
  length m = n /\ forall k, k < n ->
    nth k m [] = if k <? i then sort_key (fun v => v) (row_of (full k)) else row_of (fun c => if c <? i then dd c k else 0%Q).

Lemma outer_inner i m : i < n -> outer_inv i m -> inner_inv i (S i) m.
Proof.
  intros Hi [L H]. split; auto. intros k Hk. rewrite (H k Hk). destruct (Nat.ltb_spec k i); auto. apply row_ext.
  intros c Hc. unfold partial. destruct (Nat.eqb_spec k i) as [->|Hki].
  - destruct (Nat.ltb_spec c i); auto. destruct (Nat.ltb_spec i c), (Nat.ltb_spec c (S i)); cbn [andb]; auto; lia.
  - destruct (Nat.ltb_spec c i); auto. destruct (Nat.eqb_spec c i), (Nat.ltb_spec k (S i)); cbn [andb]; auto; lia.
Qed.

Lemma inner_outer i m : i < n -> inner_inv i n m -> outer_inv (S i) (upd m i (sort_key (fun v => v) (nth i m []))).
Proof.
  intros Hi [L H]. split; [now rewrite upd_length|]. intros k Hk. rewrite upd_nth.
  replace (i <? length m) with true by (symmetry; apply Nat.ltb_lt; lia). rewrite andb_true_r.
  destruct (Nat.eqb_spec i k) as [<-|Hik].
  - replace (i <? S i) with true by (symmetry; apply Nat.ltb_lt; lia). rewrite (H i Hk), Nat.ltb_irrefl. f_equal. apply row_ext.
    intros c Hc. unfold partial, full. rewrite Nat.eqb_refl. replace (c <? n) with true by (symmetry; apply Nat.ltb_lt; lia).
    rewrite andb_true_r. reflexivity.
  - rewrite (H k Hk). destruct (Nat.ltb_spec k i) as [Hlt|Hge].
    + replace (k <? S i) with true by (symmetry; apply Nat.ltb_lt; lia). reflexivity.
    + replace (k <? S i) with false by (symmetry; apply Nat.ltb_ge; lia). apply row_ext. intros c Hc. unfold partial.
      replace (k =? i) with false by (symmetry; apply Nat.eqb_neq; lia).
      replace (k <? n) with true by (symmetry; apply Nat.ltb_lt; lia). rewrite andb_true_r.
      destruct (Nat.ltb_spec c i), (Nat.ltb_spec c (S i)); auto; try lia.
      * destruct (Nat.eqb_spec c i) as [->|]; [auto|lia].
      * destruct (Nat.eqb_spec c i); [lia|auto].
Qed.

Lemma neighbor_rows : length (neighbor_matrix distance points) = n /\
  forall i, i < n -> nth i (neighbor_matrix distance points) [] = sort_key (fun v => v) (row_of (full i)).
Proof.
  assert (G : forall cnt i m, i + cnt = n -> outer_inv i m -> outer_inv n
    (fold_left (fun m i =>
      let m := fold_left (fun m j =>
        let v := distance (nth i points []) (nth j points []) in
        set2 (set2 m i j v) j i v) (seq (S i) (n - S i)) m in
      upd m i (sort_key (fun v => v) (nth i m []))) (seq i cnt) m)).
  { induction cnt as [|cnt IH]; intros i m Hi H; cbn [seq fold_left].
    - replace n with i by lia. auto.
    - apply IH; [lia|]. cbv zeta. apply inner_outer; [lia|]. apply inner_loop; try lia. apply outer_inner; auto. lia. }
  destruct (G n 0 (repeat (repeat 0%Q n) n)) as [L H]; [lia| |].
  - split; [apply repeat_length|]. intros k Hk.
    rewrite (nth_indep _ [] (repeat 0%Q n)) by (rewrite repeat_length; auto). rewrite nth_repeat. cbn [Nat.ltb Nat.leb].
    unfold row_of. assert (E : forall l : list nat, map (fun _ => 0%Q) l = repeat 0%Q (length l)) by (induction l; simpl; congruence).
    rewrite E, seq_length. reflexivity.
  - split; [exact L|]. intros i Hi. pose proof (H i Hi) as Hr.
    replace (i <? n) with true in Hr by (symmetry; apply Nat.ltb_lt; lia). exact Hr.
Qed.

Lemma ins_map {A} (f : A -> Q) x l : ins_key (fun v => v) (f x) (map f l) = map f (ins_key f x l).
Proof. induction l as [|y t IH]; simpl; auto. destruct (Qle_bool (f x) (f y)); simpl; auto. now rewrite IH. Qed.
Lemma sort_map {A} (f : A -> Q) l : sort_key (fun v => v) (map f l) = map f (sort_key f l).
Proof. induction l as [|x t IH]; simpl; auto. unfold sort_key in *. simpl. rewrite IH. apply ins_map. Qed.

(** the indexes in the order of the sorted row *)
Definition order (i : nat) : list nat := sort_key (full i) (seq 0 n).

Lemma sorted_row i : i < n -> nth i (neighbor_matrix distance points) [] = map (full i) (order i).
Proof. intros Hi. rewrite (proj2 neighbor_rows) by auto. apply sort_map. Qed.

Lemma order_perm i : Permutation (order i) (seq 0 n).
Proof. apply sort_key_perm. Qed.
Lemma order_sorted i : StronglySorted (fun a b => (full i a <= full i b)%Q) (order i).
Proof. apply sort_key_sorted. Qed.

(** sum of the entries 1 … k of the row *)
Lemma row_total i k : i < n -> k < n ->
  map (fun j => nth (j + 1) (nth i (neighbor_matrix distance points) []) 0%Q) (seq 0 k) = map (full i) (firstn k (tl (order i))).
Proof.
  intros Hi Hk. rewrite sorted_row by auto.
  assert (L : length (order i) = n) by (rewrite (Permutation_length (order_perm i)); apply seq_length).
  destruct (order i) as [|o t]; simpl in L; [lia|]. cbn [tl map].
  assert (G : forall k (l : list Q), k <= length l -> map (fun j => nth j l 0%Q) (seq 0 k) = firstn k l).
  { clear. induction k as [|k IH]; intros [|x l] H; simpl in *; try lia; auto. f_equal. rewrite <- seq_shift, map_map. apply IH. lia. }
  rewrite <- firstn_map, <- G by (rewrite map_length; lia). apply map_ext. intros j. rewrite Nat.add_1_r. reflexivity.
Qed.

Hypothesis dist_nonneg : forall p q, (0 <= distance p q)%Q.

Lemma full_nonneg i c : (0 <= full i c)%Q.
Proof. unfold full. destruct (c <? i); [apply dist_nonneg|]. destruct (i <? c); [apply dist_nonneg|apply Qle_refl]. Qed.
Lemma full_self i : full i i = 0%Q.
Proof. unfold full. now rewrite Nat.ltb_irrefl. Qed.

Lemma sorted_app_le {A} (R : A -> A -> Prop) l1 l2 : StronglySorted R (l1 ++ l2) -> forall a b, In a l1 -> In b l2 -> R a b.
Proof.
  induction l1 as [|x t IH]; simpl; intros H a b Ha Hb; [contradiction|]. inversion_clear H as [|? ? Hs Hf].
  destruct Ha as [<-|Ha]; [|eauto]. rewrite Forall_forall in Hf. apply Hf. apply in_app_iff. auto.
Qed.
Lemma sorted_app_r {A} (R : A -> A -> Prop) l1 l2 : StronglySorted R (l1 ++ l2) -> StronglySorted R l2.
Proof. induction l1 as [|x t IH]; simpl; intros H; auto. inversion_clear H. auto. Qed.
Lemma sorted_app_l {A} (R : A -> A -> Prop) l1 l2 : StronglySorted R (l1 ++ l2) -> StronglySorted R l1.
Proof.
  induction l1 as [|x t IH]; simpl; intros H; constructor; inversion_clear H; auto.
  apply Forall_app in H1. tauto.
Qed.
Lemma sorted_join {A} (R : A -> A -> Prop) l1 l2 : StronglySorted R l1 -> StronglySorted R l2 -> (forall a b, In a l1 -> In b l2 -> R a b) -> StronglySorted R (l1 ++ l2).
Proof.
  induction l1 as [|x t IH]; simpl; intros H1 H2 H; auto. inversion_clear H1. constructor.
  - apply IH; auto.
  - apply Forall_app. split; auto. apply Forall_forall. intros b Hb. apply H; auto.
Qed.

Lemma zero_sum l (f : nat -> Q) : (forall x, In x l -> (f x == 0)%Q) -> (qsum (map f l) == 0)%Q.
Proof.
  induction l as [|x t IH]; intros H; simpl; [reflexivity|]. rewrite IH by (intros; apply H; simpl; auto).
  rewrite (H x) by (simpl; auto). reflexivity.
Qed.

Lemma nearest_exists i k : i < n -> k < n -> exists N, nearest_neighbours full n k i N /\
  (qsum (map (full i) N) == qsum (map (full i) (firstn k (tl (order i)))))%Q.
Proof.
  intros Hi Hk. pose proof (order_perm i) as P. pose proof (order_sorted i) as S.
  assert (Hin : In i (order i)) by (apply (Permutation_in _ (Permutation_sym P)), in_seq; lia).
  apply in_split in Hin as [A [B E]]. rewrite E in *.
  assert (Hnd : NoDup (A ++ i :: B)) by (apply (Permutation_NoDup (Permutation_sym P)), seq_NoDup).
  assert (Hni : ~ In i (A ++ B)) by (apply NoDup_remove_2; auto).
  assert (Hnd2 : NoDup (A ++ B)) by (eapply NoDup_remove_1; eauto).
  assert (HA : forall x, In x A -> (full i x == 0)%Q).
  { intros x Hx. pose proof (sorted_app_le _ _ _ S x i Hx ltac:(simpl; auto)) as Hle. cbv beta in Hle. rewrite full_self in Hle.
    pose proof (full_nonneg i x). lra. }
  assert (HB : forall x, In x B -> (0 <= full i x)%Q) by (intros; apply full_nonneg).
  assert (S2 : StronglySorted (fun a b => (full i a <= full i b)%Q) (A ++ B)).
  { apply sorted_join.
    - eapply sorted_app_l; eauto.
    - apply sorted_app_r in S. inversion_clear S. auto.
    - intros a b Ha Hb. rewrite (HA a Ha). auto. }
  assert (Len : length (A ++ B) = n - 1).
  { pose proof (Permutation_length P) as PL. rewrite app_length, seq_length in PL. simpl in PL. rewrite app_length. lia. }
  exists (firstn k (A ++ B)). split.
  - assert (Hsub : forall x, In x (firstn k (A ++ B)) -> In x (A ++ B)).
    { intros x Hx. rewrite <- (firstn_skipn k (A ++ B)). apply in_app_iff. auto. }
    split; [|split; [|split]].
    + rewrite <- (firstn_skipn k (A ++ B)) in Hnd2. clear -Hnd2. revert Hnd2. generalize (firstn k (A ++ B)), (skipn k (A ++ B)).
      induction l as [|x t IH]; intros l2 H; constructor; inversion_clear H; eauto. intros Hx. apply H0, in_app_iff. auto.
    + rewrite firstn_length. lia.
    + intros j Hj. apply Hsub in Hj. split; [|intros ->; contradiction].
      assert (In j (A ++ i :: B)) by (apply in_app_iff in Hj as [Hj|Hj]; apply in_app_iff; simpl; auto).
      apply (Permutation_in _ P) in H. apply in_seq in H. lia.
    + intros j c Hj Hc Hci Hcn.
      assert (HcAB : In c (A ++ B)).
      { assert (In c (A ++ i :: B)) by (apply (Permutation_in _ (Permutation_sym P)), in_seq; lia).
        apply in_app_iff in H as [H|H]; apply in_app_iff; auto. destruct H as [H|H]; [congruence|auto]. }
      rewrite <- (firstn_skipn k (A ++ B)) in S2, HcAB. apply in_app_iff in HcAB as [HcAB|HcAB]; [contradiction|].
      apply (sorted_app_le _ _ _ S2 j c Hj HcAB).
  - destruct (le_lt_dec k (length A)) as [Hle|Hgt].
    + rewrite (zero_sum (firstn k (A ++ B))).
      * symmetry. apply zero_sum. intros x Hx.
        assert (Hx' : In x (A ++ [i])).
        { destruct A as [|a A']; simpl in Hle.
          - assert (k = 0) by lia. subst k. simpl in Hx. contradiction.
          - cbn [app tl] in Hx. replace (A' ++ i :: B) with ((A' ++ [i]) ++ B) in Hx by (rewrite <- app_assoc; reflexivity).
            rewrite firstn_app in Hx. rewrite app_length in Hx. simpl in Hx.
            replace (k - (length A' + 1)) with 0 in Hx by lia. rewrite app_nil_r in Hx.
            right. rewrite <- (firstn_skipn k (A' ++ [i])). apply in_app_iff. auto. }
        apply in_app_iff in Hx' as [Hx'|[<-|[]]]; auto. rewrite full_self. reflexivity.
      * intros x Hx. apply HA. rewrite firstn_app in Hx. replace (k - length A) with 0 in Hx by lia. rewrite app_nil_r in Hx.
        rewrite <- (firstn_skipn k A). apply in_app_iff. auto.
    + rewrite firstn_app. rewrite firstn_all2 by lia. rewrite map_app, qsum_app, (zero_sum A) by auto.
      destruct A as [|a A'].
      * cbn [app tl length]. rewrite Nat.sub_0_r. ring.
      * cbn [app tl]. replace (A' ++ i :: B) with ((A' ++ [i]) ++ B) by (rewrite <- app_assoc; reflexivity).
        rewrite firstn_app, app_length. cbn [length] in *. rewrite (firstn_all2 (A' ++ [i])) by (rewrite app_length; simpl; lia).
        rewrite map_app, qsum_app. rewrite (zero_sum (A' ++ [i])).
        -- replace (k - (length A' + 1)) with (k - Datatypes.S (length A')) by lia. reflexivity.
        -- intros x Hx. apply in_app_iff in Hx as [Hx|[<-|[]]]; [apply HA; simpl; auto|rewrite full_self; reflexivity].
Qed.

Lemma choice_upto (P : nat -> list nat -> Prop) m : (forall i, i < m -> exists N, P i N) -> exists f, forall i, i < m -> P i (f i).
Proof.
  induction m as [|m IH]; intros H.
  - exists (fun _ => []). intros i Hi. lia.
  - destruct IH as [f Hf]; [intros; apply H; lia|]. destruct (H m) as [N HN]; [lia|].
    exists (fun i => if i =? m then N else f i). intros i Hi. destruct (Nat.eqb_spec i m) as [->|]; auto. apply Hf. lia.
Qed.

Definition total (k : nat) : Q := qsum (map (fun i => qsum (map (full i) (firstn k (tl (order i))))) (seq 0 n)).

Lemma average_total k : 1 <= k -> k < n -> exists v, average_neighbor_distance distance points k = Ok v /\
  (v * countq (k * n) == total k)%Q.
Proof.
  intros Hk1 Hk. unfold average_neighbor_distance. fold n.
  replace (Z.of_nat n - 1 <? Z.of_nat k)%Z with false by (symmetry; apply Z.ltb_ge; lia).
  destruct (Nat.eqb_spec (k * n) 0) as [E|E]; [nia|]. eexists. split; [reflexivity|].
  rewrite (fold_add_qsum2 (fun i j => nth (j + 1) (nth i (neighbor_matrix distance points) []) 0%Q)).
  assert (Hp : (0 < countq (k * n))%Q) by (apply countq_pos; lia).
  set (T := qsum _). assert (ET : (T == total k)%Q).
  { unfold T, total. apply qsum_ext. intros i Hi. apply in_seq in Hi. rewrite row_total by lia. reflexivity. }
  rewrite <- ET. field. lra.
Qed.

Theorem neighbor_spec k : 1 <= k -> k < n -> exists v N, average_neighbor_distance distance points k = Ok v /\
  (forall i, i < n -> nearest_neighbours full n k i (N i)) /\
  (v * countq (k * n) == qsum (map (fun i => qsum (map (full i) (N i))) (seq 0 n)))%Q.
Proof.
  intros Hk1 Hk. destruct (average_total k Hk1 Hk) as [v [E Ev]].
  destruct (choice_upto (fun i N => nearest_neighbours full n k i N /\
    (qsum (map (full i) N) == qsum (map (full i) (firstn k (tl (order i)))))%Q) n) as [f Hf].
  - intros i Hi. apply nearest_exists; auto.
  - exists v, f. split; [exact E|]. split; [intros i Hi; apply Hf; auto|]. rewrite Ev. unfold total. apply qsum_ext.
    intros i Hi. apply in_seq in Hi. symmetry. apply Hf. lia.
Qed.

Lemma sorted_tl {A} (R : A -> A -> Prop) l : StronglySorted R l -> StronglySorted R (tl l).
Proof. intros H. destruct l; simpl; auto. inversion_clear H. auto. Qed.

Lemma qsum_bound (f : nat -> Q) l b : (forall x, In x l -> (f x <= b)%Q) -> (qsum (map f l) <= countq (length l) * b)%Q.
Proof.
  induction l as [|x t IH]; intros H; cbn [map qsum length].
  - change (countq 0) with 0%Q. assert (E : (0 * b == 0)%Q) by ring. rewrite E. apply Qle_refl.
  - assert (E : (countq (S (length t)) == 1 + countq (length t))%Q) by (rewrite <- (countq_plus 1); reflexivity).
    rewrite E. pose proof (H x ltac:(simpl; auto)). specialize (IH ltac:(intros; apply H; simpl; auto)). simpl. lra.
Qed.

Lemma qsum_le_ext (f g : nat -> Q) l : (forall x, In x l -> (f x <= g x)%Q) -> (qsum (map f l) <= qsum (map g l))%Q.
Proof.
  induction l as [|x t IH]; intros H; cbn [map qsum]; [apply Qle_refl|]. pose proof (H x ltac:(simpl; auto)).
  specialize (IH ltac:(intros; apply H; simpl; auto)). simpl. lra.
Qed.

Theorem neighbor_monotone k v w : 1 <= k -> average_neighbor_distance distance points k = Ok v ->
  average_neighbor_distance distance points (S k) = Ok w -> (v <= w)%Q.
Proof.
  intros Hk1 Ev Ew.
  assert (Hk : S k < n).
  { unfold average_neighbor_distance in Ew. destruct (Z.ltb_spec (Z.of_nat (length points) - 1) (Z.of_nat (S k))); [discriminate|]. unfold n. lia. }
  destruct (average_total k Hk1 ltac:(lia)) as [v' [Ev' Hv]]. rewrite Ev in Ev'. apply Ok_inj in Ev'. subst v'.
  destruct (average_total (S k) ltac:(lia) Hk) as [w' [Ew' Hw]]. rewrite Ew in Ew'. apply Ok_inj in Ew'. subst w'.
  set (nxt := fun i => full i (nth k (tl (order i)) 0)).
  assert (Lt : forall i, i < n -> k < length (tl (order i))).
  { intros i Hi. assert (L : length (order i) = n) by (rewrite (Permutation_length (order_perm i)); apply seq_length).
    destruct (order i); simpl in *; lia. }
  assert (FS : forall (l : list nat) j, j < length l -> firstn (S j) l = firstn j l ++ [nth j l 0]).
  { clear. induction l as [|x t IH]; intros [|j] H; simpl in *; try lia; auto. f_equal. apply IH. lia. }
  assert (Hnext : (total (S k) == total k + qsum (map nxt (seq 0 n)))%Q).
  { unfold total. 
    assert (G : forall l, (forall i, In i l -> i < n) ->
      (qsum (map (fun i => qsum (map (full i) (firstn (S k) (tl (order i))))) l) ==
       qsum (map (fun i => qsum (map (full i) (firstn k (tl (order i))))) l) + qsum (map nxt l))%Q).
    { induction l as [|i t IH]; intros Hl; cbn [map qsum]; [reflexivity|].
      specialize (IH ltac:(intros; apply Hl; simpl; auto)).
      rewrite (FS (tl (order i)) k) by (apply Lt, Hl; simpl; auto). rewrite map_app, qsum_app.
      cbn [map]. fold (nxt i). simpl. simpl in IH. rewrite IH. ring. }
    apply G. intros i Hi. apply in_seq in Hi. lia. }
  assert (Hbound : (total k <= countq k * qsum (map nxt (seq 0 n)))%Q).
  { unfold total.
    assert (G : forall l, (forall i, In i l -> i < n) ->
      (qsum (map (fun i => qsum (map (full i) (firstn k (tl (order i))))) l) <= countq k * qsum (map nxt l))%Q).
    { induction l as [|i t IH]; intros Hl; cbn [map qsum]; [assert (E0 : (countq k * 0 == 0)%Q) by ring; simpl; rewrite E0; apply Qle_refl|].
      specialize (IH ltac:(intros; apply Hl; simpl; auto)).
      assert (Hi : i < n) by (apply Hl; simpl; auto). specialize (Lt i Hi).
      assert (B : (qsum (map (full i) (firstn k (tl (order i)))) <= countq k * nxt i)%Q).
      { assert (Lf : length (firstn k (tl (order i))) = k) by (rewrite firstn_length; lia). rewrite <- Lf at 2.
        apply qsum_bound. intros x Hx. pose proof (sorted_tl _ _ (order_sorted i)) as S.
        rewrite <- (firstn_skipn k (tl (order i))) in S. apply (sorted_app_le _ _ _ S); auto.
        assert (Hs : nth 0 (skipn k (tl (order i))) 0 = nth k (tl (order i)) 0).
        { clear. generalize (tl (order i)) as l. induction k as [|k IH]; intros [|x l]; simpl; auto. }
        rewrite <- Hs. apply nth_In. rewrite skipn_length. lia. }
      simpl. simpl in IH. lra. }
    apply G. intros i Hi. apply in_seq in Hi. lia. }
  rewrite Hnext in Hw.
  set (T := total k) in *. set (X := qsum (map nxt (seq 0 n))) in *.
  assert (Pn : (0 < countq n)%Q) by (apply countq_pos; lia). assert (Pk : (0 < countq k)%Q) by (apply countq_pos; lia).
  rewrite countq_mult in Hv, Hw. assert (Es : (countq (S k) == countq k + 1)%Q) by (rewrite <- Nat.add_1_r, countq_plus; reflexivity).
  rewrite Es in Hw.
  apply Qnot_lt_le. intros Hlt.
  (* w < v leads to (T + X) k < T (k + 1), that is X k < T *)
  assert (A1 : (w * ((countq k + 1) * countq n) * countq k < v * (countq k * countq n) * (countq k + 1))%Q).
  { assert (P : (0 < (countq k + 1) * countq n * countq k)%Q) by (repeat apply Qmult_lt_0_compat; lra).
    apply (Qmult_lt_compat_r w v _ P) in Hlt.
    assert (E1 : (w * ((countq k + 1) * countq n) * countq k == w * ((countq k + 1) * countq n * countq k))%Q) by ring.
    assert (E2 : (v * (countq k * countq n) * (countq k + 1) == v * ((countq k + 1) * countq n * countq k))%Q) by ring.
    rewrite E1, E2. exact Hlt. }
  rewrite Hv, Hw in A1.
  assert (E3 : ((T + X) * countq k == T * countq k + countq k * X)%Q) by ring.
  assert (E4 : (T * (countq k + 1) == T * countq k + T)%Q) by ring.
  rewrite E3, E4 in A1. lra.
Qed.
End Neighbors.

Lemma neighbor_monotone_le : forall distance points k l v w, k <= l ->
  average_neighbor_distance distance points k = Ok v -> average_neighbor_distance distance points l = Ok w -> (v <= w)%Q.
Proof.
  intros distance points k l v w Hkl Ev Ew.
  assert (Hk : 1 <= k).
  { destruct k; [|lia]. exfalso. unfold average_neighbor_distance in Ev. destruct (Z.ltb (Z.of_nat (length points) - 1) (Z.of_nat 0)); discriminate Ev. }
  assert (Hl : l < length points).
  { unfold average_neighbor_distance in Ew. destruct (Z.ltb_spec (Z.of_nat (length points) - 1) (Z.of_nat l)); [discriminate|]. lia. }
  revert w Ew Hl. induction Hkl as [|l Hkl IH]; intros w Ew Hl.
  - rewrite Ev in Ew. apply Ok_inj in Ew. subst w. apply Qle_refl.
  - destruct (average_total distance points l ltac:(lia) ltac:(lia)) as (u & Eu & _).
    apply Qle_trans with u; [apply IH; [exact Eu|lia]|]. eapply neighbor_monotone; [|exact Eu|exact Ew]. lia.
Qed.

Lemma neighbor_nonneg distance points k v : (forall p q, (0 <= distance p q)%Q) ->
  average_neighbor_distance distance points k = Ok v -> (0 <= v)%Q.
Proof.
  intros Hd E.
  assert (Hk : 1 <= k).
  { destruct k; [|lia]. exfalso. unfold average_neighbor_distance in E. destruct (Z.ltb (Z.of_nat (length points) - 1) (Z.of_nat 0)); discriminate E. }
  assert (Hl : k < length points).
  { unfold average_neighbor_distance in E. destruct (Z.ltb_spec (Z.of_nat (length points) - 1) (Z.of_nat k)); [discriminate|]. lia. }
  destruct (average_total distance points k Hk Hl) as (v' & E' & Hv). rewrite E in E'. apply Ok_inj in E'. subst v'.
  assert (P : (0 < countq (k * length points))%Q) by (apply countq_pos; nia).
  assert (Q0 : forall l (f : nat -> Q), (forall x, (0 <= f x)%Q) -> (0 <= qsum (map f l))%Q).
  { induction l as [|x t IH]; intros f Hf; simpl; [apply Qle_refl|]. specialize (IH f Hf). pose proof (Hf x). lra. }
  assert (T0 : (0 <= v * countq (k * length points))%Q).
  { rewrite Hv. unfold total. apply Q0. intros i. apply Q0. intros c. apply full_nonneg. exact Hd. }
  apply Qnot_lt_le. intros Hlt. assert (N : (v * countq (k * length points) < 0 * countq (k * length points))%Q) by (apply Qmult_lt_compat_r; auto).
  rewrite Qmult_0_l in N. lra.
Qed.
