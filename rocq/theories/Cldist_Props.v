(** C116, C117, C118: distances between groups of points and the average distance to the nearest neighbours (utils). *)
From Verif Require Import Base Kmeans_Model Kmeans_Proofs Aggl_Model Aggl_Proofs Cftree_Model Cftree_Proofs Birch_Model Birch_Proofs Cldist_Model Cldist_Proofs.

(** C116: for clusters given by points or by indexes the (squared) averages are the averages of the squared distances over
    all pairs. *)
Theorem C116_averages :
  forall c1 c2, group_points c1 <> [] -> group_points c2 <> [] ->
  exists inter intra, average_inter_sq c1 c2 = Ok inter /\ average_intra_sq c1 c2 = Ok intra /\
    let ps := group_points c1 in let qs := group_points c2 in
    let n := inject_Z (Z.of_nat (length ps)) in let m := inject_Z (Z.of_nat (length qs)) in
    (n * m * inter == cross ps qs)%Q /\ ((n + m) * (n + m - 1) * intra == cross (ps ++ qs) (ps ++ qs))%Q.
Proof.
  intros c1 c2 H1 H2. destruct (inter_utils c1 c2 H1 H2) as [v [E Ev]]. destruct (intra_utils c1 c2 H1 H2) as [w [F Fw]].
  exists v, w. split; [exact E|]. split; [exact F|]. cbv zeta. rewrite !group_len_points. split; [exact Ev|exact Fw].
Qed.
Print Assumptions C116_averages.

(** C116: the variance increase is the growth of the sum of squared distances to the mean, which is
    n m / (n + m) times the squared distance of the means and thus never negative. *)
Theorem C116_variance_increase :
  forall D c1 c2, uniform D (group_points c1) -> uniform D (group_points c2) -> group_points c1 <> [] -> group_points c2 <> [] ->
  (forall data idx, c1 = ByIndexes data idx \/ c2 = ByIndexes data idx -> uniform D data /\ data <> []) ->
  exists v m1 m2 m12, variance_increase_distance c1 c2 = Ok v /\
    let ps := group_points c1 in let qs := group_points c2 in
    let n := inject_Z (Z.of_nat (length ps)) in let m := inject_Z (Z.of_nat (length qs)) in
    is_mean D ps m1 /\ is_mean D qs m2 /\ is_mean D (ps ++ qs) m12 /\
    (v == spread (ps ++ qs) m12 - spread ps m1 - spread qs m2)%Q /\
    (v == n * m / (n + m) * sqdist m1 m2)%Q /\ (0 <= v)%Q.
Proof.
  intros D c1 c2 U1 U2 N1 N2 Hd.
  destruct (variance_utils D c1 c2 U1 U2 N1 N2 Hd) as (v & m1 & m2 & m12 & E & M1 & M2 & M12 & Ev).
  exists v, m1, m2, m12. split; [exact E|]. cbv zeta. split; [exact M1|]. split; [exact M2|]. split; [exact M12|]. split; [exact Ev|].
  destruct (sums_describe D (group_points c1) U1 N1) as (l1 & s1 & _ & _ & D1).
  destruct (sums_describe D (group_points c2) U2 N2) as (l2 & s2 & _ & _ & D2).
  set (a := Ent None (length (group_points c1)) l1 s1) in *. set (b := Ent None (length (group_points c2)) l2 s2) in *.
  pose proof (variance_closed D a _ b _ D1 D2 U1 U2 N1 N2) as Hc.
  pose proof (variance_spec D a _ b _ D1 D2 U1 U2 N1 N2) as Hv.
  pose proof (describes_fadd D a _ b _ D1 D2) as D12.
  assert (N12 : group_points c1 ++ group_points c2 <> []) by (destruct (group_points c1); [contradiction N1; reflexivity|discriminate]).
  pose proof (centroid_spec D a _ D1 N1) as C1. pose proof (centroid_spec D b _ D2 N2) as C2.
  pose proof (centroid_spec D _ _ D12 N12) as C12.
  pose proof (mean_unique D _ _ _ N1 M1 C1) as P1. pose proof (mean_unique D _ _ _ N2 M2 C2) as P2.
  pose proof (mean_unique D _ _ _ N12 M12 C12) as P12.
  assert (V : (v == variance_increase a b)%Q).
  { rewrite Ev, Hv. rewrite (spread_peq _ _ _ P1), (spread_peq _ _ _ P2), (spread_peq _ _ _ P12). ring. }
  assert (S : (sqdist (centroid a) (centroid b) == sqdist m1 m2)%Q).
  { rewrite <- (sqdist_peq_l _ _ _ P1), (sqdist_sym m1 (centroid b)), <- (sqdist_peq_l _ _ _ P2), (sqdist_sym m2 m1). reflexivity. }
  assert (F : (v == numq a * numq b / (numq a + numq b) * sqdist m1 m2)%Q) by (rewrite V, Hc, S; reflexivity).
  split; [exact F|]. rewrite F.
  pose proof (numq_pos D a _ D1 N1). pose proof (numq_pos D b _ D2 N2).
  apply Qmult_le_0_compat; [|apply sqdist_nonneg]. apply Qle_shift_div_l; [lra|].
  assert (Z0 : (0 * (numq a + numq b) == 0)%Q) by ring. rewrite Z0. apply Qmult_le_0_compat; lra.
Qed.
Print Assumptions C116_variance_increase.

(** C116: a clustering feature built by [linear_sum] and [square_sum] gives the same distances. *)
Theorem C116_features_agree :
  forall D ps qs, uniform D ps -> uniform D qs -> ps <> [] -> qs <> [] ->
  exists l1 s1 l2 s2 inter intra vinc,
    linear_sum ps = Ok l1 /\ square_sum ps = Ok s1 /\ linear_sum qs = Ok l2 /\ square_sum qs = Ok s2 /\
    average_inter_sq (ByPoints ps) (ByPoints qs) = Ok inter /\ average_intra_sq (ByPoints ps) (ByPoints qs) = Ok intra /\
    variance_increase_distance (ByPoints ps) (ByPoints qs) = Ok vinc /\
    let a := Ent None (length ps) l1 s1 in let b := Ent None (length qs) l2 s2 in
    (inter == inter_sq a b)%Q /\ (intra == intra_sq a b)%Q /\ (vinc == variance_increase a b)%Q.
Proof.
  intros D ps qs U1 U2 N1 N2.
  destruct (sums_describe D ps U1 N1) as (l1 & s1 & E1 & F1 & D1). destruct (sums_describe D qs U2 N2) as (l2 & s2 & E2 & F2 & D2).
  destruct (C116_averages (ByPoints ps) (ByPoints qs) N1 N2) as (inter & intra & G1 & G2 & G3 & G4).
  destruct (C116_variance_increase D (ByPoints ps) (ByPoints qs) U1 U2 N1 N2) as (v & m1 & m2 & m12 & G5 & M1 & M2 & M12 & G6 & G7 & _); [intros ? ? [H|H]; discriminate H|].
  exists l1, s1, l2, s2, inter, intra, v. do 7 (split; [assumption|]). cbv zeta.
  set (a := Ent None (length ps) l1 s1) in *. set (b := Ent None (length qs) l2 s2) in *.
  pose proof (numq_pos D a _ D1 N1) as P1. pose proof (numq_pos D b _ D2 N2) as P2.
  cbn [group_points] in *.
  assert (I1 : (1 <= numq a)%Q). { unfold numq in *. change 0%Q with (inject_Z 0) in P1. change 1%Q with (inject_Z 1). rewrite <- Zlt_Qlt in P1. rewrite <- Zle_Qle. lia. }
  assert (I2 : (1 <= numq b)%Q). { unfold numq in *. change 0%Q with (inject_Z 0) in P2. change 1%Q with (inject_Z 1). rewrite <- Zlt_Qlt in P2. rewrite <- Zle_Qle. lia. }
  split; [|split].
  - pose proof (inter_spec D a ps b qs D1 D2 U1 U2 N1 N2) as H. rewrite <- G3 in H. change (inject_Z (Z.of_nat (length ps))) with (numq a) in H.
    change (inject_Z (Z.of_nat (length qs))) with (numq b) in H. symmetry. apply (Qmult_inj_l _ _ (numq a * numq b)); [|exact H].
    assert (0 < numq a * numq b)%Q by (apply Qmult_lt_0_compat; auto). lra.
  - pose proof (intra_spec D a ps b qs D1 D2 U1 U2 N1 N2) as H. rewrite <- G4 in H. change (inject_Z (Z.of_nat (length ps))) with (numq a) in H.
    change (inject_Z (Z.of_nat (length qs))) with (numq b) in H. symmetry. apply (Qmult_inj_l _ _ ((numq a + numq b) * (numq a + numq b - 1))); [|exact H].
    assert (0 < (numq a + numq b) * (numq a + numq b - 1))%Q by (apply Qmult_lt_0_compat; lra). lra.
  - rewrite G7. rewrite (variance_closed D a ps b qs D1 D2 U1 U2 N1 N2).
    pose proof (mean_unique D _ _ _ N1 M1 (centroid_spec D a _ D1 N1)) as Q1.
    pose proof (mean_unique D _ _ _ N2 M2 (centroid_spec D b _ D2 N2)) as Q2.
    rewrite <- (sqdist_peq_l _ _ _ Q1), (sqdist_sym m1 (centroid b)), <- (sqdist_peq_l _ _ _ Q2), (sqdist_sym m2 m1). reflexivity.
Qed.
Print Assumptions C116_features_agree.

(** C116: an empty cluster is an exception. *)
Theorem C116_empty_cluster :
  forall c1 c2, (group_points c1 = [] \/ group_points c2 = [] -> exists e, average_inter_sq c1 c2 = Raise e) /\
  (group_points c1 = [] \/ group_points c2 = [] -> exists e, variance_increase_distance c1 c2 = Raise e) /\
  (length (group_points c1) + length (group_points c2) <= 1 -> exists e, average_intra_sq c1 c2 = Raise e).
Proof.
  intros c1 c2.
  assert (L : forall c, group_points c = [] -> group_len c = 0) by (intros c H; rewrite <- group_len_points, H; reflexivity).
  assert (S : forall c, group_points c = [] -> exists e, group_sum c = Raise e).
  { intros [ps|data idx] H; cbn in H; [subst ps; cbn; eauto|]. apply map_eq_nil in H. subst idx. destruct data; cbn; eauto. }
  split; [|split].
  - intros H. unfold average_inter_sq. exists ZeroDivisionError.
    destruct (Nat.eqb_spec (group_len c1 * group_len c2) 0) as [_|E]; auto. exfalso. apply E. destruct H as [H|H]; apply L in H; lia.
  - intros H. unfold variance_increase_distance. destruct (group_sum c1) as [s1|e1] eqn:E1; cbn [bind]; [|eauto].
    destruct (group_sum c2) as [s2|e2] eqn:E2; cbn [bind]; [|eauto]. exfalso. destruct H as [H|H]; apply S in H as [e He]; congruence.
  - rewrite !group_len_points. intros H. exists ZeroDivisionError. unfold average_intra_sq.
    destruct (Nat.eqb_spec ((group_len c1 + group_len c2) * (group_len c1 + group_len c2 - 1)) 0); auto. exfalso. nia.
Qed.
Print Assumptions C116_empty_cluster.

Example C116_meets_hypotheses :
  let c1 := ByPoints [[0; 0]; [2; 0]]%Q in let c2 := ByIndexes [[1; 4]; [9; 9]; [3; 4]]%Q [0; 2] in
  group_points c2 = [[1; 4]; [3; 4]]%Q /\ uniform 2 (group_points c1) /\ uniform 2 (group_points c2) /\
  exists a b v, average_inter_sq c1 c2 = Ok a /\ average_intra_sq c1 c2 = Ok b /\ variance_increase_distance c1 c2 = Ok v /\
    (a == 19)%Q /\ (b == 14)%Q /\ (v == 17)%Q.
Proof.
  cbv zeta. split; [reflexivity|]. split; [intros p [<-|[<-|[]]]; reflexivity|]. split; [intros p [<-|[<-|[]]]; reflexivity|].
  do 3 eexists. split; [vm_compute; reflexivity|]. split; [vm_compute; reflexivity|]. split; [vm_compute; reflexivity|]. vm_compute. auto.
Qed.

(** C117: the result is the mean, over all points and their [k] nearest other points, of the distance. *)
Theorem C117_average_of_nearest :
  forall distance points k, (forall p q, (0 <= distance p q)%Q) -> 1 <= k -> k < length points ->
  exists v N, average_neighbor_distance distance points k = Ok v /\
    let dist := pair_distance distance points in
    (forall i, i < length points -> nearest_neighbours dist (length points) k i (N i)) /\
    (v * inject_Z (Z.of_nat (k * length points)) == qsum (map (fun i => qsum (map (dist i) (N i))) (seq 0 (length points))))%Q.
Proof.
  intros distance points k Hd Hk1 Hk. destruct (neighbor_spec distance points Hd k Hk1 Hk) as (v & N & E & HN & Ev).
  exists v, N. auto.
Qed.
Print Assumptions C117_average_of_nearest.

Theorem C117_amount_of_neighbours :
  forall distance points k,
  (length points < k + 1 <-> average_neighbor_distance distance points k = Raise NameError) /\
  (k = 0 -> points <> [] -> average_neighbor_distance distance points k = Raise ZeroDivisionError).
Proof.
  intros distance points k. unfold average_neighbor_distance. split.
  - destruct (Z.ltb_spec (Z.of_nat (length points) - 1) (Z.of_nat k)) as [H|H].
    + split; auto. intros _. lia.
    + split; [lia|]. destruct (Nat.eqb_spec (k * length points) 0); discriminate.
  - intros -> Hp. destruct points as [|p t]; [congruence|].
    destruct (Z.ltb_spec (Z.of_nat (length (p :: t)) - 1) (Z.of_nat 0)) as [H|H]; [cbn [length] in H; lia|].
    cbn [Nat.mul]. reflexivity.
Qed.
Print Assumptions C117_amount_of_neighbours.

(** C118: with more neighbours the average never becomes smaller. *)
Theorem C118_monotone_in_neighbours :
  forall distance points k l v w, k <= l ->
  average_neighbor_distance distance points k = Ok v -> average_neighbor_distance distance points l = Ok w -> (v <= w)%Q.
Proof.
  exact neighbor_monotone_le.
Qed.
Print Assumptions C118_monotone_in_neighbours.

Example C117_C118_meet_hypotheses :
  let dist p q := Qabs (coord p 0 - coord q 0) in let points := [[0]; [1]; [3]; [3]; [10]]%Q in
  (forall p q, (0 <= dist p q)%Q) /\
  exists v w, average_neighbor_distance dist points 1 = Ok v /\ average_neighbor_distance dist points 3 = Ok w /\
    (v == 9 # 5)%Q /\ (w == 3)%Q.
Proof.
  cbv zeta. split; [intros; apply Qabs_nonneg|]. do 2 eexists. split; [vm_compute; reflexivity|]. split; [vm_compute; reflexivity|].
  vm_compute. auto.
Qed.
