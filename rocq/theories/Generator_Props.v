(** Properties of the data generator. *)
From Verif Require Import Base Generator_Model.
From Coq Require Import Lqa.
Open Scope nat_scope.

(** * Specification *)
(** The number of the cluster of the point [k] when clusters of these sizes
    are laid one after another. *)
Fixpoint owner (sizes : list nat) (k : nat) : nat :=
  match sizes with
  | [] => 0
  | s :: rest => if k <? s then 0 else S (owner rest (k - s))
  end.
Definition total (sizes : list nat) : nat := fold_right Nat.add 0 sizes.

(** The sequences are long enough for the clusters. *)
Definition complete (g : generator) : Prop :=
  length (gn_sizes g) = gn_amount g /\ length (gn_widths g) = gn_amount g /\
  length (gn_centers g) = gn_amount g /\ Forall (fun c => length c = gn_dimension g) (gn_centers g).

(** * Proofs *)
Lemma point_spec z g i c w : nth_error (gn_centers g) i = Some c -> nth_error (gn_widths g) i = Some w ->
  forall m s pos, s + m <= length c ->
  generate_point z g i (seq s m) pos =
    Ok (map (fun d => gauss z (nth d c 0) (w / 2) (pos + (d - s)))%Q (seq s m), pos + m).
Proof.
  intros C W. induction m as [|m IH]; intros s pos L; cbn [seq generate_point].
  - rewrite Nat.add_0_r. reflexivity.
  - rewrite C, W. rewrite (nth_error_nth' c 0%Q) by lia. rewrite IH by lia. cbn [bind fst snd map].
    rewrite Nat.sub_diag, Nat.add_0_r. do 2 f_equal; [|lia]. f_equal.
    apply map_ext_in. intros d D. apply in_seq in D. f_equal. lia.
Qed.

Definition row z (g : generator) (i pos : nat) : point :=
  map (fun d => gauss z (nth d (nth i (gn_centers g) []) 0) (nth i (gn_widths g) 0 / 2) (pos + d))%Q (seq 0 (gn_dimension g)).

Lemma cluster_spec z g i : complete g -> i < gn_amount g -> forall n pos,
  generate_cluster z g i n pos =
    Ok (map (fun k => row z g i (pos + k * gn_dimension g)) (seq 0 n), pos + n * gn_dimension g).
Proof.
  intros (S1 & S2 & S3 & S4) I. 
  assert (Lc : length (nth i (gn_centers g) []) = gn_dimension g).
  { rewrite Forall_forall in S4. apply S4. apply nth_In. lia. }
  induction n as [|n IH]; intros pos; cbn [generate_cluster].
  - cbn. rewrite Nat.add_0_r. reflexivity.
  - rewrite (point_spec z g i (nth i (gn_centers g) []) (nth i (gn_widths g) 0%Q)).
    + cbn [bind fst snd]. rewrite IH. cbn [bind fst snd seq map]. do 2 f_equal; [|rewrite Nat.mul_succ_l; lia].
      rewrite <- seq_shift, map_map. f_equal.
      * unfold row. rewrite Nat.add_0_r. apply map_ext_in. intros d D. f_equal. lia.
      * apply map_ext. intros k. f_equal. lia.
    + apply nth_error_nth'. lia.
    + apply nth_error_nth'. lia.
    + lia.
Qed.

Lemma seq_shift_n n m : forall s, seq (n + s) m = map (fun k => n + k) (seq s m).
Proof. induction m as [|m IH]; intros s; [reflexivity|]. cbn [seq map]. f_equal. rewrite <- IH. f_equal. lia. Qed.

Lemma clusters_spec z g : complete g -> forall m s pos, s + m = gn_amount g ->
  let sizes := skipn s (gn_sizes g) in
  generate_clusters z g (seq s m) pos =
    Ok (map (fun k => row z g (s + owner sizes k) (pos + k * gn_dimension g)) (seq 0 (total sizes)),
        pos + total sizes * gn_dimension g).
Proof.
  intros Cg. pose proof Cg as (S1 & S2 & S3 & S4). induction m as [|m IH]; intros s pos L; cbn [seq generate_clusters].
  - rewrite skipn_all2 by lia. cbn. rewrite Nat.add_0_r. reflexivity.
  - assert (Sk : skipn s (gn_sizes g) = nth s (gn_sizes g) 0 :: skipn (S s) (gn_sizes g)).
    { clear - L S1. rewrite <- S1 in L. clear S1. generalize dependent s. induction (gn_sizes g) as [|x l IH]; intros s L.
      - cbn in L. lia.
      - destruct s; [reflexivity|]. cbn [skipn nth]. apply IH. cbn in L. lia. }
    rewrite Sk. rewrite (nth_error_nth' (gn_sizes g) 0) by lia. set (n := nth s (gn_sizes g) 0).
    rewrite cluster_spec by (assumption || lia). cbn [bind fst snd]. rewrite IH by lia. cbn [bind fst snd].
    cbn [total fold_right]. fold (total (skipn (S s) (gn_sizes g))).
    do 2 f_equal; [|lia].
    rewrite seq_app, map_app. f_equal.
    + apply map_ext_in. intros k K. apply in_seq in K. cbn [owner]. destruct (Nat.ltb_spec k n); [|lia].
      rewrite Nat.add_0_r. reflexivity.
    + rewrite Nat.add_0_l. 
      pose proof (seq_shift_n n (total (skipn (S s) (gn_sizes g))) 0) as E. rewrite Nat.add_0_r in E. rewrite E, map_map. apply map_ext. intros k.
      cbn [owner]. destruct (Nat.ltb_spec (n + k) n); [lia|]. replace (n + k - n) with k by lia. f_equal; [lia|].
      rewrite Nat.mul_add_distr_r. lia.
Qed.

(** C180.  The generated points: as many as the sizes say, cluster after
    cluster, and every coordinate is the coordinate of the centre of its
    cluster plus half of the width of the cluster times a normal deviate of
    its own. *)
Theorem C180_points : forall z g pos, complete g ->
  exists pts, generate z g pos = Ok (pts, pos + total (gn_sizes g) * gn_dimension g) /\
    length pts = total (gn_sizes g) /\
    forall k, k < total (gn_sizes g) ->
      length (nth k pts []) = gn_dimension g /\
      forall d, d < gn_dimension g ->
        let i := owner (gn_sizes g) k in
        (coord (nth k pts []) d ==
          coord (nth i (gn_centers g) []) d + z (pos + (k * gn_dimension g + d))%nat * (nth i (gn_widths g) 0 / 2))%Q.
Proof.
  intros z g pos C. pose proof C as (S1 & S2 & S3 & S4).
  pose proof (clusters_spec z g C (gn_amount g) 0 pos eq_refl) as H. cbn [skipn] in H.
  eexists. split; [exact H|]. split; [rewrite map_length, seq_length; reflexivity|].
  intros k K. rewrite (nth_indep _ _ (row z g (0 + owner (gn_sizes g) 0) (pos + 0 * gn_dimension g)))
    by (rewrite map_length, seq_length; exact K).
  rewrite (map_nth (fun k => row z g (0 + owner (gn_sizes g) k) (pos + k * gn_dimension g))), seq_nth by exact K.
  cbn [Nat.add]. unfold row. rewrite map_length, seq_length. split; [reflexivity|]. intros d D.
  unfold coord at 1. rewrite (nth_indep _ _ ((fun d => gauss z (nth d (nth (owner (gn_sizes g) k) (gn_centers g) []) 0) (nth (owner (gn_sizes g) k) (gn_widths g) 0 / 2) (pos + k * gn_dimension g + d)) 0%nat)%Q)
    by (rewrite map_length, seq_length; exact D).
  rewrite (map_nth (fun d => gauss z (nth d (nth (owner (gn_sizes g) k) (gn_centers g) []) 0) (nth (owner (gn_sizes g) k) (gn_widths g) 0 / 2) (pos + k * gn_dimension g + d))%Q), seq_nth by exact D.
  cbn [Nat.add]. unfold gauss, coord. rewrite <- Nat.add_assoc. reflexivity.
Qed.
Print Assumptions C180_points.

(** C180.  The constructor keeps what it is given: one size or width stands for
    all clusters, and given centres are used as they are. *)
Theorem C180_constructor : forall z amount dimension sizes centers width pos g pos',
  generator_init z amount dimension sizes centers width pos = Ok (g, pos') ->
  gn_amount g = amount /\ gn_dimension g = dimension /\
  (forall n, sizes = Same n -> gn_sizes g = repeat n amount) /\ (forall l, sizes = Each l -> gn_sizes g = l) /\
  (forall w, width = Same w -> gn_widths g = repeat w amount) /\ (forall l, width = Each l -> gn_widths g = l) /\
  (forall cs, centers = Some cs -> gn_centers g = cs /\ pos' = pos).
Proof.
  intros z amount dimension sizes centers width pos g pos' H. unfold generator_init in H. destruct centers as [cs|].
  - injection H as <- <-. cbn. repeat split; try (intros ? ->; reflexivity); congruence.
  - destruct (list_max_q (expand amount width)) as [m|]; cbn [bind] in H; [|discriminate].
    destruct (default_centers z dimension (m * 4) (expand amount width) (seq 0 amount) pos) as [r|]; cbn [bind] in H; [|discriminate].
    injection H as <- <-. cbn. repeat split; try (intros ? ->; reflexivity); try discriminate.
Qed.
Print Assumptions C180_constructor.

Example C180_constructor_example : exists g, generator_init (fun _ => 0%Q) 2 1 (Same 3) (Some [[0%Q]; [5%Q]]) (Same 1%Q) 0 = Ok (g, 0) /\
  gn_sizes g = [3; 3].
Proof. eexists. split; reflexivity. Qed.
Definition gen_ex : generator := mkGen 2 2 [2; 1] [1; 2]%Q [[0; 0]; [10; 5]]%Q.
Example gen_ex_complete : complete gen_ex.
Proof. repeat split. repeat constructor. Qed.
Example C180_ex : generate (fun n => inject_Z (Z.of_nat n)) gen_ex 0 =
  Ok ([[0 + 0 * (1 / 2); 0 + 1 * (1 / 2)]; [0 + 2 * (1 / 2); 0 + 3 * (1 / 2)]; [10 + 4 * (2 / 2); 5 + 5 * (2 / 2)]]%Q, 6).
Proof. reflexivity. Qed.

(** C180.  A sequence of sizes shorter than the number of clusters is an
    IndexError, never a smaller data set. *)
Theorem C180_short : forall z g pos, length (gn_sizes g) < gn_amount g -> generate z g pos = Raise IndexError.
Proof.
  intros z g pos L. unfold generate.
  assert (E1 : forall i ds p e, generate_point z g i ds p = Raise e -> e = IndexError).
  { intros i. induction ds as [|d ds IH]; intros p e H; cbn [generate_point] in H; [discriminate|].
    destruct (nth_error (gn_centers g) i); [|congruence]. destruct (nth_error p0 d), (nth_error (gn_widths g) i); try congruence.
    destruct (generate_point z g i ds (S p)) eqn:E; cbn [bind] in H; [discriminate|]. apply (IH _ _ E) || (injection H as <-; apply (IH _ _ E)). }
  assert (E2 : forall i n p e, generate_cluster z g i n p = Raise e -> e = IndexError).
  { intros i. induction n as [|n IH]; intros p e H; cbn [generate_cluster] in H; [discriminate|].
    destruct (generate_point z g i (seq 0 (gn_dimension g)) p) eqn:E; cbn [bind] in H.
    - destruct (generate_cluster z g i n (snd a)) eqn:E'; cbn [bind] in H; [discriminate|]. injection H as <-. apply (IH _ _ E').
    - injection H as <-. apply (E1 _ _ _ _ E). }
  assert (G : forall m s p, s + m = gn_amount g -> s <= length (gn_sizes g) -> generate_clusters z g (seq s m) p = Raise IndexError).
  { induction m as [|m IH]; intros s p Sm Sl; [lia|]. cbn [seq generate_clusters].
    destruct (nth_error (gn_sizes g) s) eqn:N; [|reflexivity].
    assert (s < length (gn_sizes g)) by (apply nth_error_Some; congruence).
    destruct (generate_cluster z g s n p) eqn:E; cbn [bind]; [|rewrite (E2 _ _ _ _ E); reflexivity].
    rewrite IH by lia. reflexivity. }
  apply (G _ 0 pos); lia.
Qed.
Print Assumptions C180_short.
Example C180_short_ex : generate (fun _ => 0%Q) (mkGen 3 1 [1; 1] [1; 1; 1]%Q [[0]; [1]; [2]]%Q) 0 = Raise IndexError.
Proof. apply C180_short. cbn. lia. Qed.

(** * Default centres *)
Lemma max_ge l m : list_max_q l = Ok m -> forall x, In x l -> (x <= m)%Q.
Proof.
  destruct l as [|a r]; cbn [list_max_q]; [discriminate|]. intros H. apply Ok_inj in H. subst m.
  assert (G : forall r a, (a <= fold_left (fun m v => if Qltb m v then v else m) r a)%Q /\
              forall x, In x r -> (x <= fold_left (fun m v => if Qltb m v then v else m) r a)%Q).
  { clear. induction r as [|b r IH]; intros a; cbn [fold_left]; [split; [apply Qle_refl|intros x []]|].
    destruct (Qltb a b) eqn:E.
    - apply Qltb_true in E. destruct (IH b) as [G1 G2]. split; [lra|]. intros x [<-|X]; auto.
    - apply Qltb_false in E. destruct (IH a) as [G1 G2]. split; [exact G1|]. intros x [<-|X]; [lra|auto]. }
  intros x [<-|X]; [exact (proj1 (G r a))|exact (proj2 (G r a) x X)].
Qed.

Lemma default_spec z dimension offset width : forall m s pos, s + m = length width ->
  exists cs, default_centers z dimension offset width (seq s m) pos = Ok (cs, pos + m * dimension) /\ length cs = m /\
    Forall (fun c => length c = dimension) cs /\
    forall i d, i < m -> d < dimension ->
      (coord (nth i cs []) d == inject_Z (Z.of_nat (s + i)%nat) * offset + z (pos + (i * dimension + d))%nat * (nth (s + i)%nat width 0 / 2))%Q.
Proof.
  induction m as [|m IH]; intros s pos L.
  - exists []. cbn. rewrite Nat.add_0_r. repeat split; [constructor|]. intros; lia.
  - destruct (IH (S s) (pos + dimension) ltac:(lia)) as (cs & E & Lc & F & N).
    cbn [seq default_centers]. rewrite (nth_error_nth' width 0%Q) by lia. rewrite E. cbn [bind fst snd].
    eexists. split; [f_equal; f_equal; rewrite Nat.mul_succ_l; lia|]. split; [cbn; lia|].
    split; [constructor; [rewrite map_length, seq_length; reflexivity|exact F]|].
    intros [|i] d I D.
    + cbn [nth]. unfold coord. rewrite (nth_indep _ _ (gauss z (inject_Z (Z.of_nat s) * offset) (nth s width 0 / 2) (pos + 0))%Q)
        by (rewrite map_length, seq_length; exact D).
      rewrite (map_nth (fun d => gauss z (inject_Z (Z.of_nat s) * offset) (nth s width 0 / 2) (pos + d))%Q), seq_nth by exact D.
      unfold gauss. rewrite Nat.add_0_r. reflexivity.
    + cbn [nth]. rewrite N by lia. replace (S s + i) with (s + S i) by lia.
      replace (pos + dimension + (i * dimension + d)) with (pos + (S i * dimension + d)) by (rewrite Nat.mul_succ_l; lia). reflexivity.
Qed.

Lemma owner_lt sizes : forall k, k < total sizes -> owner sizes k < length sizes.
Proof.
  induction sizes as [|s r IH]; intros k K; [cbn in K; lia|]. cbn [owner length total fold_right] in *. fold (total r) in K.
  destruct (Nat.ltb_spec k s); [lia|]. specialize (IH (k - s) ltac:(lia)). lia.
Qed.

(** C181.  Without centres the clusters are laid out along the diagonal, four
    times the largest width apart: if no deviate drawn is larger than [b], two
    points of different clusters differ in every coordinate by at least
    [4 * (j - i) - 2 * b] largest widths; so for [b < 2] the clusters do not
    overlap. *)
Theorem C181_separated : forall z amount dimension sizes width pos b wmax,
  0 < amount -> length (expand amount sizes) = amount -> length (expand amount width) = amount ->
  (forall w, In w (expand amount width) -> 0 < w <= wmax)%Q -> In wmax (expand amount width) ->
  (forall n, - b <= z n <= b)%Q ->
  exists g pos' pts pos'', generator_init z amount dimension sizes None width pos = Ok (g, pos') /\
    generate z g pos' = Ok (pts, pos'') /\ length pts = total (expand amount sizes) /\
    forall k l d, k < length pts -> l < length pts -> d < dimension ->
      let i := owner (expand amount sizes) k in
      let j := owner (expand amount sizes) l in
      i < j ->
      ((4 * inject_Z (Z.of_nat (j - i)%nat) - 2 * b) * wmax <= coord (nth l pts []) d - coord (nth k pts []) d)%Q.
Proof.
  intros z amount dimension sizes width pos b wmax A Ls Lw W Win Z.
  unfold generator_init. set (ws := expand amount width) in *.
  destruct (list_max_q ws) as [m|e] eqn:M.
  2: { destruct ws; [cbn in Lw; lia|discriminate]. }
  assert (Em : (m == wmax)%Q).
  { assert (wmax <= m)%Q by (apply (max_ge ws m M); exact Win).
    assert (In m ws).
    { destruct ws as [|a r]; [cbn in Lw; lia|]. cbn [list_max_q] in M. apply Ok_inj in M. subst m. clear.
      revert a. induction r as [|b r IH]; intros a; cbn [fold_left]; [left; reflexivity|].
      destruct (Qltb a b); [destruct (IH b)|destruct (IH a)]; cbn [In] in *; auto. }
    destruct (W m H0). lra. }
  cbn [bind]. destruct (default_spec z dimension (m * 4) ws amount 0 pos ltac:(lia)) as (cs & E & Lc & F & N).
  rewrite E. cbn [bind fst snd]. set (g := mkGen amount dimension (expand amount sizes) ws cs).
  assert (Cg : complete g) by (repeat split; assumption).
  destruct (C180_points z g (pos + amount * dimension) Cg) as (pts & Eg & Lp & P). cbn [gn_sizes gn_dimension gn_centers gn_widths g] in Eg, Lp, P.
  exists g, (pos + amount * dimension), pts, (pos + amount * dimension + total (expand amount sizes) * dimension).
  split; [reflexivity|]. split; [exact Eg|]. split; [exact Lp|].
  intros k l d K L D IJ. set (i := owner (expand amount sizes) k) in *. set (j := owner (expand amount sizes) l) in *. rewrite Lp in K, L.
  destruct (P k K) as [_ Pk]. destruct (P l L) as [_ Pl]. specialize (Pk d D). specialize (Pl d D). cbn zeta in Pk, Pl.
  fold i in Pk. fold j in Pl.
  assert (Hj : j < amount) by (rewrite <- Ls; apply owner_lt; exact L).
  rewrite (N i d ltac:(lia) D) in Pk. rewrite (N j d ltac:(lia) D) in Pl. cbn [Nat.add] in Pk, Pl.
  assert (Wi : (0 < nth i ws 0 <= wmax)%Q) by (apply W, nth_In; lia).
  assert (Wj : (0 < nth j ws 0 <= wmax)%Q) by (apply W, nth_In; lia).
  assert (B : forall n q, (0 < q <= wmax -> - (b * (wmax / 2)) <= z n * (q / 2) <= b * (wmax / 2))%Q).
  { intros n q Q1. pose proof (Z n). assert (0 <= b)%Q by (pose proof (Z n); lra).
    assert (H1 : (- (b * (q / 2)) <= z n * (q / 2) <= b * (q / 2))%Q).
    { setoid_replace (- (b * (q / 2)))%Q with ((- b) * (q / 2))%Q by ring.
      split; apply Qmult_le_compat_r; try lra; setoid_replace (q / 2)%Q with (q * (1 # 2))%Q by field; lra. }
    assert (H2 : (b * (q / 2) <= b * (wmax / 2))%Q).
    { rewrite (Qmult_comm b (q / 2)%Q), (Qmult_comm b (wmax / 2)%Q). apply Qmult_le_compat_r; [|exact H0].
      setoid_replace (q / 2)%Q with (q * (1 # 2))%Q by field. setoid_replace (wmax / 2)%Q with (wmax * (1 # 2))%Q by field. lra. }
    lra. }
  pose proof (B (pos + (i * dimension + d))%nat _ Wi). pose proof (B (pos + (j * dimension + d))%nat _ Wj).
  pose proof (B (pos + amount * dimension + (k * dimension + d))%nat _ Wi).
  pose proof (B (pos + amount * dimension + (l * dimension + d))%nat _ Wj).
  rewrite Pk, Pl, Em.
  assert (J : (inject_Z (Z.of_nat j) == inject_Z (Z.of_nat i) + inject_Z (Z.of_nat (j - i)%nat))%Q).
  { rewrite <- inject_Z_plus. apply inject_Z_injective. lia. }
  rewrite J. setoid_replace (b * (wmax / 2))%Q with ((1 # 2) * (b * wmax))%Q in H by field.
  setoid_replace (b * (wmax / 2))%Q with ((1 # 2) * (b * wmax))%Q in H0 by field.
  setoid_replace (b * (wmax / 2))%Q with ((1 # 2) * (b * wmax))%Q in H1 by field.
  setoid_replace (b * (wmax / 2))%Q with ((1 # 2) * (b * wmax))%Q in H2 by field.
  set (e1 := inject_Z (Z.of_nat i)) in *. set (e2 := inject_Z (Z.of_nat (j - i))) in *.
  setoid_replace ((4 * e2 - 2 * b) * wmax)%Q with (4 * (e2 * wmax) - 2 * (b * wmax))%Q by ring.
  setoid_replace ((e1 + e2) * (wmax * 4))%Q with (4 * (e1 * wmax) + 4 * (e2 * wmax))%Q by ring.
  setoid_replace (e1 * (wmax * 4))%Q with (4 * (e1 * wmax))%Q by ring.
  lra.
Qed.
Print Assumptions C181_separated.
Example C181_ex : exists g pos' pts pos'', generator_init (fun n => if Nat.even n then 1%Q else (- (1))%Q) 3 2 (Each [1; 2; 1]) None (Same 1%Q) 0 = Ok (g, pos') /\
  generate (fun n => if Nat.even n then 1%Q else (- (1))%Q) g pos' = Ok (pts, pos'') /\ length pts = 4 /\
  ((4 * 2 - 2 * 1) * 1 <= coord (nth 3 pts []) 0%nat - coord (nth 0 pts []) 0%nat)%Q.
Proof.
  destruct (C181_separated (fun n => if Nat.even n then 1%Q else (- (1))%Q) 3 2 (Each [1; 2; 1]) (Same 1%Q) 0 1%Q 1%Q)
    as (g & pos' & pts & pos'' & E1 & E2 & L & H); try reflexivity; try lia.
  - intros w [<-|[<-|[<-|[]]]]; lra.
  - left. reflexivity.
  - intros n. destruct (Nat.even n); lra.
  - exists g, pos', pts, pos''. split; [exact E1|]. split; [exact E2|]. split; [exact L|].
    apply (H 0 3 0)%nat; try (rewrite L; cbn; lia); cbn; lia.
Qed.

(** C181.  No clusters at all are a ValueError when the centres are not given,
    [max] of no widths, instead of an empty data set. *)
Theorem C181_no_clusters : forall z dimension sizes w pos,
  generator_init z 0 dimension sizes None (Same w) pos = Raise ValueError.
Proof. reflexivity. Qed.
Print Assumptions C181_no_clusters.
