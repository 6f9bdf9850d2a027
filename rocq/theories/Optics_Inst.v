(** OPTICS over points (kd-tree searcher) and over a distance matrix, and the ordering analyser. *)
From Verif Require Import Base Search_Model Kd_Model Kd_Proofs Dbscan_Model Dbscan_Proofs Dbscan_Inst Optics_Model Optics_Proofs.

(** ** Specification *)
Definition sq_distance (data : list point) (x y : nat) : Q := sqdist (nth x data []) (nth y data []).
Definition matrix_distance (m : list (list Q)) (x y : nat) : Q := nth y (nth x m []) 0%Q.

(** everything said about one outcome, for [n] objects, neighbourhood [nb] and distance [dist] *)
Definition optics_partition (n : nat) (o : outcome) : Prop :=
  length (r_objects o) = n /\ Permutation (r_order o) (seq 0 n) /\
  Permutation (concat (r_clusters o) ++ r_noise o) (seq 0 n) /\ no_empty (r_clusters o).

(** ** Proofs *)
Lemma allocate_partition search n minpts nb dist eps : 1 <= minpts ->
  (forall i, i < n -> Permutation (search i) (map (fun j => (j, dist i j)) (filter (nb i) (seq 0 n)))) ->
  (forall i j, nb i j = true -> (dist i j <= eps)%Q) ->
  exists o, allocate_clusters search minpts eps n = Ok o /\ optics_partition n o /\
  optics_order n nb dist minpts (core_of o) (rch_of o) (r_order o) /\
  ((forall i j, i < n -> j < n -> nb i j = nb j i) -> optics_clusters n nb minpts (r_clusters o) (r_noise o) (r_order o)).
Proof.
  intros H1 H2 H3. destruct (allocate_spec search n minpts nb dist eps H1 H2 H3) as [o [E [L [O [P [N C]]]]]].
  exists o. split; auto. split; auto. split; auto. split; auto. apply O.
Qed.

Lemma neighbors_points_perm D data k eps i : 0 < D -> good D k (indexed data) -> same_dimension D data ->
  (0 <= eps)%Q -> i < length data ->
  Permutation (neighbors_points k data eps i)
    (map (fun j => (j, sq_distance data i j)) (filter (near data eps i) (seq 0 (length data)))).
Proof.
  intros HD G Hdim He Hi. unfold neighbors_points.
  assert (Hl : length (nth i data []) = D).
  { unfold same_dimension in Hdim. rewrite Forall_forall in Hdim. apply Hdim, nth_In; auto. }
  pose proof (good_range D HD k (indexed data) (nth i data []) eps G Hl He) as H.
  apply (filter_perm (fun dn => negb (pl (snd dn) =? i))) in H.
  apply (Permutation_map (fun dn => (pl (snd dn), fst dn))) in H.
  eapply Permutation_trans; [exact H|]. clear H.
  assert (E : forall l (x : point), 
     map (fun dn : Q * item nat => (pl (snd dn), fst dn)) (filter (fun dn => negb (pl (snd dn) =? i))
        (map (fun y => (sqdist x (pt y), y)) (filter (within x eps) l))) =
     map (fun y => (pl y, sqdist x (pt y))) (filter (fun y => within x eps y && negb (pl y =? i)) l)).
  { intros l x. induction l as [|y t IH]; simpl; auto. destruct (within x eps y); simpl; auto.
    destruct (pl y =? i); simpl; auto. f_equal; auto. }
  rewrite E. clear E. set (x := nth i data []).
  assert (E : forall l a, 
    map (fun y : item nat => (pl y, sqdist x (pt y))) (filter (fun y => within x eps y && negb (pl y =? i))
        (map (fun p => mkItem (snd p) (fst p)) (combine (seq a (length l)) l))) =
    map (fun j => (j, sqdist x (nth (j - a) l [])))
        (filter (fun j => negb (j =? i) && Qle_bool (sqdist x (nth (j - a) l [])) (eps * eps)) (seq a (length l)))).
  { induction l as [|p t IH]; intros a; [reflexivity|].
    assert (Es : map (fun j => (j, sqdist x (nth (j - a) (p :: t) [])))
        (filter (fun j => negb (j =? i) && Qle_bool (sqdist x (nth (j - a) (p :: t) [])) (eps * eps)) (seq (S a) (length t))) =
       map (fun j => (j, sqdist x (nth (j - S a) t [])))
        (filter (fun j => negb (j =? i) && Qle_bool (sqdist x (nth (j - S a) t [])) (eps * eps)) (seq (S a) (length t)))).
    { assert (En : forall j, In j (seq (S a) (length t)) -> nth (j - a) (p :: t) [] = nth (j - S a) t []).
      { intros j Hj. apply in_seq in Hj. replace (j - a) with (S (j - S a)) by lia. reflexivity. }
      rewrite (filter_ext_in _ (fun j => negb (j =? i) && Qle_bool (sqdist x (nth (j - S a) t [])) (eps * eps))).
      - apply map_ext_in. intros j Hj. apply filter_In in Hj as [Hj _]. rewrite En; auto.
      - intros j Hj. rewrite En; auto. }
    cbn [length seq combine map filter fst snd]. rewrite Nat.sub_diag. change (nth 0 (p :: t) []) with p.
    unfold within at 1. cbn [pt pl]. rewrite (andb_comm (Qle_bool _ _)).
    destruct (negb (a =? i) && Qle_bool (sqdist x p) (eps * eps)); cbn [map pl pt]; rewrite IH, <- Es.
    - rewrite Nat.sub_diag. reflexivity.
    - reflexivity. }
  unfold indexed. rewrite E.
  rewrite (filter_ext_in _ (near data eps i)).
  - rewrite (map_ext _ (fun j => (j, sq_distance data i j))); [apply Permutation_refl|].
    intros j. rewrite Nat.sub_0_r. reflexivity.
  - intros j _. rewrite Nat.sub_0_r. reflexivity.
Qed.

Lemma optics_points_ok D data eps minpts : 0 < D -> data <> [] -> same_dimension D data -> (0 <= eps)%Q -> 1 <= minpts ->
  exists o, optics_points data eps minpts = Ok o /\ optics_partition (length data) o /\
    optics_order (length data) (near data eps) (sq_distance data) minpts (core_of o) (rch_of o) (r_order o) /\
    optics_clusters (length data) (near data eps) minpts (r_clusters o) (r_noise o) (r_order o).
Proof.
  intros HD Hne Hdim He Hm. unfold optics_points.
  destruct (Nat.eqb_spec (length data) 0) as [E|_]; [apply length_zero_iff_nil in E; contradiction|].
  replace (Qltb eps 0) with false by (symmetry; apply Qltb_false; auto).
  destruct (build_indexed D data HD Hne Hdim) as [k [E G]]. rewrite E. cbn [bind].
  destruct (allocate_partition (neighbors_points k data eps) (length data) minpts (near data eps) (sq_distance data) (eps * eps) Hm)
    as [o [Eo [P [O C]]]].
  - intros i Hi. apply (neighbors_points_perm D); auto.
  - intros i j H. unfold near in H. apply andb_true_iff in H as [_ H]. apply Qle_bool_iff in H. auto.
  - exists o. split; auto. split; auto. split; auto. apply C. intros; apply near_sym.
Qed.

Lemma neighbors_matrix_perm m eps i : Forall (fun row => length row = length m) m -> i < length m ->
  Permutation (neighbors_matrix m eps i)
    (map (fun j => (j, matrix_distance m i j)) (filter (near_matrix m eps i) (seq 0 (length m)))).
Proof.
  intros Hr Hi. unfold neighbors_matrix. rewrite Forall_forall in Hr. rewrite (Hr (nth i m [])) by (apply nth_In; auto).
  erewrite filter_ext; [apply Permutation_refl|]. intros j. unfold near_matrix. apply andb_comm.
Qed.

Lemma matrix_allocate m eps minpts : Forall (fun row => length row = length m) m -> 1 <= minpts ->
  exists o, allocate_clusters (neighbors_matrix m eps) minpts eps (length m) = Ok o /\ optics_partition (length m) o /\
    optics_order (length m) (near_matrix m eps) (matrix_distance m) minpts (core_of o) (rch_of o) (r_order o) /\
    (symmetric_matrix m -> optics_clusters (length m) (near_matrix m eps) minpts (r_clusters o) (r_noise o) (r_order o)).
Proof.
  intros Hr Hm.
  destruct (allocate_partition (neighbors_matrix m eps) (length m) minpts (near_matrix m eps) (matrix_distance m) eps Hm)
    as [o [Eo [P [O C]]]].
  - intros i Hi. apply neighbors_matrix_perm; auto.
  - intros i j H. unfold near_matrix in H. apply andb_true_iff in H as [_ H]. apply Qle_bool_iff in H. auto.
  - exists o. split; auto. split; auto. split; auto. intros [_ Hs]. apply C.
    intros i j Hi Hj. unfold near_matrix. rewrite (Nat.eqb_sym j i). f_equal. specialize (Hs i j Hi Hj).
    destruct (Qle_bool (nth j (nth i m []) 0%Q) eps) eqn:E1, (Qle_bool (nth i (nth j m []) 0%Q) eps) eqn:E2; auto.
    + apply Qle_bool_iff in E1. apply Qle_bool_false in E2. lra.
    + apply Qle_bool_iff in E2. apply Qle_bool_false in E1. lra.
Qed.

Lemma optics_matrix_ok m eps minpts : m <> [] -> Forall (fun row => length row = length m) m -> (0 <= eps)%Q -> 1 <= minpts ->
  exists o, optics_matrix m eps minpts None = Ok (o, eps, get_ordering o) /\ optics_partition (length m) o /\
    optics_order (length m) (near_matrix m eps) (matrix_distance m) minpts (core_of o) (rch_of o) (r_order o) /\
    (symmetric_matrix m -> optics_clusters (length m) (near_matrix m eps) minpts (r_clusters o) (r_noise o) (r_order o)).
Proof.
  intros Hne Hr He Hm. unfold optics_matrix.
  destruct (Nat.eqb_spec (length m) 0) as [E|_]; [apply length_zero_iff_nil in E; contradiction|].
  replace (Qltb eps 0) with false by (symmetry; apply Qltb_false; auto).
  destruct (matrix_allocate m eps minpts Hr Hm) as [o [E R]]. rewrite E. exists o. auto.
Qed.

(** *** the ordering analyser *)
Lemma extract_amount_ok ordering radius : ordering <> [] -> exists a b, extract_cluster_amount ordering radius = Ok (a, b).
Proof.
  intros Hne. unfold extract_cluster_amount.
  set (s0 := mkScan 1 false false true None None []).
  assert (H : forall l k s, l <> [] -> s_prev (amount_loop radius k l s) <> None).
  { induction l as [|d t IH]; intros k s Hl; [congruence|]. cbn [amount_loop].
    destruct t as [|d' t']; [simpl; discriminate|apply IH; discriminate]. }
  specialize (H ordering 0 s0 Hne).
  destruct (s_similar (amount_loop radius 0 ordering s0)); [|eauto].
  destruct (s_prev (amount_loop radius 0 ordering s0)); [eauto|congruence].
Qed.

Lemma bisect_ok ordering wanted : ordering <> [] -> forall k lo hi, (lo <= hi)%Q ->
  exists r, bisect ordering wanted k lo hi = Ok r /\
    match r with
    | Some x => (lo <= x <= hi)%Q /\ exists b, extract_cluster_amount ordering x = Ok (wanted, b)
    | None => True
    end.
Proof.
  intros Hne. induction k as [|k IH]; intros lo hi Hle; cbn [bisect]; [exists None; auto|].
  set (x := ((lo + hi) / 2)%Q).
  assert (Hx : (lo <= x <= hi)%Q).
  { assert (E : (x == (lo + hi) * (1 # 2))%Q) by (unfold x; field). lra. }
  destruct (extract_amount_ok ordering x Hne) as [a [b Ea]]. rewrite Ea. cbn [bind fst].
  destruct (Z.eqb_spec a wanted) as [->|_].
  - exists (Some x). split; auto. split; auto. exists b. auto.
  - destruct (a =? 0)%Z; [exists None; auto|].
    destruct (wanted <? a)%Z.
    + destruct (IH x hi) as [r [E R]]; [lra|]. exists r. split; auto. destruct r; auto. destruct R as [R1 R2]. split; auto. lra.
    + destruct (IH lo x) as [r [E R]]; [lra|]. exists r. split; auto. destruct r; auto. destruct R as [R1 R2]. split; auto. lra.
Qed.

Lemma fold_max_ge : forall t x, (x <= fold_left py_max t x)%Q /\ (forall y, In y t -> (y <= fold_left py_max t x)%Q) /\
  In (fold_left py_max t x) (x :: t).
Proof.
  induction t as [|a t IH]; intros x; simpl; [split; [lra|]; split; [intros ? []|auto]|].
  destruct (IH (py_max x a)) as [H1 [H2 H3]]. destruct (py_max_spec x a) as [G1 [G2 G3]].
  split; [lra|]. split.
  - intros y [<-|Hy]; auto. lra.
  - destruct H3 as [H3|H3]; [|auto]. rewrite <- H3. destruct G3 as [-> | ->]; auto.
Qed.

Lemma list_max_spec l m : list_max l = Ok m -> In m l /\ forall y, In y l -> (y <= m)%Q.
Proof.
  destruct l as [|x t]; [discriminate|]. simpl list_max. intros H. apply Ok_inj in H. subst m.
  destruct (fold_max_ge t x) as [H1 [H2 H3]]. split; auto. intros y [<-|Hy]; auto.
Qed.

Lemma connectivity_radius_ok ordering wanted k : ordering <> [] -> (forall x, In x ordering -> (0 <= x)%Q) ->
  exists r, connectivity_radius ordering wanted k = Ok r /\
    match r with
    | Some x => (exists m, In m ordering /\ (0 <= x <= m)%Q) /\ exists b, extract_cluster_amount ordering x = Ok (wanted, b)
    | None => True
    end.
Proof.
  intros Hne Hpos. unfold connectivity_radius.
  destruct (list_max ordering) as [m|] eqn:Em; [|destruct ordering; [congruence|discriminate]].
  cbn [bind]. destruct (extract_amount_ok ordering m Hne) as [a [b Ea]]. rewrite Ea. cbn [bind fst].
  destruct (list_max_spec _ _ Em) as [Hin _].
  destruct (a <=? wanted)%Z; [|exists None; auto].
  destruct (bisect_ok ordering wanted Hne k 0 m) as [r [E R]]; [auto|]. exists r. split; auto.
  destruct r; auto. destruct R as [R1 R2]. split; auto. exists m. auto.
Qed.

(** *** a requested number of clusters *)
Lemma optics_matrix_amount m eps minpts a o r ord : m <> [] -> Forall (fun row => length row = length m) m -> 1 <= minpts ->
  optics_matrix m eps minpts a = Ok (o, r, ord) ->
  optics_partition (length m) o /\
  optics_order (length m) (near_matrix m r) (matrix_distance m) minpts (core_of o) (rch_of o) (r_order o) /\
  (symmetric_matrix m -> optics_clusters (length m) (near_matrix m r) minpts (r_clusters o) (r_noise o) (r_order o)).
Proof.
  intros Hne Hr Hm. unfold optics_matrix.
  destruct (length m =? 0); [discriminate|]. destruct (Qltb eps 0); [discriminate|].
  destruct (match a with Some a0 => (a0 <=? 0)%Z | None => false end); [discriminate|].
  destruct (matrix_allocate m eps minpts Hr Hm) as [o1 [E R]]. rewrite E. cbn [bind].
  destruct a as [a|].
  - destruct (a =? Z.of_nat (length (r_clusters o1)))%Z; [intros H; apply Ok_inj in H; injection H as <- <- _; auto|].
    destruct (connectivity_radius (get_ordering o1) a 100) as [[x|]|]; [| |discriminate]; cbn [bind].
    + destruct (matrix_allocate m x minpts Hr Hm) as [o2 [E2 R2]]. rewrite E2. cbn [bind].
      intros H. apply Ok_inj in H. injection H as <- <- _. auto.
    + intros H. apply Ok_inj in H. injection H as <- <- _. auto.
  - intros H. apply Ok_inj in H. injection H as <- <- _. auto.
Qed.
