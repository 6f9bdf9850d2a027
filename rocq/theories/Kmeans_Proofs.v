(** k-means and k-medians: specifications and proofs. *)
From Verif Require Import Base Kmeans_Model.

(** * Specifications *)

(** plain sum *)
Fixpoint qsum (l : list Q) : Q := match l with [] => 0%Q | x :: t => (x + qsum t)%Q end.

(** [c] is the arithmetic mean of the points *)
Definition is_mean (dim : nat) (pts : list point) (c : point) : Prop :=
  length c = dim /\
  forall d, d < dim -> (inject_Z (Z.of_nat (length pts)) * coord c d == qsum (map (fun p => coord p d) pts))%Q.

(** sum of distances of the members of each cluster to its own centre *)
Fixpoint cost (metric : point -> point -> Q) (data : list point) (clusters : list (list nat)) (centers : list point) : Q :=
  match clusters, centers with
  | g :: t, c :: cs => (qsum (map (fun i => metric (nth i data []) c) g) + cost metric data t cs)%Q
  | _, _ => 0%Q
  end.

(** [k] is a nearest centre of [p] *)
Definition nearest (metric : point -> point -> Q) (centers : list point) (p : point) (k : nat) : Prop :=
  k < length centers /\ forall j, j < length centers -> (metric p (nth k centers []) <= metric p (nth j centers []))%Q.

(** coordinate-wise: [m] minimises the sum of absolute differences *)
Definition minimises_abs (vals : list Q) (m : Q) : Prop :=
  forall y, (qsum (map (fun x => Qabs (x - m)) vals) <= qsum (map (fun x => Qabs (x - y)) vals))%Q.

(** * Sums *)
Lemma sumQ_from l : forall a, (fold_left Qplus l a == a + qsum l)%Q.
Proof.
  induction l as [|x t IH]; intros a; simpl; [ring|]. rewrite IH. ring.
Qed.

Lemma sumQ_qsum l : (sumQ l == qsum l)%Q.
Proof. unfold sumQ. rewrite sumQ_from. ring. Qed.

Lemma qsum_app l l' : (qsum (l ++ l') == qsum l + qsum l')%Q.
Proof. induction l as [|x t IH]; simpl; [ring|]. rewrite IH. ring. Qed.

Lemma qsum_perm l l' : Permutation l l' -> (qsum l == qsum l')%Q.
Proof.
  induction 1; simpl; try ring; [rewrite IHPermutation; ring|].
  etransitivity; eauto.
Qed.

Lemma qsum_le {A} (f g : A -> Q) l : (forall x, In x l -> (f x <= g x)%Q) -> (qsum (map f l) <= qsum (map g l))%Q.
Proof.
  induction l as [|x t IH]; intros H; simpl; [lra|].
  assert (f x <= g x)%Q by (apply H; simpl; auto).
  assert (qsum (map f t) <= qsum (map g t))%Q by (apply IH; intros; apply H; simpl; auto). lra.
Qed.

Lemma qsum_ext {A} (f g : A -> Q) l : (forall x, In x l -> (f x == g x)%Q) -> (qsum (map f l) == qsum (map g l))%Q.
Proof.
  induction l as [|x t IH]; intros H; simpl; [reflexivity|].
  rewrite (H x) by (simpl; auto). rewrite IH by (intros; apply H; simpl; auto). reflexivity.
Qed.

Lemma qsum_plus {A} (f g : A -> Q) l : (qsum (map (fun x => f x + g x) l) == qsum (map f l) + qsum (map g l))%Q.
Proof. induction l as [|x t IH]; simpl; [ring|]. rewrite IH. ring. Qed.

Lemma qsum_scale {A} (f : A -> Q) a l : (qsum (map (fun x => a * f x) l) == a * qsum (map f l))%Q.
Proof. induction l as [|x t IH]; simpl; [ring|]. rewrite IH. ring. Qed.

Lemma qsum_const {A} (a : Q) (l : list A) : (qsum (map (fun _ => a) l) == a * inject_Z (Z.of_nat (length l)))%Q.
Proof.
  induction l as [|x t IH]; [simpl; ring|].
  change (length (x :: t)) with (S (length t)). rewrite Nat2Z.inj_succ, <- Z.add_1_r, inject_Z_plus.
  simpl. rewrite IH. change (inject_Z 1) with 1%Q. ring.
Qed.

Lemma qsum_concat ls : (qsum (concat ls) == qsum (map qsum ls))%Q.
Proof. induction ls as [|l t IH]; simpl; [reflexivity|]. rewrite qsum_app, IH. reflexivity. Qed.

(** * argmin *)
Lemma argmin_from_spec l : forall best bv i all,
  best < i -> (nth best all 0 == bv)%Q -> length all = i + length l ->
  (forall k, k < length l -> nth (i + k) all 0%Q = nth k l 0%Q) ->
  (forall k, k < i -> (bv <= nth k all 0)%Q) ->
  let r := argmin_from best bv i l in
  r < i + length l /\ forall k, k < i + length l -> (nth r all 0 <= nth k all 0)%Q.
Proof.
  induction l as [|v t IH]; intros best bv i all Hb Hbv Hlen Hsuf Hmin; cbn [argmin_from].
  - simpl. rewrite Nat.add_0_r. split; auto. intros k Hk. rewrite Hbv. auto.
  - assert (Hv : nth i all 0%Q = v).
    { specialize (Hsuf 0 ltac:(simpl; lia)). rewrite Nat.add_0_r in Hsuf. exact Hsuf. }
    assert (Hstep : forall best' bv', best' < S i -> (nth best' all 0 == bv')%Q -> (bv' <= bv)%Q -> (bv' <= v)%Q ->
      let r := argmin_from best' bv' (S i) t in
      r < i + length (v :: t) /\ (forall k, k < i + length (v :: t) -> (nth r all 0 <= nth k all 0)%Q)).
    { intros best' bv' H1 H2 H3 H4. destruct (IH best' bv' (S i) all) as [R1 R2]; auto.
      - simpl in Hlen. lia.
      - intros k Hk. specialize (Hsuf (S k) ltac:(simpl; lia)). simpl in Hsuf.
        replace (S i + k) with (i + S k) by lia. auto.
      - intros k Hk. destruct (Nat.eq_dec k i) as [->|]; [rewrite Hv; auto|]. specialize (Hmin k ltac:(lia)). lra.
      - simpl length. split; [lia|]. intros k Hk. apply R2. lia. }
    destruct (Qltb v bv) eqn:E.
    + apply Qltb_true in E. apply Hstep; try lra; try lia. rewrite Hv. reflexivity.
    + apply Qltb_false in E. apply Hstep; try lra; try lia; auto.
Qed.

Lemma argmin_spec l : l <> [] -> argmin l < length l /\ forall k, k < length l -> (nth (argmin l) l 0 <= nth k l 0)%Q.
Proof.
  destruct l as [|v t]; [congruence|]. intros _. unfold argmin.
  destruct (argmin_from_spec t 0 v 1 (v :: t)) as [H1 H2]; auto.
  - reflexivity.
  - intros k Hk. assert (k = 0) as -> by lia. simpl. lra.
Qed.

Lemma nth_map_metric (metric : point -> point -> Q) p (centers : list point) k : k < length centers ->
  nth k (map (metric p) centers) 0%Q = metric p (nth k centers []).
Proof.
  intros H. rewrite (nth_indep _ 0%Q (metric p [])) by (rewrite map_length; auto). apply map_nth.
Qed.

Lemma argmin_nearest metric (centers : list point) p : centers <> [] ->
  nearest metric centers p (argmin (map (metric p) centers)).
Proof.
  intros H. destruct (argmin_spec (map (metric p) centers)) as [H1 H2].
  - destruct centers; [congruence|discriminate].
  - rewrite map_length in *. split; auto. intros j Hj. specialize (H2 j Hj).
    rewrite !nth_map_metric in H2 by auto. auto.
Qed.

Lemma kmedians_nearest_argmin (metric : point -> point -> Q) p l : forall i best bv, 0 < i ->
  kmedians_nearest metric p l i best bv = argmin_from best bv i (map (metric p) l).
Proof.
  induction l as [|m t IH]; intros i best bv Hi; cbn [kmedians_nearest map argmin_from]; auto.
  assert (E : i =? 0 = false) by (apply Nat.eqb_neq; lia). rewrite E, orb_false_r.
  destruct (Qltb (metric p m) bv); apply IH; lia.
Qed.

Lemma kmedians_nearest_eq metric p medians : medians <> [] ->
  kmedians_nearest metric p medians 0 0 0%Q = argmin (map (metric p) medians).
Proof.
  destruct medians as [|m t]; [congruence|]. intros _. cbn [kmedians_nearest map argmin Nat.eqb].
  rewrite orb_true_r. apply kmedians_nearest_argmin. lia.
Qed.

(** * Assignment: groups by a labelling function *)
Definition groups_of (label : nat -> nat) (n k : nat) : list (list nat) :=
  map (fun j => filter (fun i => label i =? j) (seq 0 n)) (seq 0 k).

Lemma nth_map_seq0 {A} (f : nat -> A) n j d : j < n -> nth j (map f (seq 0 n)) d = f j.
Proof.
  intros H. rewrite (nth_indep _ d (f 0)) by (rewrite map_length, seq_length; auto).
  rewrite map_nth, seq_nth by auto. reflexivity.
Qed.

Lemma push_length cl k i : length (push cl k i) = length cl.
Proof. apply upd_length. Qed.

Lemma push_fold label k l : forall cl, length cl = k ->
  fold_left (fun cl i => push cl (label i) i) l cl =
  map (fun j => nth j cl [] ++ filter (fun i => label i =? j) l) (seq 0 k).
Proof.
  induction l as [|x t IH]; intros cl Hk; cbn [fold_left].
  - apply nth_ext with (d := []) (d' := []).
    + now rewrite map_length, seq_length.
    + intros j Hj. rewrite Hk in Hj. rewrite nth_map_seq0 by auto. simpl. now rewrite app_nil_r.
  - rewrite IH by (rewrite push_length; auto). apply map_ext_in. intros j Hj. apply in_seq in Hj.
    unfold push. rewrite upd_nth. simpl. destruct (Nat.eqb_spec (label x) j) as [E|E]; simpl; auto.
    subst j. destruct (Nat.ltb_spec (label x) (length cl)); [|lia]. now rewrite <- app_assoc.
Qed.

Lemma push_groups label n k :
  fold_left (fun cl i => push cl (label i) i) (seq 0 n) (repeat [] k) = groups_of label n k.
Proof.
  rewrite (push_fold label k) by apply repeat_length. unfold groups_of. apply map_ext_in.
  intros j Hj. apply in_seq in Hj.
  assert (E : nth j (repeat (@nil nat) k) [] = []) by apply nth_repeat. rewrite E. reflexivity.
Qed.

Lemma filter_label_perm label (l : list nat) k : (forall i, In i l -> label i < k) ->
  Permutation (concat (map (fun j => filter (fun i => label i =? j) l) (seq 0 k))) l.
Proof.
  induction l as [|x t IH]; intros H.
  - simpl. clear. induction (seq 0 k); simpl; auto.
  - transitivity (x :: concat (map (fun j => filter (fun i => label i =? j) t) (seq 0 k))).
    2:{ constructor. apply IH. intros; apply H; simpl; auto. }
    assert (Hx : label x < k) by (apply H; simpl; auto).
    clear - Hx. 
    assert (Hg : forall js, NoDup js -> In (label x) js ->
      Permutation (concat (map (fun j => filter (fun i => label i =? j) (x :: t)) js))
                  (x :: concat (map (fun j => filter (fun i => label i =? j) t) js))).
    { induction js as [|j js IH]; intros Hnd Hin; [contradiction|]. inversion Hnd as [|? ? Hj Hjs]; subst.
      cbn [map concat filter]. destruct (Nat.eqb_spec (label x) j) as [E|E].
      - simpl. constructor. apply Permutation_app_head. apply Permutation_refl'. f_equal.
        apply map_ext_in. intros j' Hj'. simpl. destruct (Nat.eqb_spec (label x) j') as [E'|]; auto.
        exfalso. apply Hj. congruence.
      - destruct Hin as [Hin|Hin]; [congruence|]. etransitivity; [apply Permutation_app_head; apply (IH Hjs Hin)|].
        symmetry. apply Permutation_middle. }
    apply Hg; [apply seq_NoDup|apply in_seq; lia].
Qed.

Lemma concat_filter_nonempty {A} (l : list (list A)) : concat (filter nonempty l) = concat l.
Proof. induction l as [|[|a e] l IH]; simpl; congruence. Qed.

Lemma groups_partition label n k : (forall i, i < n -> label i < k) ->
  partitions n (filter nonempty (groups_of label n k)).
Proof.
  intros H. unfold partitions. rewrite concat_filter_nonempty. apply filter_label_perm.
  intros i Hi. apply in_seq in Hi. apply H. lia.
Qed.

Lemma filter_nonempty_no_empty {A} (l : list (list A)) : no_empty (filter nonempty l).
Proof.
  apply Forall_forall. intros g Hg. apply filter_In in Hg as [_ Hg]. destruct g; [discriminate|congruence].
Qed.

Lemma filter_length_le' {A} (f : A -> bool) l : length (filter f l) <= length l.
Proof. induction l as [|x t IH]; simpl; auto. destruct (f x); simpl; lia. Qed.

(** * Generic Lloyd step *)
Section Lloyd.
Variable metric : point -> point -> Q.
Variable data : list point.
Let n := length data.

Definition assign (centers : list point) : list (list nat) :=
  filter nonempty (groups_of (fun i => argmin (map (metric (nth i data [])) centers)) n (length centers)).

Lemma kmeans_assign centers : kmeans_update_clusters metric data centers = assign centers.
Proof. unfold kmeans_update_clusters, assign. f_equal. apply push_groups. Qed.

Lemma kmedians_assign centers : centers <> [] -> kmedians_update_clusters metric data centers = assign centers.
Proof.
  intros H. unfold kmedians_update_clusters, assign. f_equal. rewrite <- push_groups.
  fold n. generalize (repeat (@nil nat) (length centers)). generalize (seq 0 n). intros l.
  induction l as [|x t IH]; intros cl; cbn [fold_left]; auto.
  rewrite kmedians_nearest_eq by auto. apply IH.
Qed.

Lemma assign_partition centers : centers <> [] -> partitions n (assign centers).
Proof.
  intros H. apply groups_partition. intros i Hi. apply argmin_nearest; auto.
Qed.

Lemma assign_no_empty centers : no_empty (assign centers).
Proof. apply filter_nonempty_no_empty. Qed.

Lemma assign_length centers : length (assign centers) <= length centers.
Proof.
  unfold assign. etransitivity; [apply filter_length_le'|]. unfold groups_of. rewrite map_length, seq_length. auto.
Qed.

(** every group has its own old centre, nearest to all of its members *)
Lemma assign_nearest centers g : centers <> [] -> In g (assign centers) ->
  exists k, k < length centers /\ forall i, In i g -> i < n /\ nearest metric centers (nth i data []) k.
Proof.
  intros Hne Hg. apply filter_In in Hg as [Hg _]. apply in_map_iff in Hg as [k [<- Hk]]. apply in_seq in Hk.
  exists k. split; [lia|]. intros i Hi. apply filter_In in Hi as [Hi E]. apply in_seq in Hi. apply Nat.eqb_eq in E.
  split; [lia|]. rewrite <- E. apply argmin_nearest; auto.
Qed.

(** [m i]: distance of point [i] to its nearest centre *)
Definition best (centers : list point) (i : nat) : Q :=
  metric (nth i data []) (nth (argmin (map (metric (nth i data [])) centers)) centers []).

Lemma best_nearest centers i k : centers <> [] -> nearest metric centers (nth i data []) k ->
  (metric (nth i data []) (nth k centers []) == best centers i)%Q.
Proof.
  intros Hne [H1 H2]. destruct (argmin_nearest metric centers (nth i data []) Hne) as [H3 H4].
  unfold best. specialize (H2 _ H3). specialize (H4 _ H1). lra.
Qed.

Lemma cost_ge_best clusters centers : partitions n clusters -> length clusters = length centers ->
  (qsum (map (best centers) (seq 0 n)) <= cost metric data clusters centers)%Q.
Proof.
  intros Hp Hl.
  assert (Ep : (qsum (map (best centers) (concat clusters)) == qsum (map (best centers) (seq 0 n)))%Q).
  { apply qsum_perm, Permutation_map. exact Hp. }
  rewrite <- Ep. clear Ep.
  assert (H : forall cs pre cl, centers = pre ++ cs -> length cl = length cs ->
     (qsum (map (best centers) (concat cl)) <= cost metric data cl cs)%Q).
  { induction cs as [|c cs IH]; intros pre [|g cl] E Hlen; simpl in *; try lia; try lra.
    rewrite map_app, qsum_app.
    assert (H1 : (qsum (map (best centers) g) <= qsum (map (fun i => metric (nth i data []) c) g))%Q).
    { apply qsum_le. intros i _. assert (Hne : centers <> []) by (rewrite E; destruct pre; discriminate).
      destruct (argmin_nearest metric centers (nth i data []) Hne) as [_ H4].
      assert (Hc : nth (length pre) centers [] = c) by (rewrite E, app_nth2, Nat.sub_diag by lia; reflexivity).
      specialize (H4 (length pre)). rewrite Hc in H4. apply H4. rewrite E, app_length. simpl. lia. }
    specialize (IH (pre ++ [c]) cl). rewrite <- app_assoc in IH. specialize (IH E ltac:(lia)). lra. }
  apply (H centers []); auto.
Qed.

(** the update of a group *)
Variable update : list nat -> point.
Variable good : point -> Prop.
Hypothesis update_opt : forall g c, g <> [] -> (forall i, In i g -> i < n) -> good c ->
  (qsum (map (fun i => metric (nth i data []) (update g)) g) <= qsum (map (fun i => metric (nth i data []) c) g))%Q.

Lemma cost_update clusters : (cost metric data clusters (map update clusters) ==
  qsum (map (fun g => qsum (map (fun i => metric (nth i data []) (update g)) g)) clusters))%Q.
Proof. induction clusters as [|g t IH]; simpl; [reflexivity|]. rewrite IH. reflexivity. Qed.

Lemma step_cost_best centers : centers <> [] -> Forall good centers ->
  (cost metric data (assign centers) (map update (assign centers)) <= qsum (map (best centers) (seq 0 n)))%Q.
Proof.
  intros Hne Hgood. rewrite cost_update.
  assert (Ep : (qsum (map (best centers) (concat (assign centers))) == qsum (map (best centers) (seq 0 n)))%Q).
  { apply qsum_perm, Permutation_map. apply assign_partition; auto. }
  rewrite <- Ep. clear Ep.
  assert (H : forall gs, (forall g, In g gs -> In g (assign centers)) ->
    (qsum (map (fun g => qsum (map (fun i => metric (nth i data []) (update g)) g)) gs) <= qsum (map (best centers) (concat gs)))%Q).
  { induction gs as [|g gs IH]; intros Hin; simpl; [lra|]. rewrite map_app, qsum_app.
    assert (H1 : (qsum (map (fun i => metric (nth i data []) (update g)) g) <= qsum (map (best centers) g))%Q).
    { destruct (assign_nearest centers g Hne) as [k [Hk Hi]]; [apply Hin; simpl; auto|].
      assert (Eb : (qsum (map (fun i => metric (nth i data []) (nth k centers [])) g) == qsum (map (best centers) g))%Q).
      { apply qsum_ext. intros i Hig. apply best_nearest; auto. apply Hi; auto. }
      rewrite <- Eb. apply update_opt.
      - pose proof (assign_no_empty centers) as Hn. unfold no_empty in Hn. rewrite Forall_forall in Hn. apply Hn. apply Hin. simpl; auto.
      - intros i Hig. apply Hi; auto.
      - rewrite Forall_forall in Hgood. apply Hgood. apply nth_In; auto. }
    specialize (IH ltac:(intros; apply Hin; simpl; auto)). lra. }
  apply H. auto.
Qed.
End Lloyd.

Lemma total_wce_cost metric data clusters centers : length clusters = length centers ->
  (total_wce metric data clusters centers == cost metric data clusters centers)%Q.
Proof.
  intros Hl. unfold total_wce. rewrite sumQ_qsum, qsum_concat.
  assert (H : forall cl cs pre prec, length cl = length cs -> length pre = length prec ->
    (qsum (map qsum (map (fun k => map (fun i => metric (nth i data []) (nth k (prec ++ cs) [])) (nth k (pre ++ cl) [])) (seq (length pre) (length cl))))
      == cost metric data cl cs)%Q).
  { induction cl as [|g cl IH]; intros [|c cs] pre prec H1 H2; simpl in *; try lia; try reflexivity.
    assert (E1 : nth (length pre) (prec ++ c :: cs) [] = c) by (rewrite H2, app_nth2, Nat.sub_diag by lia; reflexivity).
    assert (E2 : nth (length pre) (pre ++ g :: cl) [] = g) by (rewrite app_nth2, Nat.sub_diag by lia; reflexivity).
    rewrite E1, E2.
    specialize (IH cs (pre ++ [g]) (prec ++ [c]) ltac:(lia) ltac:(rewrite !app_length; simpl; lia)).
    rewrite <- !app_assoc in IH. simpl in IH. rewrite app_length in IH. simpl in IH. rewrite Nat.add_1_r in IH.
    rewrite IH. reflexivity. }
  apply (H clusters centers [] []); auto.
Qed.

(** * Mean *)
Lemma mean_is_mean dim pts : pts <> [] -> is_mean dim pts (mean_point dim pts).
Proof.
  intros Hne. unfold mean_point. split; [now rewrite map_length, seq_length|]. intros d Hd.
  unfold coord at 1. rewrite nth_map_seq0 by auto.
  rewrite sumQ_qsum. field. destruct pts; [congruence|]. intro Hc.
  unfold Qeq in Hc. simpl in Hc. discriminate.
Qed.

(** squared distance as a sum over coordinates *)
Lemma sqdist_sum a b dim : length a = dim -> length b = dim ->
  (sqdist a b == qsum (map (fun d => (coord a d - coord b d) * (coord a d - coord b d)) (seq 0 dim)))%Q.
Proof.
  intros Ha Hb. subst dim. revert b Hb. induction a as [|x a IH]; intros [|y b] Hb; simpl in *; try lia; [reflexivity|].
  rewrite IH by lia. rewrite <- seq_shift, map_map. reflexivity.
Qed.

Lemma qsum_swap {A B} (f : A -> B -> Q) la lb :
  (qsum (map (fun a => qsum (map (f a) lb)) la) == qsum (map (fun b => qsum (map (fun a => f a b) la)) lb))%Q.
Proof.
  induction la as [|a la IH]; simpl.
  - induction lb as [|b lb IHb]; simpl; [reflexivity|]. rewrite <- IHb. ring.
  - rewrite IH. rewrite <- qsum_plus. reflexivity.
Qed.

(** one coordinate: the mean minimises the sum of squares *)
Lemma mean_minimises vals m y : (inject_Z (Z.of_nat (length vals)) * m == qsum vals)%Q ->
  (qsum (map (fun x => (x - m) * (x - m)) vals) <= qsum (map (fun x => (x - y) * (x - y)) vals))%Q.
Proof.
  intros Hm.
  assert (E : (qsum (map (fun x => (x - y) * (x - y)) vals) ==
    qsum (map (fun x => (x - m) * (x - m)) vals) + (m - y) * (m - y) * inject_Z (Z.of_nat (length vals)))%Q).
  { transitivity (qsum (map (fun x => (x - m) * (x - m) + (2 * (m - y) * (x - m) + (m - y) * (m - y))) vals))%Q.
    - apply qsum_ext. intros x _. ring.
    - rewrite qsum_plus, qsum_plus, qsum_const.
      assert (E2 : (qsum (map (fun x => 2 * (m - y) * (x - m)) vals) == 0)%Q).
      { rewrite qsum_scale.
        assert (E3 : (qsum (map (fun x => x - m) vals) == 0)%Q).
        { unfold Qminus. rewrite (qsum_plus (fun x => x) (fun _ => (- m)%Q)), map_id, qsum_const, <- Hm. ring. }
        rewrite E3. ring. }
      rewrite E2. ring. }
  rewrite E. assert (0 <= (m - y) * (m - y) * inject_Z (Z.of_nat (length vals)))%Q; [|lra].
  apply Qmult_le_0_compat; [apply sq_nonneg|]. change 0%Q with (inject_Z 0). rewrite <- Zle_Qle. lia.
Qed.

Lemma mean_optimal (pts : list point) dim m c : (forall p, In p pts -> length p = dim) ->
  is_mean dim pts m -> length c = dim ->
  (qsum (map (fun p => sqdist p m) pts) <= qsum (map (fun p => sqdist p c) pts))%Q.
Proof.
  intros Hd [Hml Hm] Hc.
  rewrite (qsum_ext (fun p => sqdist p m) (fun p => qsum (map (fun d => (coord p d - coord m d) * (coord p d - coord m d)) (seq 0 dim)))%Q).
  2:{ intros p Hp. apply sqdist_sum; auto. }
  rewrite (qsum_ext (fun p => sqdist p c) (fun p => qsum (map (fun d => (coord p d - coord c d) * (coord p d - coord c d)) (seq 0 dim)))%Q).
  2:{ intros p Hp. apply sqdist_sum; auto. }
  rewrite !(qsum_swap _ pts). apply qsum_le. intros d Hd'. apply in_seq in Hd'.
  pose proof (mean_minimises (map (fun p => coord p d) pts) (coord m d) (coord c d)) as H.
  rewrite !map_map in H. apply H. rewrite map_length. apply Hm. lia.
Qed.

(** * k-means: invariants of the loop *)
Section KmeansLoop.
Variable metric : point -> point -> Q.
Variable data : list point.
Hypothesis data_ne : data <> [].

Let pts (g : list nat) : list point := map (fun i => nth i data []) g.
Let dim := dimension data.

(** what one iteration guarantees *)
Definition kmeans_ok (k0 : nat) (clusters : list (list nat)) (centers : list point) : Prop :=
  partitions (length data) clusters /\ no_empty clusters /\
  length centers = length clusters /\ length clusters <= k0 /\
  forall k, k < length clusters -> is_mean dim (pts (nth k clusters [])) (nth k centers []).

Lemma partition_ne clusters : partitions (length data) clusters -> clusters <> [].
Proof.
  intros H Hc. subst. unfold partitions in H. simpl in H. apply Permutation_length in H. rewrite seq_length in H.
  destruct data; simpl in H; [congruence|discriminate].
Qed.

Lemma kmeans_step_ok k0 centers : centers <> [] -> length centers <= k0 ->
  kmeans_ok k0 (kmeans_update_clusters metric data centers)
               (kmeans_update_centers data (kmeans_update_clusters metric data centers)).
Proof.
  intros Hne Hl. rewrite kmeans_assign. split; [|split; [|split; [|split]]].
  - apply assign_partition; auto.
  - apply assign_no_empty.
  - unfold kmeans_update_centers. apply map_length.
  - pose proof (assign_length metric data centers). lia.
  - intros k Hk. unfold kmeans_update_centers.
    rewrite (nth_indep _ [] (mean_point dim (pts []))) by (rewrite map_length; auto).
    rewrite (map_nth (fun cl => mean_point dim (pts cl))). apply mean_is_mean.
    pose proof (assign_no_empty metric data centers) as Hn. unfold no_empty in Hn. rewrite Forall_forall in Hn.
    specialize (Hn _ (nth_In _ [] Hk)). unfold pts. destruct (nth k (assign metric data centers) []); [congruence|discriminate].
Qed.

Lemma kmeans_loop_ok tol k0 left : forall change clusters centers,
  kmeans_ok k0 clusters centers ->
  let '(cl, ce) := kmeans_loop metric data tol left change clusters centers in kmeans_ok k0 cl ce.
Proof.
  induction left as [|left IH]; intros change clusters centers H; cbn [kmeans_loop]; auto.
  destruct (exceeds change tol); auto.
  apply IH. destruct H as (H1 & H2 & H3 & H4 & _). apply kmeans_step_ok; [|lia].
  intro Hc. subst. simpl in H3. apply (partition_ne clusters H1). destruct clusters; [auto|discriminate].
Qed.


Lemma kmeans_loop_more tol m j : forall change clusters centers,
  exists change', kmeans_loop metric data tol (m + j) change clusters centers =
    kmeans_loop metric data tol j change' (fst (kmeans_loop metric data tol m change clusters centers))
      (snd (kmeans_loop metric data tol m change clusters centers)).
Proof.
  induction m as [|m IH]; intros change clusters centers; cbn [Nat.add kmeans_loop].
  - exists change. reflexivity.
  - destruct (exceeds change tol) eqn:E.
    + apply IH.
    + exists change. destruct j; cbn [kmeans_loop fst snd]; [reflexivity|]. now rewrite E.
Qed.
End KmeansLoop.

Lemma kmeans_process_inv metric data initial tol itermax r :
  kmeans_process metric data initial tol itermax = Ok r ->
  data <> [] /\ initial <> [] /\ (0 <= tol)%Q /\ length (nth 0 initial []) = dimension data /\
  let '(cl, ce) := kmeans_loop metric data tol itermax None [] initial in r = (cl, ce, total_wce metric data cl ce).
Proof.
  unfold kmeans_process. intros H. destruct data as [|p0 t]; [discriminate|].
  destruct initial as [|c0 ct]; [discriminate|].
  destruct (Qltb tol 0) eqn:Et; [discriminate|]. apply Qltb_false in Et.
  destruct (Nat.eqb_spec (length p0) (length c0)); [|discriminate].
  split; [discriminate|]. split; [discriminate|]. split; auto. split; [simpl; auto|].
  destruct (kmeans_loop metric (p0 :: t) tol itermax None [] (c0 :: ct)) as [cl ce].
  apply Ok_inj in H. auto.
Qed.

Lemma kmeans_first metric data tol m initial :
  kmeans_loop metric data tol (S m) None [] initial =
  kmeans_loop metric data tol m
    (kmeans_changes metric initial (kmeans_update_centers data (kmeans_update_clusters metric data initial)))
    (kmeans_update_clusters metric data initial)
    (kmeans_update_centers data (kmeans_update_clusters metric data initial)).
Proof. reflexivity. Qed.

Lemma kmeans_run_ok metric data initial tol itermax : data <> [] -> initial <> [] -> 1 <= itermax ->
  let '(cl, ce) := kmeans_loop metric data tol itermax None [] initial in
  kmeans_ok data (length initial) cl ce.
Proof.
  intros Hd Hi Hm. destruct itermax as [|m]; [lia|]. rewrite kmeans_first.
  apply kmeans_loop_ok; auto. apply kmeans_step_ok; auto.
Qed.

Theorem kmeans_process_ok metric data initial tol itermax clusters centers wce :
  kmeans_process metric data initial tol itermax = Ok (clusters, centers, wce) -> 1 <= itermax ->
  kmeans_ok data (length initial) clusters centers /\ (wce == cost metric data clusters centers)%Q.
Proof.
  intros H Hi. apply kmeans_process_inv in H as (Hd & Hin & Ht & _ & H).
  pose proof (kmeans_run_ok metric data initial tol itermax Hd Hin Hi) as Hok.
  destruct (kmeans_loop metric data tol itermax None [] initial) as [cl ce].
  inversion H; subst. split; auto. apply total_wce_cost. destruct Hok as (_ & _ & Hok & _). auto.
Qed.

(** ** the error does not grow *)
Definition uniform (dim : nat) (l : list point) : Prop := forall p, In p l -> length p = dim.

Section KmeansMonotone.
Variable data : list point.
Hypothesis data_ne : data <> [].
Hypothesis data_dim : uniform (dimension data) data.

Lemma kmeans_update_opt g c : g <> [] -> (forall i, In i g -> i < length data) -> length c = dimension data ->
  (qsum (map (fun i => sqdist (nth i data []) (mean_point (dimension data) (map (fun i => nth i data []) g))) g)
   <= qsum (map (fun i => sqdist (nth i data []) c) g))%Q.
Proof.
  intros Hg Hi Hc.
  pose proof (mean_optimal (map (fun i => nth i data []) g) (dimension data)
    (mean_point (dimension data) (map (fun i => nth i data []) g)) c) as H.
  rewrite !map_map in H. apply H; auto.
  - intros p Hp. apply in_map_iff in Hp as [i [<- Hig]]. apply data_dim, nth_In, Hi, Hig.
  - apply mean_is_mean. destruct g; [congruence|discriminate].
Qed.

Lemma kmeans_step_cost centers : centers <> [] -> uniform (dimension data) centers ->
  (cost sqdist data (kmeans_update_clusters sqdist data centers)
     (kmeans_update_centers data (kmeans_update_clusters sqdist data centers))
   <= qsum (map (best sqdist data centers) (seq 0 (length data))))%Q.
Proof.
  intros Hne Hu. rewrite kmeans_assign. unfold kmeans_update_centers.
  apply (step_cost_best sqdist data (fun cl => mean_point (dimension data) (map (fun i => nth i data []) cl))
           (fun c => length c = dimension data)); auto.
  - apply kmeans_update_opt.
  - apply Forall_forall. auto.
Qed.

Lemma kmeans_ok_uniform k0 clusters centers : kmeans_ok data k0 clusters centers ->
  centers <> [] /\ uniform (dimension data) centers.
Proof.
  intros (H1 & _ & H3 & _ & H5). split.
  - intro. subst. apply (partition_ne data data_ne clusters H1). destruct clusters; [auto|discriminate].
  - intros p Hp. apply (In_nth _ _ []) in Hp as [k [Hk <-]].
    assert (Hk' : k < length clusters) by (rewrite <- H3; exact Hk). apply H5 in Hk' as [Hk' _]. auto.
Qed.

Lemma kmeans_loop_cost tol k0 left : forall change clusters centers, kmeans_ok data k0 clusters centers ->
  (cost sqdist data (fst (kmeans_loop sqdist data tol left change clusters centers))
                    (snd (kmeans_loop sqdist data tol left change clusters centers))
   <= cost sqdist data clusters centers)%Q.
Proof.
  induction left as [|left IH]; intros change clusters centers H; cbn [kmeans_loop]; [simpl; lra|].
  destruct (exceeds change tol); [|simpl; lra].
  destruct (kmeans_ok_uniform _ _ _ H) as [Hne Hu].
  assert (Hl : length centers <= k0) by (destruct H as (_ & _ & H3 & H4 & _); lia).
  eapply Qle_trans; [apply IH; apply kmeans_step_ok; eauto|].
  eapply Qle_trans; [apply kmeans_step_cost; auto|]. apply cost_ge_best; destruct H as (H1 & _ & H3 & _); auto.
Qed.

Theorem kmeans_monotone initial tol m m' cl ce w cl' ce' w' : 1 <= m -> m <= m' ->
  kmeans_process sqdist data initial tol m = Ok (cl, ce, w) ->
  kmeans_process sqdist data initial tol m' = Ok (cl', ce', w') -> (w' <= w)%Q.
Proof.
  intros Hm Hmm H H'.
  destruct (kmeans_process_ok _ _ _ _ _ _ _ _ H Hm) as [Hok Hw].
  destruct (kmeans_process_ok _ _ _ _ _ _ _ _ H' ltac:(lia)) as [Hok' Hw'].
  rewrite Hw, Hw'.
  apply kmeans_process_inv in H as (_ & _ & _ & _ & H). apply kmeans_process_inv in H' as (_ & _ & _ & _ & H').
  replace m' with (m + (m' - m)) in H' by lia.
  destruct (kmeans_loop_more sqdist data tol m (m' - m) None [] initial) as [change' E]. rewrite E in H'.
  destruct (kmeans_loop sqdist data tol m None [] initial) as [cl0 ce0]. cbn [fst snd] in H'.
  inversion H; subst cl0 ce0.
  pose proof (kmeans_loop_cost tol (length initial) (m' - m) change' cl ce Hok) as Hc.
  destruct (kmeans_loop sqdist data tol (m' - m) change' cl ce) as [cl1 ce1]. inversion H'; subst. exact Hc.
Qed.

(** the first iteration is not worse than the assignment of every point to its nearest initial centre *)
Theorem kmeans_below_initial initial tol m cl ce w : 1 <= m -> uniform (dimension data) initial ->
  kmeans_process sqdist data initial tol m = Ok (cl, ce, w) ->
  forall label, (forall i, i < length data -> label i < length initial) ->
  (w <= qsum (map (fun i => sqdist (nth i data []) (nth (label i) initial [])) (seq 0 (length data))))%Q.
Proof.
  intros Hm Hu H label Hlab. destruct (kmeans_process_ok _ _ _ _ _ _ _ _ H Hm) as [Hok Hw].
  apply kmeans_process_inv in H as (_ & Hin & _ & _ & H). destruct m as [|m]; [lia|].
  rewrite kmeans_first in H. rewrite Hw.
  match type of H with context [kmeans_loop _ _ _ m ?c ?f ?g] =>
    pose proof (kmeans_loop_cost tol (length initial) m c f g (kmeans_step_ok sqdist data (length initial) initial Hin (le_n _))) as Hc;
    destruct (kmeans_loop sqdist data tol m c f g) as [cl1 ce1] end.
  inversion H; subst. cbn [fst snd] in Hc. eapply Qle_trans; [exact Hc|].
  eapply Qle_trans; [apply kmeans_step_cost; auto|]. apply qsum_le. intros i Hi. apply in_seq in Hi.
  destruct (argmin_nearest sqdist initial (nth i data []) Hin) as [_ Hn]. apply Hn. apply Hlab. lia.
Qed.


End KmeansMonotone.

(** ** Convergence with tolerance 0 *)

(** a list of all words of length [n] over [0..k-1] *)
Fixpoint words (n k : nat) : list (list nat) :=
  match n with
  | 0 => [[]]
  | S n' => flat_map (fun w => map (fun a => a :: w) (seq 0 k)) (words n' k)
  end.

Lemma words_in k n : forall w, length w = n -> (forall a, In a w -> a < k) -> In w (words n k).
Proof.
  induction n as [|n IH]; intros w Hl Ha; cbn [words].
  - destruct w; [simpl; auto|discriminate].
  - destruct w as [|a w]; [discriminate|]. apply in_flat_map. exists w. split.
    + apply IH; [simpl in Hl; lia|]. intros; apply Ha; simpl; auto.
    + apply in_map_iff. exists a. split; auto. apply in_seq. specialize (Ha a (or_introl eq_refl)). lia.
Qed.

Lemma groups_of_ext label label' n k : (forall i, i < n -> label i = label' i) -> groups_of label n k = groups_of label' n k.
Proof.
  intros H. unfold groups_of. apply map_ext. intros j. apply filter_ext_in. intros i Hi. apply in_seq in Hi.
  rewrite H by lia. reflexivity.
Qed.

(** all cluster lists an assignment can give, for up to [k] centres *)
Definition all_assignments (n k : nat) : list (list (list nat)) :=
  flat_map (fun j => map (fun w => filter nonempty (groups_of (fun i => nth i w 0) n j)) (words n j)) (seq 0 (S k)).

Lemma assign_in_all metric data centers k : centers <> [] -> length centers <= k ->
  In (assign metric data centers) (all_assignments (length data) k).
Proof.
  intros Hne Hk. unfold all_assignments. apply in_flat_map. exists (length centers). split; [apply in_seq; lia|].
  apply in_map_iff. unfold assign.
  exists (map (fun i => argmin (map (metric (nth i data [])) centers)) (seq 0 (length data))). split.
  - f_equal. apply groups_of_ext. intros i Hi. rewrite nth_map_seq0 by auto. reflexivity.
  - apply words_in; [now rewrite map_length, seq_length|]. intros a Ha. apply in_map_iff in Ha as [i [<- _]].
    apply argmin_nearest; auto.
Qed.

Section Converge.
Variable data : list point.
Hypothesis data_ne : data <> [].
Hypothesis data_dim : uniform (dimension data) data.
Variable initial : list point.
Hypothesis init_ne : initial <> [].

Let upc := kmeans_update_clusters sqdist data.
Let upm := kmeans_update_centers data.

(** centres after [t] unconditional iterations *)
Fixpoint run (t : nat) : list point :=
  match t with 0 => initial | S t' => upm (upc (run t')) end.
Definition grp (t : nat) : list (list nat) := match t with 0 => [] | S t' => upc (run t') end.
Definition chg (t : nat) : option Q := match t with 0 => None | S t' => kmeans_changes sqdist (run t') (run t) end.

Lemma loop_run tol left : forall t,
  ((forall u, t <= u < t + left -> exceeds (chg u) tol = true) /\
   kmeans_loop sqdist data tol left (chg t) (grp t) (run t) = (grp (t + left), run (t + left))) \/
  (exists u, t <= u < t + left /\ exceeds (chg u) tol = false /\ (forall v, t <= v < u -> exceeds (chg v) tol = true) /\
   kmeans_loop sqdist data tol left (chg t) (grp t) (run t) = (grp u, run u)).
Proof.
  induction left as [|left IH]; intros t.
  - left. split; [intros; lia|]. rewrite Nat.add_0_r. reflexivity.
  - cbn [kmeans_loop]. destruct (exceeds (chg t) tol) eqn:E.
    + destruct (IH (S t)) as [[H1 H2]|(u & H1 & H2 & H3 & H4)].
      * left. split.
        -- intros u Hu. destruct (Nat.eq_dec u t) as [->|]; auto. apply H1. lia.
        -- replace (t + S left) with (S t + left) by lia. exact H2.
      * right. exists u. split; [lia|]. split; auto. split; [|exact H4].
        intros v Hv. destruct (Nat.eq_dec v t) as [->|]; auto. apply H3. lia.
    + right. exists t. split; [lia|]. split; auto. split; [intros; lia|reflexivity].
Qed.

Lemma run_ok t : kmeans_ok data (length initial) (grp (S t)) (run (S t)) /\ run t <> [] /\ length (run t) <= length initial.
Proof.
  induction t as [|t [IH _]].
  - split; [|split; auto]. apply kmeans_step_ok; auto.
  - destruct (kmeans_ok_uniform data data_ne _ _ _ IH) as [Hne _].
    assert (Hl : length (run (S t)) <= length initial) by (destruct IH as (_ & _ & H3 & H4 & _); lia).
    split; [|split; auto]. apply kmeans_step_ok; auto.
Qed.

(** the centre really moves: then the cost goes down *)
Lemma mean_strict (pts : list point) dim m c : pts <> [] -> (forall p, In p pts -> length p = dim) ->
  is_mean dim pts m -> length c = dim ->
  (qsum (map (fun p => sqdist p m) pts) + sqdist c m * inject_Z (Z.of_nat (length pts)) == qsum (map (fun p => sqdist p c) pts))%Q.
Proof.
  intros Hne Hd [Hml Hm] Hc.
  rewrite (qsum_ext (fun p => sqdist p m) (fun p => qsum (map (fun d => (coord p d - coord m d) * (coord p d - coord m d)) (seq 0 dim)))%Q).
  2:{ intros p Hp. apply sqdist_sum; auto. }
  rewrite (qsum_ext (fun p => sqdist p c) (fun p => qsum (map (fun d => (coord p d - coord c d) * (coord p d - coord c d)) (seq 0 dim)))%Q).
  2:{ intros p Hp. apply sqdist_sum; auto. }
  rewrite !(qsum_swap _ pts). rewrite (sqdist_sum c m dim) by auto. rewrite Qmult_comm, <- qsum_scale, <- qsum_plus.
  apply qsum_ext. intros d Hd'. apply in_seq in Hd'. specialize (Hm d ltac:(lia)).
  set (mu := coord m d) in *. set (ga := coord c d).
  transitivity (qsum (map (fun p => (coord p d - mu) * (coord p d - mu) + (2 * (mu - ga) * (coord p d - mu) + (mu - ga) * (mu - ga))) pts))%Q.
  - rewrite qsum_plus, qsum_plus, qsum_scale, qsum_const.
    assert (E3 : (qsum (map (fun p => coord p d - mu) pts) == 0)%Q).
    { unfold Qminus. rewrite (qsum_plus (fun p => coord p d) (fun _ => (- mu)%Q)), <- Hm, qsum_const. ring. }
    rewrite E3. ring.
  - apply qsum_ext. intros p _. ring.
Qed.

Lemma qsum_lt {A} (f g : A -> Q) l x : In x l -> (forall y, In y l -> (f y <= g y)%Q) -> (f x < g x)%Q ->
  (qsum (map f l) < qsum (map g l))%Q.
Proof.
  induction l as [|y t IH]; intros Hx Hle Hlt; [contradiction|]. cbn [map qsum].
  assert (H1 : (f y <= g y)%Q) by (apply Hle; simpl; auto).
  assert (H2 : (qsum (map f t) <= qsum (map g t))%Q) by (apply qsum_le; intros; apply Hle; simpl; auto).
  destruct Hx as [->|Hx]; [lra|].
  assert (qsum (map f t) < qsum (map g t))%Q by (apply IH; auto; intros; apply Hle; simpl; auto). lra.
Qed.

Lemma cost_nth metric clusters centers : length clusters = length centers ->
  (cost metric data clusters centers ==
   qsum (map (fun k => qsum (map (fun i => metric (nth i data []) (nth k centers [])) (nth k clusters []))) (seq 0 (length clusters))))%Q.
Proof.
  intros H. rewrite <- total_wce_cost by auto. unfold total_wce. rewrite sumQ_qsum, qsum_concat, map_map. reflexivity.
Qed.

Lemma filter_full {A} (f : A -> bool) l : length (filter f l) = length l -> filter f l = l.
Proof.
  induction l as [|x t IH]; intros H; cbn [filter] in *; auto.
  destruct (f x); simpl in H; [rewrite IH by lia; auto|]. pose proof (filter_length_le' f t). lia.
Qed.

Lemma assign_full metric centers : length (assign metric data centers) = length centers ->
  assign metric data centers = groups_of (fun i => argmin (map (metric (nth i data [])) centers)) (length data) (length centers).
Proof.
  intros H. unfold assign in *. apply filter_full. rewrite H. unfold groups_of. now rewrite map_length, seq_length.
Qed.

Lemma maxQ_from_in l : forall x, fold_left (fun m v => if Qltb m v then v else m) l x = x \/
  In (fold_left (fun m v => if Qltb m v then v else m) l x) l.
Proof.
  induction l as [|y t IH]; intros x; cbn [fold_left]; auto.
  destruct (IH (if Qltb x y then y else x)) as [H|H]; [|right; simpl; auto].
  destruct (Qltb x y); [right; left; symmetry; exact H|left; exact H].
Qed.

Lemma maxQ_in l : l <> [] -> In (maxQ l) l.
Proof.
  destruct l as [|x t]; [congruence|]. intros _. unfold maxQ. destruct (maxQ_from_in t x) as [H|H].
  - left. symmetry. exact H.
  - right. exact H.
Qed.

Lemma maxQ_from_ge l : forall x, (x <= fold_left (fun m v => if Qltb m v then v else m) l x)%Q /\
  forall y, In y l -> (y <= fold_left (fun m v => if Qltb m v then v else m) l x)%Q.
Proof.
  induction l as [|z t IH]; intros x; cbn [fold_left]; [split; [lra|contradiction]|].
  destruct (IH (if Qltb x z then z else x)) as [H1 H2].
  assert (Hx : (x <= if Qltb x z then z else x)%Q /\ (z <= if Qltb x z then z else x)%Q).
  { destruct (Qltb x z) eqn:E; [apply Qltb_true in E|apply Qltb_false in E]; split; lra. }
  split; [lra|]. intros y [<-|Hy]; [lra|auto].
Qed.

Lemma maxQ_ge l y : In y l -> (y <= maxQ l)%Q.
Proof.
  destruct l as [|x t]; [contradiction|]. unfold maxQ. destruct (maxQ_from_ge t x) as [H1 H2]. intros [<-|H]; auto.
Qed.

Lemma combine_nth_in {A B} (l : list A) (l' : list B) p d d' : length l = length l' -> In p (combine l l') ->
  exists k, k < length l /\ p = (nth k l d, nth k l' d').
Proof.
  intros H Hp. apply (In_nth _ _ (d, d')) in Hp as [k [Hk E]]. rewrite combine_length in Hk.
  rewrite combine_nth in E by auto. exists k. split; [lia|auto].
Qed.

Lemma run_strict t : length (run (S (S t))) = length (run (S t)) -> exceeds (chg (S (S t))) 0 = true ->
  (cost sqdist data (grp (S (S t))) (run (S (S t))) < cost sqdist data (grp (S t)) (run (S t)))%Q.
Proof.
  intros Hlen Hex.
  destruct (run_ok t) as [Hok _]. destruct (run_ok (S t)) as [Hok' _].
  destruct (kmeans_ok_uniform data data_ne _ _ _ Hok) as [Hne Hu].
  destruct (kmeans_ok_uniform data data_ne _ _ _ Hok') as [_ Hu'].
  remember (run (S t)) as ce eqn:Ece.
  assert (Eg : grp (S (S t)) = assign sqdist data ce).
  { unfold grp, upc. rewrite kmeans_assign. now rewrite <- Ece. }
  assert (Er : run (S (S t)) = upm (assign sqdist data ce)).
  { change (run (S (S t))) with (upm (upc (run (S t)))). rewrite <- Ece. unfold upc. now rewrite kmeans_assign. }
  assert (Hfull : length (assign sqdist data ce) = length ce).
  { rewrite Er in Hlen. unfold upm, kmeans_update_centers in Hlen. rewrite map_length in Hlen. exact Hlen. }
  assert (Hlen2 : length (grp (S (S t))) = length (run (S (S t)))) by (destruct Hok' as (_ & _ & H3 & _); auto).
  assert (Hlast : (qsum (map (best sqdist data ce) (seq 0 (length data))) <= cost sqdist data (grp (S t)) ce)%Q).
  { destruct Hok as (H1 & _ & H3 & _). apply cost_ge_best; auto. }
  assert (Hmid : (cost sqdist data (grp (S (S t))) ce <= qsum (map (best sqdist data ce) (seq 0 (length data))))%Q).
  { rewrite cost_nth by (rewrite Eg; exact Hfull).
    assert (Ep : (qsum (map (best sqdist data ce) (concat (grp (S (S t))))) == qsum (map (best sqdist data ce) (seq 0 (length data))))%Q).
    { apply qsum_perm, Permutation_map. destruct Hok' as (H1 & _). exact H1. }
    rewrite <- Ep, concat_map, qsum_concat, map_map.
    assert (Em : (qsum (map (fun g => qsum (map (best sqdist data ce) g)) (grp (S (S t)))) ==
       qsum (map (fun k => qsum (map (best sqdist data ce) (nth k (grp (S (S t))) []))) (seq 0 (length (grp (S (S t)))))))%Q).
    { rewrite <- (map_map (fun k => nth k (grp (S (S t))) []) (fun g => qsum (map (best sqdist data ce) g))).
      assert (En : map (fun k => nth k (grp (S (S t))) []) (seq 0 (length (grp (S (S t))))) = grp (S (S t))).
      { apply nth_ext with (d := []) (d' := []); [now rewrite map_length, seq_length|].
        intros j Hj. rewrite map_length, seq_length in Hj. now rewrite nth_map_seq0. }
      rewrite En. reflexivity. }
    rewrite Em. apply qsum_le. intros k Hk. apply in_seq in Hk. apply qsum_le. intros i Hi.
    rewrite Eg, assign_full in Hi by exact Hfull. unfold groups_of in Hi.
    assert (Hk' : k < length ce) by (rewrite Eg, Hfull in Hk; lia).
    rewrite nth_map_seq0 in Hi by exact Hk'. apply filter_In in Hi as [_ Hi]. apply Nat.eqb_eq in Hi.
    unfold best. rewrite Hi. lra. }
  assert (Hstrict : (cost sqdist data (grp (S (S t))) (run (S (S t))) < cost sqdist data (grp (S (S t))) ce)%Q).
  { rewrite (cost_nth sqdist (grp (S (S t))) ce) by (rewrite Eg; exact Hfull). rewrite cost_nth by exact Hlen2.
    assert (Hbal : forall k, k < length (grp (S (S t))) ->
      (qsum (map (fun i => sqdist (nth i data []) (nth k (run (S (S t))) [])) (nth k (grp (S (S t))) []))
       + sqdist (nth k ce []) (nth k (run (S (S t))) []) * inject_Z (Z.of_nat (length (nth k (grp (S (S t))) []))) ==
       qsum (map (fun i => sqdist (nth i data []) (nth k ce [])) (nth k (grp (S (S t))) [])))%Q
      /\ nth k (grp (S (S t))) [] <> []).
    { intros k Hk. destruct Hok' as (H1 & H2 & H3 & H4 & H5).
      assert (Hgne : nth k (grp (S (S t))) [] <> []).
      { unfold no_empty in H2. rewrite Forall_forall in H2. apply H2. apply nth_In. exact Hk. }
      split; [|exact Hgne].
      specialize (H5 k Hk).
      pose proof (mean_strict (map (fun i => nth i data []) (nth k (grp (S (S t))) [])) (dimension data)
         (nth k (run (S (S t))) []) (nth k ce [])) as Hms.
      rewrite !map_map, map_length in Hms. apply Hms; auto.
      - destruct (nth k (grp (S (S t))) []); [congruence|discriminate].
      - intros p Hp. apply in_map_iff in Hp as [i [<- Hig]]. apply data_dim, nth_In.
        assert (Hin : In i (concat (grp (S (S t))))) by (apply in_concat; exists (nth k (grp (S (S t))) []); split; [apply nth_In; exact Hk|exact Hig]).
        apply (Permutation_in _ H1) in Hin. apply in_seq in Hin. lia.
      - apply Hu. apply nth_In. rewrite Eg, Hfull in Hk. exact Hk. }
    unfold chg, kmeans_changes in Hex. fold (run (S (S t))) in Hex. rewrite <- Ece in Hex.
    replace (length ce =? length (run (S (S t)))) with true in Hex by (symmetry; apply Nat.eqb_eq; auto).
    cbn [exceeds] in Hex. apply Qltb_true in Hex.
    assert (Hin : In (maxQ (map (fun cu => sqdist (fst cu) (snd cu)) (combine ce (run (S (S t))))))
                     (map (fun cu => sqdist (fst cu) (snd cu)) (combine ce (run (S (S t)))))).
    { apply maxQ_in. destruct ce; [congruence|]. destruct (run (S (S t))); discriminate. }
    apply in_map_iff in Hin as [cu [Ecu Hcu]]. rewrite <- Ecu in Hex.
    destruct (combine_nth_in ce (run (S (S t))) cu [] [] (eq_sym Hlen) Hcu) as [k [Hk ->]]. cbn [fst snd] in Hex.
    assert (Hk2 : k < length (grp (S (S t)))) by (rewrite Eg, Hfull; exact Hk).
    apply (qsum_lt _ _ _ k); [apply in_seq; lia| |].
    - intros j Hj. apply in_seq in Hj. destruct (Hbal j ltac:(lia)) as [Hb _]. rewrite <- Hb.
      assert (0 <= sqdist (nth j ce []) (nth j (run (S (S t))) []) * inject_Z (Z.of_nat (length (nth j (grp (S (S t))) []))))%Q; [|lra].
      apply Qmult_le_0_compat; [apply sqdist_nonneg|]. change 0%Q with (inject_Z 0). rewrite <- Zle_Qle. lia.
    - destruct (Hbal k Hk2) as [Hb Hnek]. rewrite <- Hb.
      assert (0 < sqdist (nth k ce []) (nth k (run (S (S t))) []) * inject_Z (Z.of_nat (length (nth k (grp (S (S t))) []))))%Q; [|lra].
      apply Qmult_lt_0_compat; [exact Hex|]. change 0%Q with (inject_Z 0). rewrite <- Zlt_Qlt.
      destruct (nth k (grp (S (S t))) []); [congruence|simpl; lia]. }
  lra.
Qed.

Lemma run_length_le t s : t <= s -> length (run s) <= length (run t).
Proof.
  induction 1 as [|s H IH]; auto. etransitivity; [|exact IH].
  change (run (S s)) with (upm (upc (run s))). unfold upm, upc, kmeans_update_centers. rewrite map_length, kmeans_assign.
  apply assign_length.
Qed.

Lemma grp_distinct T : (forall u, u < T -> exceeds (chg u) 0 = true) ->
  forall s t, s < t -> S t < T -> grp (S s) <> grp (S t).
Proof.
  intros Hex s t Hst Ht E.
  assert (Er : run (S s) = run (S t)).
  { change (run (S s)) with (upm (grp (S s))). change (run (S t)) with (upm (grp (S t))). now rewrite E. }
  assert (H : forall d, s + S d <= t -> (cost sqdist data (grp (S (s + S d))) (run (S (s + S d))) < cost sqdist data (grp (S s)) (run (S s)))%Q).
  { assert (Hstep : forall v, s <= v < t -> (cost sqdist data (grp (S (S v))) (run (S (S v))) < cost sqdist data (grp (S v)) (run (S v)))%Q).
    { intros v Hv. apply run_strict; [|apply Hex; lia].
      pose proof (run_length_le (S s) (S v) ltac:(lia)). pose proof (run_length_le (S v) (S (S v)) ltac:(lia)).
      pose proof (run_length_le (S (S v)) (S t) ltac:(lia)). rewrite Er in *. lia. }
    induction d as [|d IHd]; intros Hd.
    - replace (s + 1) with (S s) by lia. apply Hstep. lia.
    - replace (s + S (S d)) with (S (s + S d)) by lia. eapply Qlt_trans; [apply Hstep; lia|apply IHd; lia]. }
  specialize (H (t - s - 1) ltac:(lia)). replace (s + S (t - s - 1)) with t in H by lia.
  rewrite E, Er in H. lra.
Qed.

Theorem kmeans_stops : let B := length (all_assignments (length data) (length initial)) + 3 in
  exists u, u < B /\ exceeds (chg u) 0 = false.
Proof.
  cbn zeta. set (L := all_assignments (length data) (length initial)).
  destruct (loop_run 0 (length L + 3) 0) as [[H _]|(u & H1 & H2 & _)].
  2:{ exists u. split; auto. lia. }
  exfalso.
  assert (Hnd : NoDup (map (fun s => grp (S s)) (seq 0 (length L + 1)))).
  { assert (Hg : forall m, m <= length L + 1 -> NoDup (map (fun s => grp (S s)) (seq 0 m))).
    { induction m as [|m IHm]; intros Hm; [constructor|]. rewrite seq_S, map_app. simpl. apply NoDup_app_snoc; [apply IHm; lia|].
      intros Hin. apply in_map_iff in Hin as [s [E Hs]]. apply in_seq in Hs. revert E. apply (grp_distinct (length L + 3)); try lia.
      intros v Hv. apply H. lia. }
    apply Hg; auto. }
  assert (Hincl : incl (map (fun s => grp (S s)) (seq 0 (length L + 1))) L).
  { intros g Hg. apply in_map_iff in Hg as [s [<- _]]. destruct (run_ok s) as (_ & Hne & Hl).
    change (grp (S s)) with (upc (run s)). unfold upc. rewrite kmeans_assign. apply assign_in_all; auto. }
  pose proof (NoDup_incl_length Hnd Hincl) as Hl. rewrite map_length, seq_length in Hl. lia.
Qed.

(** the result does not depend on the limit once the limit is large *)
Theorem kmeans_converges : exists B, forall m, B <= m ->
  kmeans_loop sqdist data 0 m None [] initial = kmeans_loop sqdist data 0 B None [] initial.
Proof.
  destruct kmeans_stops as (u0 & _ & Hu0). exists (S u0). intros m Hm.
  destruct (loop_run 0 m 0) as [[H _]|(u & H1 & H2 & H3 & H4)].
  { rewrite H in Hu0 by lia. discriminate. }
  destruct (loop_run 0 (S u0) 0) as [[H _]|(v & K1 & K2 & K3 & K4)].
  { rewrite H in Hu0 by lia. discriminate. }
  change (chg 0) with (@None Q) in *. change (grp 0) with (@nil (list nat)) in *. change (run 0) with initial in *.
  rewrite H4, K4.
  destruct (lt_eq_lt_dec u v) as [[Hlt| ->]|Hlt]; auto.
  - rewrite K3 in H2 by lia. discriminate.
  - rewrite H3 in K2 by lia. discriminate.
Qed.

(** every point of a cluster is nearest to the cluster's own centre *)
Definition locally_optimal (clusters : list (list nat)) (centers : list point) : Prop :=
  forall k i, k < length clusters -> In i (nth k clusters []) -> nearest sqdist centers (nth i data []) k.

Lemma sqdist_peq_r a b b' : peq b b' -> (sqdist a b == sqdist a b')%Q.
Proof. intros H. rewrite sqdist_sym, (sqdist_peq_l b b' a H). apply sqdist_sym. Qed.

Lemma stop_optimal u : exceeds (chg u) 0 = false -> uniform (dimension data) initial -> locally_optimal (grp u) (run u).
Proof.
  intros Hex Hui. destruct u as [|t]; [discriminate|].
  destruct (run_ok t) as (Hok & Hne & Hl).
  destruct (kmeans_ok_uniform data data_ne _ _ _ Hok) as [Hne' Hu'].
  assert (Hu : uniform (dimension data) (run t)).
  { destruct t; auto. destruct (run_ok t) as (Hokt & _). apply (kmeans_ok_uniform data data_ne _ _ _ Hokt). }
  unfold chg, kmeans_changes in Hex. fold (run (S t)) in Hex.
  destruct (Nat.eqb_spec (length (run t)) (length (run (S t)))) as [El|]; [|discriminate].
  cbn [exceeds] in Hex. apply Qltb_false in Hex.
  assert (Hpe : forall k, k < length (run t) -> peq (nth k (run t) []) (nth k (run (S t)) [])).
  { intros k Hk. apply sqdist_zero.
    - rewrite (Hu (nth k (run t) [])) by (apply nth_In; auto). symmetry. apply Hu'. apply nth_In. rewrite <- El. exact Hk.
    - assert (Hin : In (sqdist (nth k (run t) []) (nth k (run (S t)) [])) (map (fun cu => sqdist (fst cu) (snd cu)) (combine (run t) (run (S t))))).
      { apply in_map_iff. exists (nth k (run t) [], nth k (run (S t)) []). split; auto.
        rewrite <- combine_nth by exact El. apply nth_In. rewrite combine_length, <- El, Nat.min_id. exact Hk. }
      apply maxQ_ge in Hin. pose proof (sqdist_nonneg (nth k (run t) []) (nth k (run (S t)) [])). lra. }
  assert (Hfull : length (assign sqdist data (run t)) = length (run t)).
  { change (run (S t)) with (upm (upc (run t))) in El. unfold upm, upc, kmeans_update_centers in El.
    rewrite map_length, kmeans_assign in El. auto. }
  intros k i Hk Hi. change (grp (S t)) with (upc (run t)) in *. unfold upc in *. rewrite kmeans_assign in *.
  rewrite assign_full in Hi by exact Hfull. assert (Hk' : k < length (run t)) by (rewrite <- Hfull; exact Hk).
  unfold groups_of in Hi. rewrite nth_map_seq0 in Hi by exact Hk'. apply filter_In in Hi as [_ Hi]. apply Nat.eqb_eq in Hi.
  destruct (argmin_nearest sqdist (run t) (nth i data []) Hne) as [_ Hn]. rewrite Hi in Hn.
  split; [rewrite <- El; exact Hk'|]. intros j Hj. rewrite <- El in Hj.
  rewrite <- (sqdist_peq_r _ _ _ (Hpe k Hk')), <- (sqdist_peq_r _ _ _ (Hpe j Hj)). auto.
Qed.

Theorem kmeans_converges_optimal : uniform (dimension data) initial ->
  exists B, forall m, B <= m ->
  let r := kmeans_loop sqdist data 0 m None [] initial in
  r = kmeans_loop sqdist data 0 B None [] initial /\ locally_optimal (fst r) (snd r).
Proof.
  intros Hui. destruct kmeans_stops as (u0 & _ & Hu0). exists (S u0).
  assert (H : forall m, S u0 <= m -> exists u, exceeds (chg u) 0 = false /\ (forall v, v < u -> exceeds (chg v) 0 = true) /\
    kmeans_loop sqdist data 0 m None [] initial = (grp u, run u)).
  { intros m Hm. destruct (loop_run 0 m 0) as [[H _]|(u & H1 & H2 & H3 & H4)].
    { rewrite H in Hu0 by lia. discriminate. }
    exists u. split; auto. split; auto. intros v Hv. apply H3. lia. }
  intros m Hm. cbn zeta. destruct (H m Hm) as (u & H1 & H2 & H3). destruct (H (S u0) (le_n _)) as (v & K1 & K2 & K3).
  rewrite H3, K3. assert (u = v) as ->.
  { destruct (lt_eq_lt_dec u v) as [[Hlt|E]|Hlt]; auto; [rewrite K2 in H1 by auto|rewrite H2 in K1 by auto]; discriminate. }
  split; auto. apply stop_optimal; auto.
Qed.
End Converge.
