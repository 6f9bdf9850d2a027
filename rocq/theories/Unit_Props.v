(** C243: algorithms that compute centres or cells give the same clusters, and the
    centres in the new coordinates, when all data are moved and measured in
    another unit. *)
From Verif Require Import Base Kmeans_Model Kmedoids_Model Bsas_Model Clique_Model Aggl_Model Kmeans_Proofs Scaled_Proofs.
Open Scope nat_scope.

(** ** specification *)
(** [q] is the point [p] in the unit of which [s] make an old one, measured from the new origin *)
Definition moved (s : Q) (v p q : point) : Prop :=
  length p = length v /\ length q = length v /\ forall d, d < length v -> (coord q d == s * coord p d + coord v d)%Q.

Definition same_run {A B} (same : A -> B -> Prop) (r : res A) (r' : res B) : Prop :=
  match r, r' with Ok a, Ok b => same a b | Raise e, Raise e' => e' = e | _, _ => False end.

(** same clusters, centres moved, errors multiplied *)
Definition same_partition (s m : Q) (v : point) (r r' : list (list nat) * list point * Q) : Prop :=
  let '(cl, ce, w) := r in let '(cl', ce', w') := r' in cl' = cl /\ Forall2 (moved s v) ce ce' /\ (w' == m * w)%Q.

Lemma both_length {A B} (R : A -> B -> Prop) l l' : Forall2 R l l' -> length l' = length l.
Proof. induction 1; cbn [length]; congruence. Qed.

(** ** points *)
Section Moved.
Variables (s : Q) (v : point).
Hypothesis Hs : (0 < s)%Q.

Lemma moved_sqdist p q p' q' : moved s v p q -> moved s v p' q' -> (sqdist q q' == s * s * sqdist p p')%Q.
Proof.
  clear Hs. revert p q p' q'. induction v as [|x u IH]; intros p q p' q' (A1 & A2 & A3) (B1 & B2 & B3).
  - destruct p, q, p', q'; try discriminate. cbn. ring.
  - destruct p as [|a p], q as [|b q], p' as [|a' p'], q' as [|b' q']; try discriminate. cbn [sqdist].
    pose proof (A3 0 ltac:(cbn; lia)) as E. pose proof (B3 0 ltac:(cbn; lia)) as E'. unfold coord in E, E'. cbn [nth] in E, E'. rewrite E, E'.
    rewrite (IH p q p' q'); [ring| |]; (split; [cbn in *; lia|split; [cbn in *; lia|]]); intros d Hd; [apply (A3 (S d))|apply (B3 (S d))]; cbn; lia.
Qed.
Lemma moved_manhattan p q p' q' : moved s v p q -> moved s v p' q' -> (manhattan q q' == s * manhattan p p')%Q.
Proof.
  revert p q p' q'. induction v as [|x u IH]; intros p q p' q' (A1 & A2 & A3) (B1 & B2 & B3).
  - destruct p, q, p', q'; try discriminate. cbn. ring.
  - destruct p as [|a p], q as [|b q], p' as [|a' p'], q' as [|b' q']; try discriminate. cbn [manhattan].
    pose proof (A3 0 ltac:(cbn; lia)) as E. pose proof (B3 0 ltac:(cbn; lia)) as E'. unfold coord in E, E'. cbn [nth] in E, E'.
    rewrite (IH p q p' q'); [| |]; [|(split; [cbn in *; lia|split; [cbn in *; lia|]]); intros d Hd; [apply (A3 (S d))]; cbn; lia|(split; [cbn in *; lia|split; [cbn in *; lia|]]); intros d Hd; [apply (B3 (S d))]; cbn; lia].
    assert (W : (b - b' == s * (a - a'))%Q) by (rewrite E, E'; ring). rewrite W, Qabs_Qmult. rewrite (Qabs_pos s) by lra. ring.
Qed.

Lemma nth_moved l l' : Forall2 (moved s v) l l' -> forall i, i < length l -> moved s v (nth i l []) (nth i l' []).
Proof. induction 1 as [|p q l l' Hp Hl IH]; intros [|i] Hi; cbn [nth length] in *; auto; try lia. apply IH. lia. Qed.

Lemma mean_coord dim pts d : d < dim -> coord (mean_point dim pts) d = (sumQ (map (fun p => coord p d) pts) / inject_Z (Z.of_nat (length pts)))%Q.
Proof. intro Hd. unfold coord at 1. unfold mean_point. now rewrite nth_map_seq0 by exact Hd. Qed.

Lemma moved_mean pts pts' : pts <> [] -> Forall2 (moved s v) pts pts' -> moved s v (mean_point (length v) pts) (mean_point (length v) pts').
Proof.
  intros Hne H. split; [unfold mean_point; now rewrite map_length, seq_length|]. split; [unfold mean_point; now rewrite map_length, seq_length|]. intros d Hd. rewrite !mean_coord by exact Hd.
  assert (L : length pts' = length pts) by (clear Hne; induction H; cbn [length]; congruence). rewrite L.
  assert (E : (qsum (map (fun p => coord p d) pts') == s * qsum (map (fun p => coord p d) pts) + coord v d * inject_Z (Z.of_nat (length pts)))%Q).
  { clear Hne L. induction H as [|p q l l' Hp Hl IH].
    - cbn. ring.
    - cbn [map length]. unfold qsum in *. cbn [fold_right]. rewrite IH. destruct Hp as (_ & _ & Hp). rewrite (Hp d Hd). rewrite Nat2Z.inj_succ. unfold Z.succ. rewrite inject_Z_plus. ring. }
  rewrite !sumQ_qsum, E. field. intro Hz. destruct pts as [|p0 t]; [apply Hne; reflexivity|]. cbn [length] in Hz. unfold Qeq, inject_Z in Hz. cbn in Hz. lia.
Qed.

(** ** k-means and k-medians, for a metric that is multiplied by [m] *)
Section Means.
Variables (metric : point -> point -> Q) (m : Q).
Hypothesis Hm : (0 < m)%Q.
Hypothesis Hmetric : forall p q p' q', moved s v p q -> moved s v p' q' -> (metric q q' == m * metric p p')%Q.
Variables data data' : list point.
Hypothesis Hdata : Forall2 (moved s v) data data'.

Lemma data_length : length data' = length data.
Proof. apply (both_length _ _ _ Hdata). Qed.

Lemma labels_same centers centers' i : Forall2 (moved s v) centers centers' -> i < length data ->
  argmin (map (metric (nth i data' [])) centers') = argmin (map (metric (nth i data [])) centers).
Proof.
  intros H Hi. apply (times_argmin m Hm). pose proof (nth_moved _ _ Hdata i Hi) as Hp. induction H as [|c c' l l' Hc Hl IH]; cbn [map]; constructor; auto. apply Hmetric; assumption.
Qed.

Lemma clusters_same centers centers' : Forall2 (moved s v) centers centers' -> kmeans_update_clusters metric data' centers' = kmeans_update_clusters metric data centers.
Proof.
  intro H. unfold kmeans_update_clusters. rewrite data_length. assert (L : length centers' = length centers) by (induction H; cbn [length]; congruence). rewrite L. f_equal.
  generalize (repeat (@nil nat) (length centers)). assert (G : forall l, (forall i, In i l -> i < length data) -> forall cl,
    fold_left (fun cl i => push cl (argmin (map (metric (nth i data' [])) centers')) i) l cl = fold_left (fun cl i => push cl (argmin (map (metric (nth i data [])) centers)) i) l cl).
  { induction l as [|i t IH]; intros Hi cl; cbn [fold_left]; [reflexivity|]. rewrite (labels_same _ _ i H) by (apply Hi; left; reflexivity). apply IH. intros j Hj. apply Hi. right. exact Hj. }
  apply G. intros i Hi. apply in_seq in Hi. lia.
Qed.

Lemma points_moved g : (forall i, In i g -> i < length data) -> Forall2 (moved s v) (map (fun i => nth i data []) g) (map (fun i => nth i data' []) g).
Proof. induction g as [|i t IH]; intro H; cbn [map]; constructor; [apply nth_moved; [exact Hdata|apply H; left; reflexivity]|]. apply IH. intros; apply H; right; assumption. Qed.

Hypothesis Hne : data <> [].
Lemma dimension_v : dimension data = length v /\ dimension data' = length v.
Proof. unfold dimension. destruct Hdata as [|p q l l' Hp Hl]; [congruence|]. cbn [nth]. destruct Hp as (A & B & _). auto. Qed.

Definition valid_groups (clusters : list (list nat)) : Prop := forall g, In g clusters -> g <> [] /\ forall i, In i g -> i < length data.

Lemma centers_moved clusters : valid_groups clusters -> Forall2 (moved s v) (kmeans_update_centers data clusters) (kmeans_update_centers data' clusters).
Proof.
  intro H. unfold kmeans_update_centers. destruct dimension_v as (-> & ->). induction clusters as [|g t IH]; cbn [map]; constructor.
  - destruct (H g (or_introl eq_refl)) as (G1 & G2). apply moved_mean; [destruct g; [congruence|discriminate]|]. apply points_moved. exact G2.
  - apply IH. intros g' Hg. apply H. right. exact Hg.
Qed.

Lemma update_valid centers : centers <> [] -> valid_groups (kmeans_update_clusters metric data centers).
Proof.
  intro Hc. rewrite kmeans_assign. intros g Hg. split.
  - pose proof (assign_no_empty metric data centers) as N. unfold no_empty in N. rewrite Forall_forall in N. apply N. exact Hg.
  - intros i Hi. pose proof (assign_partition metric data centers Hc) as P. assert (W : In i (concat (assign metric data centers))) by (apply in_concat; eauto).
    apply (Permutation_in _ P), in_seq in W. lia.
Qed.

Lemma changes_times centers centers' up up' : Forall2 (moved s v) centers centers' -> Forall2 (moved s v) up up' -> times_opt m (kmeans_changes metric centers up) (kmeans_changes metric centers' up').
Proof.
  intros H1 H2. unfold kmeans_changes. assert (L1 : length centers' = length centers) by (induction H1; cbn [length]; congruence). assert (L2 : length up' = length up) by (induction H2; cbn [length]; congruence).
  rewrite L1, L2. destruct (length centers =? length up); [|exact I]. cbn [times_opt]. apply (times_max m Hm).
  revert up up' H2 L1 L2. induction H1 as [|c c' l l' Hc Hl IH]; intros up up' H2 _ _; cbn [combine map]; [constructor|]. destruct H2 as [|u u' k k' Hu Hk]; cbn [map]; constructor; cbn [fst snd].
  - apply Hmetric; assumption.
  - apply IH; auto. + clear - Hl. induction Hl; cbn [length]; congruence. + clear - Hk. induction Hk; cbn [length]; congruence.
Qed.

Lemma exceeds_times change change' tol tol' : times_opt m change change' -> times m tol tol' -> exceeds change' tol' = exceeds change tol.
Proof. intros H Ht. destruct change, change'; cbn [times_opt exceeds] in *; try contradiction; [apply (scale_ltb m Hm); assumption|reflexivity]. Qed.

Lemma wce_times clusters centers centers' : valid_groups clusters -> length centers = length clusters -> Forall2 (moved s v) centers centers' ->
  times m (total_wce metric data clusters centers) (total_wce metric data' clusters centers').
Proof.
  intros Hv L H. unfold total_wce. apply times_sum.
  assert (G : forall l, (forall k, In k l -> k < length clusters) -> Forall2 (times m)
    (concat (map (fun k => map (fun i => metric (nth i data []) (nth k centers [])) (nth k clusters [])) l))
    (concat (map (fun k => map (fun i => metric (nth i data' []) (nth k centers' [])) (nth k clusters [])) l))).
  { induction l as [|k t IH]; intro Hk; cbn [map concat]; [constructor|]. apply Forall2_app; [|apply IH; intros; apply Hk; right; assumption].
    assert (Hkl : k < length clusters) by (apply Hk; left; reflexivity). apply map_times. intros i Hi. apply Hmetric.
    - apply nth_moved; [exact Hdata|]. apply (Hv (nth k clusters [])); [apply nth_In; exact Hkl|exact Hi].
    - apply nth_moved; [exact H|]. unfold point in *. lia. }
  apply G. intros k Hk. apply in_seq in Hk. lia.
Qed.

Lemma loop_same tol tol' : times m tol tol' -> forall left change change' clusters centers centers', times_opt m change change' -> centers <> [] ->
  Forall2 (moved s v) centers centers' -> valid_groups clusters -> (length centers = length clusters \/ clusters = []) ->
  let '(cl, ce) := kmeans_loop metric data tol left change clusters centers in let '(cl', ce') := kmeans_loop metric data' tol' left change' clusters centers' in
  cl' = cl /\ Forall2 (moved s v) ce ce' /\ valid_groups cl /\ (length ce = length cl \/ cl = []).
Proof.
  intro Ht. induction left as [|left IH]; intros change change' clusters centers centers' Hc Hne' H Hv HL; cbn [kmeans_loop]; [auto|].
  rewrite (exceeds_times _ _ _ _ Hc Ht). destruct (exceeds change tol); [|auto]. cbv zeta. rewrite (clusters_same _ _ H).
  pose proof (update_valid centers Hne') as Hv'. pose proof (centers_moved _ Hv') as Hu. apply IH; auto.
  - apply changes_times; assumption.
  - unfold kmeans_update_centers. intro E. apply map_eq_nil in E. rewrite kmeans_assign in E. pose proof (assign_partition metric data centers Hne') as P. rewrite E in P. cbn in P. apply Permutation_nil in P.
    destruct data; [congruence|discriminate].
  - left. unfold kmeans_update_centers. now rewrite map_length.
Qed.

Lemma kmeans_same initial initial' tol tol' itermax : times m tol tol' -> Forall2 (moved s v) initial initial' ->
  same_run (same_partition s m v) (kmeans_process metric data initial tol itermax) (kmeans_process metric data' initial' tol' itermax).
Proof.
  intros Ht H. unfold kmeans_process. pose proof dimension_v as DV. pose proof data_length as DL. destruct data as [|p0 dt] eqn:Ed; [congruence|]. destruct data' as [|q0 dt'] eqn:Ed'; [discriminate|]. rewrite <- Ed, <- Ed' in *.
  destruct initial as [|c0 it] eqn:Ei; [inversion H; reflexivity|]. destruct initial' as [|c0' it'] eqn:Ei'; [inversion H|]. rewrite <- Ei, <- Ei' in *.
  rewrite (scale_ltb0 m Hm _ _ Ht). destruct (Qltb tol 0); [reflexivity|].
  assert (Lp : length p0 = length v /\ length q0 = length v) by (unfold dimension in DV; rewrite Ed, Ed' in DV; exact DV).
  assert (Lc : length c0 = length v /\ length c0' = length v) by (rewrite Ei, Ei' in H; inversion H as [|? ? ? ? Hc]; subst; destruct Hc as (A & B & _); auto).
  destruct Lp as (-> & ->), Lc as (-> & ->). rewrite Nat.eqb_refl.
  pose proof (loop_same tol tol' Ht itermax None None [] initial initial' I) as W.
  destruct (kmeans_loop metric data tol itermax None [] initial) as [cl ce], (kmeans_loop metric data' tol' itermax None [] initial') as [cl' ce'].
  destruct W as (-> & W1 & W2 & W3); auto; [rewrite Ei; discriminate|intros g []|]. cbn [same_run same_partition]. split; [reflexivity|]. split; [exact W1|].
  destruct W3 as [W3| ->]; [apply wce_times; assumption|]. unfold total_wce. cbn. ring.
Qed.

(** *** k-medians *)
Lemma sort_same (key key' : nat -> Q) l : (forall i j, In i l -> In j l -> Qle_bool (key' i) (key' j) = Qle_bool (key i) (key j)) -> sort_key key' l = sort_key key l.
Proof.
  unfold sort_key. induction l as [|x t IH]; intro H; cbn [fold_right]; [reflexivity|].
  rewrite IH by (intros; apply H; right; assumption). fold (sort_key key t).
  assert (G : forall l', (forall y, In y l' -> In y t) -> ins_key key' x l' = ins_key key x l').
  { induction l' as [|y l' IH']; intro Hl; cbn [ins_key]; [reflexivity|]. rewrite (H x y) by (try (left; reflexivity); right; apply Hl; left; reflexivity).
    destruct (Qle_bool (key x) (key y)); [reflexivity|]. f_equal. apply IH'. intros; apply Hl; right; assumption. }
  apply G. intros y Hy. apply (Permutation_in _ (sort_key_perm key t)). exact Hy.
Qed.

Lemma median_moved g d : g <> [] -> (forall i, In i g -> i < length data) -> d < length v ->
  (kmedians_coord data' g d == s * kmedians_coord data g d + coord v d)%Q.
Proof.
  intros Hg Hi Hd. assert (K : forall i, In i g -> (coord (nth i data' []) d == s * coord (nth i data []) d + coord v d)%Q).
  { intros i H. destruct (nth_moved _ _ Hdata i (Hi i H)) as (_ & _ & E). apply E. exact Hd. }
  unfold kmedians_coord. set (key := fun i => coord (nth i data []) d). set (key' := fun i => coord (nth i data' []) d).
  assert (E : sort_key key' g = sort_key key g).
  { apply sort_same. intros i j Gi Gj. unfold key, key'. destruct (Qle_bool (coord (nth i data []) d) (coord (nth j data []) d)) eqn:E.
    - apply Qle_bool_iff in E. apply Qle_bool_iff. rewrite (K i Gi), (K j Gj). nra.
    - apply Qle_bool_false in E. apply Qle_bool_false. rewrite (K i Gi), (K j Gj). nra. }
  cbv beta zeta. fold key key'. rewrite E. assert (Lg : 0 < length g) by (destruct g; [congruence|cbn; lia]).
  assert (N : forall r, r < length g -> (key' (nth r (sort_key key g) 0%nat) == s * key (nth r (sort_key key g) 0%nat) + coord v d)%Q).
  { intros r Hr. apply K. apply (Permutation_in _ (sort_key_perm key g)), nth_In. rewrite sort_key_length. exact Hr. }
  pose proof (Nat.div_mod (length g - 1) 2 ltac:(lia)) as DM. pose proof (Nat.mod_upper_bound (length g - 1) 2 ltac:(lia)) as MB.
  destruct (Nat.eqb_spec (length g mod 2) 0) as [Ev|Od].
  - assert (W : (length g - 1) / 2 + 1 < length g).
    { pose proof (Nat.div_mod (length g) 2 ltac:(lia)). destruct (length g) as [|[|k]]; [lia|cbn in Ev; discriminate|]. lia. }
    pose proof (N _ W) as N1. pose proof (N ((length g - 1) / 2) ltac:(lia)) as N2. unfold key' in N1, N2. cbv beta in N1, N2. rewrite N1, N2. unfold key. field.
  - apply (N ((length g - 1) / 2)). lia.
Qed.

Lemma medians_moved clusters : valid_groups clusters -> Forall2 (moved s v) (kmedians_update_medians data clusters) (kmedians_update_medians data' clusters).
Proof.
  intro H. unfold kmedians_update_medians. destruct dimension_v as (-> & ->). induction clusters as [|g t IH]; cbn [map]; constructor; [|apply IH; intros g' Hg; apply H; right; exact Hg].
  destruct (H g (or_introl eq_refl)) as (G1 & G2). split; [now rewrite map_length, seq_length|]. split; [now rewrite map_length, seq_length|].
  intros d Hd. unfold coord at 1 2. rewrite !nth_map_seq0 by exact Hd. apply median_moved; assumption.
Qed.

Lemma med_changes_times centers centers' up up' : length up <= length centers -> Forall2 (moved s v) centers centers' -> Forall2 (moved s v) up up' -> times m (kmedians_changes metric centers up) (kmedians_changes metric centers' up').
Proof.
  intros HL H1 H2. unfold kmedians_changes. assert (L2 : length up' = length up) by (clear HL; induction H2; cbn [length]; congruence). unfold point in *. rewrite L2.
  apply (times_max m Hm), map_times. intros k Hk. apply in_seq in Hk. apply Hmetric; apply nth_moved; auto; unfold point in *; lia.
Qed.

Lemma med_loop_same tol tol' : times m tol tol' -> forall left change change' clusters centers centers', times_opt m change change' -> centers <> [] ->
  Forall2 (moved s v) centers centers' -> valid_groups clusters -> (length centers = length clusters \/ clusters = []) ->
  let '(cl, ce) := kmedians_loop metric data tol left change clusters centers in let '(cl', ce') := kmedians_loop metric data' tol' left change' clusters centers' in
  cl' = cl /\ Forall2 (moved s v) ce ce' /\ valid_groups cl /\ (length ce = length cl \/ cl = []).
Proof.
  intro Ht. induction left as [|left IH]; intros change change' clusters centers centers' Hc Hne' H Hv HL; cbn [kmedians_loop]; [auto|].
  rewrite (exceeds_times _ _ _ _ Hc Ht). destruct (exceeds change tol); [|auto]. cbv zeta.
  assert (Hne'' : centers' <> []) by (intro; subst; inversion H; subst; congruence).
  rewrite (kmedians_assign metric data' centers' Hne''), (kmedians_assign metric data centers Hne'), <- !kmeans_assign. rewrite (clusters_same _ _ H).
  pose proof (update_valid centers Hne') as Hv'. pose proof (medians_moved _ Hv') as Hu.
  assert (LU : length (kmedians_update_medians data (kmeans_update_clusters metric data centers)) <= length centers).
  { unfold kmedians_update_medians. rewrite map_length, kmeans_assign. apply assign_length. }
  apply IH; auto.
  - cbn [times_opt]. apply med_changes_times; assumption.
  - unfold kmedians_update_medians. intro E. apply map_eq_nil in E. rewrite kmeans_assign in E. pose proof (assign_partition metric data centers Hne') as P. rewrite E in P. cbn in P. apply Permutation_nil in P.
    destruct data; [congruence|discriminate].
  - left. unfold kmedians_update_medians. now rewrite map_length.
Qed.

Lemma kmedians_same initial initial' tol tol' itermax : times m tol tol' -> Forall2 (moved s v) initial initial' ->
  same_run (same_partition s m v) (kmedians_process metric data initial tol itermax) (kmedians_process metric data' initial' tol' itermax).
Proof.
  intros Ht H. unfold kmedians_process. pose proof dimension_v as DV. pose proof data_length as DL. destruct data as [|p0 dt] eqn:Ed; [congruence|]. destruct data' as [|q0 dt'] eqn:Ed'; [discriminate|]. rewrite <- Ed, <- Ed' in *.
  destruct initial as [|c0 it] eqn:Ei; [inversion H; reflexivity|]. destruct initial' as [|c0' it'] eqn:Ei'; [inversion H|]. rewrite <- Ei, <- Ei' in *.
  rewrite (scale_ltb0 m Hm _ _ Ht). destruct (Qltb tol 0); [reflexivity|].
  assert (Lp : length p0 = length v /\ length q0 = length v) by (unfold dimension in DV; rewrite Ed, Ed' in DV; exact DV).
  assert (Lc : length c0 = length v /\ length c0' = length v) by (rewrite Ei, Ei' in H; inversion H as [|? ? ? ? Hc]; subst; destruct Hc as (A & B & _); auto).
  destruct Lp as (-> & ->), Lc as (-> & ->). rewrite Nat.eqb_refl.
  pose proof (med_loop_same tol tol' Ht itermax None None [] initial initial' I) as W.
  destruct (kmedians_loop metric data tol itermax None [] initial) as [cl ce], (kmedians_loop metric data' tol' itermax None [] initial') as [cl' ce'].
  destruct W as (-> & W1 & W2 & W3); auto; [rewrite Ei; discriminate|intros g []|]. cbn [same_run same_partition]. split; [reflexivity|]. split; [exact W1|].
  destruct W3 as [W3| ->]; [apply wce_times; assumption|]. unfold total_wce. cbn. ring.
Qed.
End Means.
End Moved.

Lemma square_positive s : (0 < s)%Q -> (0 < s * s)%Q. Proof. intro. nra. Qed.

(** k-means with the default metric; the tolerance is measured like the distances *)
Theorem C243_kmeans s v data data' initial initial' tolerance itermax : (0 < s)%Q -> Forall2 (moved s v) data data' -> Forall2 (moved s v) initial initial' ->
  same_run (same_partition s (s * s) v) (kmeans_process sqdist data initial tolerance itermax) (kmeans_process sqdist data' initial' (s * s * tolerance) itermax).
Proof.
  intros Hs H Hi. destruct data as [|p t] eqn:E; [inversion H; reflexivity|]. apply kmeans_same; auto; try discriminate; try reflexivity.
  - apply square_positive, Hs.
  - intros. apply (moved_sqdist s v); assumption.
Qed.
Print Assumptions C243_kmeans.

(** k-medians with the default metric and with the one of its documentation *)
Theorem C243_kmedians s v data data' initial initial' tolerance itermax : (0 < s)%Q -> Forall2 (moved s v) data data' -> Forall2 (moved s v) initial initial' ->
  same_run (same_partition s (s * s) v) (kmedians_process sqdist data initial tolerance itermax) (kmedians_process sqdist data' initial' (s * s * tolerance) itermax) /\
  same_run (same_partition s s v) (kmedians_process manhattan data initial tolerance itermax) (kmedians_process manhattan data' initial' (s * tolerance) itermax).
Proof.
  intros Hs H Hi. destruct data as [|p t] eqn:E; [inversion H; split; reflexivity|]. split; apply kmedians_same; auto; try discriminate; try reflexivity.
  - apply square_positive, Hs.
  - intros. apply (moved_sqdist s v); assumption.
  - intros. apply (moved_manhattan s v); assumption.
Qed.
Print Assumptions C243_kmedians.
