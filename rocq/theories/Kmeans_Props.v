(** C13, C14, C15, C63: k-means and k-medians *)
From Verif Require Import Base Kmeans_Model Kmeans_Proofs Kmedians_Proofs.

(** C13: for every metric *)
Theorem C13_kmeans_partition metric data initial tol itermax clusters centers wce :
  kmeans_process metric data initial tol itermax = Ok (clusters, centers, wce) -> 1 <= itermax ->
  partitions (length data) clusters /\ no_empty clusters /\
  length centers = length clusters /\ length clusters <= length initial /\
  (forall k, k < length clusters ->
     is_mean (dimension data) (map (fun i => nth i data []) (nth k clusters [])) (nth k centers [])) /\
  (wce == cost metric data clusters centers)%Q.
Proof.
  intros H Hi. destruct (kmeans_process_ok _ _ _ _ _ _ _ _ H Hi) as [(H1 & H2 & H3 & H4 & H5) H6].
  split; [|split; [|split; [|split; [|split]]]]; assumption.
Qed.
Print Assumptions C13_kmeans_partition.

(** when process() returns a value and when it raises *)
Theorem C13_kmeans_total metric data initial tol itermax :
  data <> [] -> initial <> [] -> (0 <= tol)%Q -> length (nth 0 data []) = length (nth 0 initial []) ->
  exists r, kmeans_process metric data initial tol itermax = Ok r.
Proof.
  intros Hd Hi Ht Hl. unfold kmeans_process. destruct data as [|p0 t]; [congruence|]. destruct initial as [|c0 ct]; [congruence|].
  destruct (Qltb tol 0) eqn:E; [apply Qltb_true in E; lra|]. simpl in Hl. rewrite Hl, Nat.eqb_refl.
  destruct (kmeans_loop metric (p0 :: t) tol itermax None [] (c0 :: ct)) as [cl ce]. eauto.
Qed.
Print Assumptions C13_kmeans_total.

(** without an iteration nothing is clustered *)
Theorem C13_kmeans_no_iteration_refuted : exists data initial,
  exists centers wce, kmeans_process sqdist data initial 0 0 = Ok ([], centers, wce) /\ ~ partitions (length data) [].
Proof.
  exists [[0%Q]], [[0%Q]]. eexists. eexists. split; [reflexivity|]. intros H. apply Permutation_length in H. discriminate.
Qed.
Print Assumptions C13_kmeans_no_iteration_refuted.

Theorem C14_kmeans_error_decreases data initial tol m m' cl ce w cl' ce' w' :
  data <> [] -> uniform (dimension data) data -> 1 <= m -> m <= m' ->
  kmeans_process sqdist data initial tol m = Ok (cl, ce, w) ->
  kmeans_process sqdist data initial tol m' = Ok (cl', ce', w') -> (w' <= w)%Q.
Proof. intros H1 H2. exact (kmeans_monotone data H1 H2 initial tol m m' cl ce w cl' ce' w'). Qed.
Print Assumptions C14_kmeans_error_decreases.

(** the result is at least as good as any assignment of the points to the initial centres *)
Theorem C14_kmeans_not_worse_than_initial data initial tol m cl ce w :
  data <> [] -> uniform (dimension data) data -> 1 <= m -> uniform (dimension data) initial ->
  kmeans_process sqdist data initial tol m = Ok (cl, ce, w) ->
  forall label, (forall i, i < length data -> label i < length initial) ->
  (w <= qsum (map (fun i => sqdist (nth i data []) (nth (label i) initial [])) (seq 0 (length data))))%Q.
Proof. intros H1 H2. exact (kmeans_below_initial data H1 H2 initial tol m cl ce w). Qed.
Print Assumptions C14_kmeans_not_worse_than_initial.

(** the centres are optimal for the returned clusters *)
Theorem C14_kmeans_centers_optimal data initial tol m cl ce w :
  uniform (dimension data) data -> 1 <= m ->
  kmeans_process sqdist data initial tol m = Ok (cl, ce, w) ->
  forall k c, k < length cl -> length c = dimension data ->
  (qsum (map (fun i => sqdist (nth i data []) (nth k ce [])) (nth k cl []))
   <= qsum (map (fun i => sqdist (nth i data []) c) (nth k cl [])))%Q.
Proof.
  intros Hu Hm H k c Hk Hc. destruct (C13_kmeans_partition _ _ _ _ _ _ _ _ H Hm) as (H1 & _ & _ & _ & H5 & _).
  pose proof (mean_optimal (map (fun i => nth i data []) (nth k cl [])) (dimension data) (nth k ce []) c) as Ho.
  rewrite !map_map in Ho. apply Ho; auto. intros p Hp. apply in_map_iff in Hp as [i [<- Hi]]. apply Hu, nth_In.
  assert (Hin : In i (concat cl)) by (apply in_concat; exists (nth k cl []); split; [apply nth_In; auto|auto]).
  apply (Permutation_in _ H1) in Hin. apply in_seq in Hin. lia.
Qed.
Print Assumptions C14_kmeans_centers_optimal.

Theorem C14_predict_nearest metric clusters centers points : clusters <> [] -> centers <> [] ->
  length (kmeans_predict metric clusters centers points) = length points /\
  forall j, j < length points ->
    nearest metric centers (nth j points []) (nth j (kmeans_predict metric clusters centers points) 0).
Proof. exact (predict_nearest metric clusters centers points). Qed.
Print Assumptions C14_predict_nearest.

(** C63: with tolerance 0 (exact arithmetic) the iterations end by themselves, and then every
    point is nearest to the centre of its own cluster *)
Theorem C63_kmeans_converges data initial : data <> [] -> uniform (dimension data) data ->
  initial <> [] -> uniform (dimension data) initial ->
  exists B, forall m, B <= m -> exists cl ce w,
    kmeans_process sqdist data initial 0 m = Ok (cl, ce, w) /\
    kmeans_process sqdist data initial 0 B = Ok (cl, ce, w) /\
    forall k i, k < length cl -> In i (nth k cl []) -> nearest sqdist ce (nth i data []) k.
Proof.
  intros Hd Hu Hi Hui. destruct (kmeans_converges_optimal data Hd Hu initial Hi Hui) as [B HB]. exists B. intros m Hm.
  destruct (HB m Hm) as [H1 H2].
  assert (Hl : length (nth 0 data []) = length (nth 0 initial [])).
  { destruct initial; [congruence|]. symmetry. apply Hui. simpl. auto. }
  assert (Hp : forall j, kmeans_process sqdist data initial 0 j =
    Ok (fst (kmeans_loop sqdist data 0 j None [] initial), snd (kmeans_loop sqdist data 0 j None [] initial),
        total_wce sqdist data (fst (kmeans_loop sqdist data 0 j None [] initial)) (snd (kmeans_loop sqdist data 0 j None [] initial)))).
  { intros j. destruct (C13_kmeans_total sqdist data initial 0 j Hd Hi ltac:(lra) Hl) as [r Hr]. rewrite Hr. f_equal.
    apply kmeans_process_inv in Hr as (_ & _ & _ & _ & Hr). destruct (kmeans_loop sqdist data 0 j None [] initial). exact Hr. }
  do 3 eexists. rewrite (Hp m), (Hp B), <- H1. split; [reflexivity|]. split; [reflexivity|]. exact H2.
Qed.
Print Assumptions C63_kmeans_converges.

Theorem C15_kmedians_partition metric data initial tol itermax clusters medians wce :
  kmedians_process metric data initial tol itermax = Ok (clusters, medians, wce) -> 1 <= itermax ->
  partitions (length data) clusters /\ no_empty clusters /\
  length medians = length clusters /\ length clusters <= length initial /\
  (forall k, k < length clusters ->
     length (nth k medians []) = dimension data /\
     forall d, d < dimension data ->
       minimises_abs (map (fun i => coord (nth i data []) d) (nth k clusters [])) (coord (nth k medians []) d)) /\
  (wce == cost metric data clusters medians)%Q.
Proof.
  intros H Hi. destruct (kmedians_process_ok _ _ _ _ _ _ _ _ H Hi) as [(H1 & H2 & H3 & H4 & H5) H6].
  split; [|split; [|split; [|split; [|split]]]]; try assumption.
  intros k Hk. destruct (H5 k Hk) as [Ha Hb]. split; [exact Ha|]. intros d Hd. specialize (Hb d Hd).
  rewrite map_map in Hb. exact Hb.
Qed.
Print Assumptions C15_kmedians_partition.

Theorem C15_kmedians_error_decreases data initial tol m m' cl ce w cl' ce' w' :
  data <> [] -> uniform (dimension data) data -> 1 <= m -> m <= m' ->
  kmedians_process manhattan data initial tol m = Ok (cl, ce, w) ->
  kmedians_process manhattan data initial tol m' = Ok (cl', ce', w') -> (w' <= w)%Q.
Proof. intros H1 H2. exact (kmedians_monotone data H1 H2 initial tol m m' cl ce w cl' ce' w'). Qed.
Print Assumptions C15_kmedians_error_decreases.

Theorem C15_predict_nearest metric clusters medians points : clusters <> [] -> medians <> [] ->
  length (kmedians_predict metric clusters medians points) = length points /\
  forall j, j < length points ->
    nearest metric medians (nth j points []) (nth j (kmedians_predict metric clusters medians points) 0).
Proof. exact (kmedians_predict_nearest metric clusters medians points). Qed.
Print Assumptions C15_predict_nearest.

Example C15_predict_case : kmedians_predict manhattan [[0]; [1]] [[0]; [4]]%Q [[3]; [1]; [2]]%Q = [1; 0; 0].
Proof. reflexivity. Qed.

(** a case: three points in a line, two poor centres; two iterations; one centre without points *)
Definition c13_data : list point := [[0%Q]; [1%Q]; [5%Q]; [6%Q]].
Example C13_case : exists ce w,
  kmeans_process sqdist c13_data [[0%Q]; [1%Q]; [100%Q]] 0 10 = Ok ([[0; 1]; [2; 3]], ce, w)
  /\ (nth 0 (nth 0 ce []) 0 == 1 # 2)%Q /\ (w == 1)%Q.
Proof. eexists. eexists. vm_compute. repeat split. Qed.

Example C14_case : uniform (dimension c13_data) c13_data /\ c13_data <> [] /\
  exists cl ce w cl' ce' w',
  kmeans_process sqdist c13_data [[0%Q]; [1%Q]] 0 1 = Ok (cl, ce, w) /\
  kmeans_process sqdist c13_data [[0%Q]; [1%Q]] 0 9 = Ok (cl', ce', w') /\ (w' < w)%Q.
Proof.
  split; [intros p Hp; repeat (destruct Hp as [<-|Hp]; [reflexivity|]); contradiction|]. split; [discriminate|].
  do 6 eexists. vm_compute. repeat split.
Qed.

Example C15_case : exists ce w,
  kmedians_process manhattan c13_data [[0%Q]; [1%Q]; [100%Q]] 0 10 = Ok ([[0; 1]; [2; 3]], ce, w)
  /\ (nth 0 (nth 1 ce []) 0 == 11 # 2)%Q /\ (w == 2)%Q.
Proof. eexists. eexists. vm_compute. repeat split. Qed.
