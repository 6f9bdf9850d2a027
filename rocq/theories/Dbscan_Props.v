(** C09, C10, C49 (DBSCAN part). *)
From Verif Require Import Base Search_Model Kd_Model Kd_Proofs Dbscan_Model Dbscan_Proofs Dbscan_Inst.

(** C09: every point exactly once, in one cluster or in noise; no empty cluster. *)
Theorem C09_dbscan_partition_points :
  forall D data eps minpts, 0 < D -> data <> [] -> same_dimension D data -> (0 <= eps)%Q ->
  exists clusters noise, dbscan_points data eps minpts [] [] = Ok (clusters, noise) /\
    Permutation (concat clusters ++ noise) (seq 0 (length data)) /\ no_empty clusters.
Proof. exact dbscan_points_partition. Qed.
Print Assumptions C09_dbscan_partition_points.

(** C09, distance matrix (symmetric or not). *)
Theorem C09_dbscan_partition_matrix :
  forall m eps minpts, m <> [] -> Forall (fun row => length row = length m) m -> (0 <= eps)%Q ->
  exists clusters noise, dbscan_matrix m eps minpts [] [] = Ok (clusters, noise) /\
    Permutation (concat clusters ++ noise) (seq 0 (length m)) /\ no_empty clusters.
Proof. exact dbscan_matrix_partition. Qed.
Print Assumptions C09_dbscan_partition_matrix.

(** C10: the result is the density-based clustering (components of core points in order of their
    first core point, border points to the earliest reaching cluster, the rest is noise).
    [clusters0], [noise0] are the attributes before the call: empty for a fresh object. *)
Theorem C10_dbscan_density_points :
  forall D data eps minpts clusters0 noise0, 0 < D -> data <> [] -> same_dimension D data -> (0 <= eps)%Q ->
  exists clusters noise, dbscan_points data eps minpts clusters0 noise0 = Ok (clusters0 ++ clusters, noise0 ++ noise) /\
    dbscan_result (length data) (near data eps) minpts clusters noise.
Proof. exact dbscan_points_correct. Qed.
Print Assumptions C10_dbscan_density_points.

Theorem C10_dbscan_density_matrix :
  forall m eps minpts clusters0 noise0, m <> [] -> symmetric_matrix m -> (0 <= eps)%Q ->
  exists clusters noise, dbscan_matrix m eps minpts clusters0 noise0 = Ok (clusters0 ++ clusters, noise0 ++ noise) /\
    dbscan_result (length m) (near_matrix m eps) minpts clusters noise.
Proof. exact dbscan_matrix_correct. Qed.
Print Assumptions C10_dbscan_density_matrix.

(** C49 (DBSCAN): a second [process()] appends a second copy of every cluster and of the noise ... *)
Theorem C49_dbscan_reprocess_appends :
  forall D data eps minpts, 0 < D -> data <> [] -> same_dimension D data -> (0 <= eps)%Q ->
  exists clusters noise, dbscan_points data eps minpts [] [] = Ok (clusters, noise) /\
    dbscan_points data eps minpts clusters noise = Ok (clusters ++ clusters, noise ++ noise).
Proof. exact reprocess_appends. Qed.
Print Assumptions C49_dbscan_reprocess_appends.

(** ... so the reported clusters are no longer a partition. *)
Theorem C49_dbscan_reprocess_refuted :
  exists data eps minpts clusters noise clusters' noise',
    dbscan_points data eps minpts [] [] = Ok (clusters, noise) /\
    dbscan_points data eps minpts clusters noise = Ok (clusters', noise') /\
    ~ NoDup (concat clusters').
Proof.
  exists [[0]; [1]; [5]]%Q, 1%Q, 1, [[0; 1]], [2], [[0; 1]; [0; 1]], [2; 2].
  split; [vm_compute; reflexivity|]. split; [vm_compute; reflexivity|].
  simpl. intros H. inversion H as [|a b Ha Hb]; subst. apply Ha. simpl. auto.
Qed.
Print Assumptions C49_dbscan_reprocess_refuted.

(** *** Concrete cases *)
(* two dense groups sharing the border point 3, one noise point *)
Definition db_ex : list point := [[0]; [1]; [2]; [4]; [6]; [7]; [8]; [20]]%Q.
Example C10_ex : dbscan_points db_ex 2 3 [] [] = Ok ([[2; 3; 0; 1]; [4; 5; 6]], [7]).
Proof. vm_compute. reflexivity. Qed.
Example C09_ex_meets : db_ex <> [] /\ same_dimension 1 db_ex /\ (0 <= 2)%Q.
Proof. split; [discriminate|]. split; [repeat constructor|discriminate]. Qed.
Definition db_mx : list (list Q) := [[0; 1; 5]; [1; 0; 5]; [5; 5; 0]]%Q.
Example C10_ex_matrix : dbscan_matrix db_mx 1 1 [] [] = Ok ([[0; 1]], [2]).
Proof. vm_compute. reflexivity. Qed.
Example C10_ex_matrix_meets : symmetric_matrix db_mx.
Proof.
  split; [repeat constructor|]. intros i j Hi Hj. simpl in Hi, Hj.
  do 3 (destruct i as [|i]; [do 3 (destruct j as [|j]; [reflexivity|]); exfalso; lia|]). exfalso; lia.
Qed.
