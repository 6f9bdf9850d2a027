(** C130 - C133: relations between several runs of DBSCAN. *)
From Verif Require Import Base Search_Model Kd_Model Kd_Proofs Dbscan_Model Dbscan_Proofs Dbscan_Inst Dbmeta_Proofs.

(** C130: the points and the matrix of their euclidean distances give the same noise and, cluster by
    cluster, the same members. *)
Theorem C130_points_matrix_agree :
  forall D data m eps minpts, 0 < D -> data <> [] -> same_dimension D data -> (0 <= eps)%Q -> distances_of data m ->
  exists cp cm noise, dbscan_points data eps minpts [] [] = Ok (cp, noise) /\ dbscan_matrix m eps minpts [] [] = Ok (cm, noise) /\
    Forall2 (@Permutation nat) cp cm.
Proof. exact points_matrix_agree. Qed.
Print Assumptions C130_points_matrix_agree.

(** C131: a larger radius or a smaller required number of neighbours never creates noise and never
    separates two core points. *)
Theorem C131_monotone :
  forall D data e1 e2 m1 m2, 0 < D -> data <> [] -> same_dimension D data -> (0 <= e1)%Q -> (e1 <= e2)%Q -> m2 <= m1 ->
  exists c1 n1 c2 n2, dbscan_points data e1 m1 [] [] = Ok (c1, n1) /\ dbscan_points data e2 m2 [] [] = Ok (c2, n2) /\
    incl n2 n1 /\
    forall x y, core (length data) (near data e1) m1 x -> core (length data) (near data e1) m1 y -> together c1 x y -> together c2 x y.
Proof. exact dbscan_monotone. Qed.
Print Assumptions C131_monotone.

(** C132: the number of clusters, the noise and the grouping of the core points do not depend on the
    order of the points. *)
Theorem C132_order_independent :
  forall D data data' s eps minpts, 0 < D -> data <> [] -> same_dimension D data -> (0 <= eps)%Q -> reordered data data' s ->
  exists c noise c' noise', dbscan_points data eps minpts [] [] = Ok (c, noise) /\ dbscan_points data' eps minpts [] [] = Ok (c', noise') /\
    length c' = length c /\ (forall i, i < length data -> (In i noise' <-> In (s i) noise)) /\
    (forall i j, i < length data -> j < length data -> core (length data) (near data eps) minpts (s i) -> core (length data) (near data eps) minpts (s j) ->
       (together c' i j <-> together c (s i) (s j))).
Proof. exact dbscan_reordered. Qed.
Print Assumptions C132_order_independent.

(** C133: the grouping of all points depends on the order: a border point between two clusters goes to
    the one met first. *)
Definition bd_data : list point := [[0]; [1]; [2]; [4]; [6]; [7]; [8]]%Q.
Definition bd_rev : list point := [[8]; [7]; [6]; [4]; [2]; [1]; [0]]%Q.

Example C132_ex_reordered : reordered bd_data bd_rev (fun i => 6 - i).
Proof.
  split; [reflexivity|]. split.
  - simpl. apply (Permutation_rev [6; 5; 4; 3; 2; 1; 0]).
  - intros i Hi. simpl in Hi. do 7 (destruct i as [|i]; [reflexivity|]). lia.
Qed.

Theorem C133_border_order_refuted :
  exists D data data' s eps minpts c noise c' noise' i j, 0 < D /\ same_dimension D data /\ (0 <= eps)%Q /\ reordered data data' s /\
    dbscan_points data eps minpts [] [] = Ok (c, noise) /\ dbscan_points data' eps minpts [] [] = Ok (c', noise') /\
    i < length data /\ j < length data /\ together c (s i) (s j) /\ ~ together c' i j.
Proof.
  exists 1, bd_data, bd_rev, (fun i => 6 - i), 2%Q, 3, [[2; 0; 1; 3]; [4; 6; 5]], [], [[2; 0; 1; 3]; [4; 6; 5]], [], 3, 4.
  split; [lia|]. split; [repeat constructor|]. split; [discriminate|]. split; [exact C132_ex_reordered|].
  split; [vm_compute; reflexivity|]. split; [vm_compute; reflexivity|]. split; [simpl; lia|]. split; [simpl; lia|]. split.
  - exists [2; 0; 1; 3]. simpl. tauto.
  - intros (c & [<-|[<-|[]]] & Hx & Hy); simpl in Hx, Hy; lia.
Qed.
Print Assumptions C133_border_order_refuted.

(** *** Concrete cases *)
Definition bd_matrix : list (list Q) :=
  [[0; 1; 2; 4; 6; 7; 8]; [1; 0; 1; 3; 5; 6; 7]; [2; 1; 0; 2; 4; 5; 6]; [4; 3; 2; 0; 2; 3; 4];
   [6; 5; 4; 2; 0; 1; 2]; [7; 6; 5; 3; 1; 0; 1]; [8; 7; 6; 4; 2; 1; 0]]%Q.
Example C130_ex_distances : distances_of bd_data bd_matrix.
Proof.
  split; [reflexivity|]. split; [repeat constructor|]. intros i j Hi Hj. simpl in Hi, Hj.
  do 7 (destruct i as [|i]; [do 7 (destruct j as [|j]; [split; [discriminate|reflexivity]|]); exfalso; lia|]). exfalso; lia.
Qed.
Example C130_ex : dbscan_points bd_data 2 3 [] [] = Ok ([[2; 0; 1; 3]; [4; 6; 5]], []) /\
  dbscan_matrix bd_matrix 2 3 [] [] = Ok ([[2; 0; 1; 3]; [4; 5; 6]], []).
Proof. split; vm_compute; reflexivity. Qed.
Example C131_ex : dbscan_points bd_data 1 2 [] [] = Ok ([[1; 2; 0]; [5; 6; 4]], [3]) /\ dbscan_points bd_data 2 2 [] [] = Ok ([[0; 2; 1; 3; 4; 6; 5]], []) /\
  core 7 (near bd_data 1) 2 1 /\ ~ core 7 (near bd_data 1) 2 3.
Proof. split; [vm_compute; reflexivity|]. split; [vm_compute; reflexivity|]. split; [split; vm_compute; lia|intros [_ H]; vm_compute in H; lia]. Qed.
