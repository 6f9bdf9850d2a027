(** C11, C12, C55, C56, C57: OPTICS. *)
From Verif Require Import Base Search_Model Kd_Model Kd_Proofs Dbscan_Model Dbscan_Proofs Dbscan_Inst
  Optics_Model Optics_Proofs Optics_Inst.

(** C11: every index once in clusters plus noise and once in the ordered database. *)
Theorem C11_optics_partition_points :
  forall D data eps minpts, 0 < D -> data <> [] -> same_dimension D data -> (0 <= eps)%Q -> 1 <= minpts ->
  exists o, optics_points data eps minpts = Ok o /\ optics_partition (length data) o.
Proof.
  intros D data eps minpts H1 H2 H3 H4 H5.
  destruct (optics_points_ok D data eps minpts H1 H2 H3 H4 H5) as [o [E [P _]]]. exists o. auto.
Qed.
Print Assumptions C11_optics_partition_points.

(** C11, distance matrix (symmetric or not), also when an amount of clusters is requested. *)
Theorem C11_optics_partition_matrix :
  forall m eps minpts, m <> [] -> Forall (fun row => length row = length m) m -> (0 <= eps)%Q -> 1 <= minpts ->
  (exists o, optics_matrix m eps minpts None = Ok (o, eps, get_ordering o) /\ optics_partition (length m) o) /\
  (forall a o r ord, optics_matrix m eps minpts a = Ok (o, r, ord) -> optics_partition (length m) o).
Proof.
  intros m eps minpts H1 H2 H3 H4. split.
  - destruct (optics_matrix_ok m eps minpts H1 H2 H3 H4) as [o [E [P _]]]. exists o. auto.
  - intros a o r ord E. exact (proj1 (optics_matrix_amount m eps minpts a o r ord H1 H2 H4 E)).
Qed.
Print Assumptions C11_optics_partition_matrix.

(** C12: core distances, reachability distances and the order (squared distances, see Optics_Model.v). *)
Theorem C12_optics_order_points :
  forall D data eps minpts, 0 < D -> data <> [] -> same_dimension D data -> (0 <= eps)%Q -> 1 <= minpts ->
  exists o, optics_points data eps minpts = Ok o /\
    optics_order (length data) (near data eps) (sq_distance data) minpts (core_of o) (rch_of o) (r_order o).
Proof.
  intros D data eps minpts H1 H2 H3 H4 H5.
  destruct (optics_points_ok D data eps minpts H1 H2 H3 H4 H5) as [o [E [_ [O _]]]]. exists o. auto.
Qed.
Print Assumptions C12_optics_order_points.

(** C12, distance matrix: the values belong to the final radius [r]. *)
Theorem C12_optics_order_matrix :
  forall m eps minpts a o r ord, m <> [] -> Forall (fun row => length row = length m) m -> 1 <= minpts ->
  optics_matrix m eps minpts a = Ok (o, r, ord) ->
  optics_order (length m) (near_matrix m r) (matrix_distance m) minpts (core_of o) (rch_of o) (r_order o).
Proof.
  intros m eps minpts a o r ord H1 H2 H3 E. exact (proj1 (proj2 (optics_matrix_amount m eps minpts a o r ord H1 H2 H3 E))).
Qed.
Print Assumptions C12_optics_order_matrix.

(** C55: on core points OPTICS finds the density components that DBSCAN finds. *)
Theorem C55_optics_components_points :
  forall D data eps minpts, 0 < D -> data <> [] -> same_dimension D data -> (0 <= eps)%Q -> 1 <= minpts ->
  exists o, optics_points data eps minpts = Ok o /\
    optics_clusters (length data) (near data eps) minpts (r_clusters o) (r_noise o) (r_order o).
Proof.
  intros D data eps minpts H1 H2 H3 H4 H5.
  destruct (optics_points_ok D data eps minpts H1 H2 H3 H4 H5) as [o [E [_ [_ C]]]]. exists o. auto.
Qed.
Print Assumptions C55_optics_components_points.

Theorem C55_optics_components_matrix :
  forall m eps minpts a o r ord, m <> [] -> symmetric_matrix m -> 1 <= minpts ->
  optics_matrix m eps minpts a = Ok (o, r, ord) ->
  optics_clusters (length m) (near_matrix m r) minpts (r_clusters o) (r_noise o) (r_order o).
Proof.
  intros m eps minpts a o r ord H1 H2 H3 E.
  exact (proj2 (proj2 (optics_matrix_amount m eps minpts a o r ord H1 (proj1 H2) H3 E)) H2).
Qed.
Print Assumptions C55_optics_components_matrix.

(** C56, true part: the radius found by the analyser yields the wanted amount on the ordering diagram
    and lies between 0 and some reachability distance. *)
Theorem C56_connectivity_radius_sound :
  forall ordering wanted k, ordering <> [] -> (forall x, In x ordering -> (0 <= x)%Q) ->
  exists r, connectivity_radius ordering wanted k = Ok r /\
    match r with
    | Some x => (exists m, In m ordering /\ (0 <= x <= m)%Q) /\ exists b, extract_cluster_amount ordering x = Ok (wanted, b)
    | None => True
    end.
Proof. exact connectivity_radius_ok. Qed.
Print Assumptions C56_connectivity_radius_sound.

(** distance matrix of points on a line *)
Definition line (l : list Q) : list (list Q) := map (fun a => map (fun b => Qred (Qabs (a - b))) l) l.

(** C56, false: a radius for 3 clusters is found, 2 clusters are allocated. *)
Theorem C56_optics_requested_amount_refuted :
  exists m eps minpts a o r ord, symmetric_matrix m /\ 1 <= minpts /\
    optics_matrix m eps minpts (Some a) = Ok (o, r, ord) /\ r <> eps /\
    Z.of_nat (length (r_clusters o)) <> a.
Proof.
  exists (line [0; 1; 10; 11; 20]%Q), 50%Q, 1, 3%Z.
  destruct (optics_matrix (line [0; 1; 10; 11; 20]%Q) 50%Q 1 (Some 3%Z)) as [[[o r] ord]|] eqn:E; [|vm_compute in E; discriminate].
  exists o, r, ord. vm_compute in E. apply Ok_inj in E. injection E as <- <- <-.
  split; [|split; [lia|split; [reflexivity|split; [discriminate|vm_compute; discriminate]]]].
  split; [repeat constructor|]. intros i j Hi Hj. simpl in Hi, Hj.
  do 5 (destruct i as [|i]; [do 5 (destruct j as [|j]; [reflexivity|]); exfalso; lia|]). exfalso; lia.
Qed.
Print Assumptions C56_optics_requested_amount_refuted.

(** C56, false: with a requested amount the call fails when no cluster has a second member. *)
Theorem C56_optics_requested_amount_fails_refuted :
  exists m eps minpts a, symmetric_matrix m /\ (0 <= eps)%Q /\ 1 <= minpts /\ (0 < a)%Z /\
    optics_matrix m eps minpts (Some a) = Raise ValueError /\
    exists o ord, optics_matrix m eps minpts None = Ok (o, eps, ord).
Proof.
  exists (line [0; 10]%Q), 1%Q, 1, 1%Z. split.
  - split; [repeat constructor|]. intros i j Hi Hj. simpl in Hi, Hj.
    do 2 (destruct i as [|i]; [do 2 (destruct j as [|j]; [reflexivity|]); exfalso; lia|]). exfalso; lia.
  - split; [discriminate|]. split; [lia|]. split; [lia|]. split; [vm_compute; reflexivity|].
    eexists _, _. vm_compute. reflexivity.
Qed.
Print Assumptions C56_optics_requested_amount_fails_refuted.

(** C57, false: after a run with a requested amount [get_ordering] still describes the first radius. *)
Theorem C57_optics_stale_ordering_refuted :
  exists m eps minpts a o r ord, symmetric_matrix m /\
    optics_matrix m eps minpts (Some a) = Ok (o, r, ord) /\ ord <> get_ordering o.
Proof.
  exists (line [0; 1; 10; 11; 20]%Q), 50%Q, 1, 3%Z.
  destruct (optics_matrix (line [0; 1; 10; 11; 20]%Q) 50%Q 1 (Some 3%Z)) as [[[o r] ord]|] eqn:E; [|vm_compute in E; discriminate].
  exists o, r, ord. vm_compute in E. apply Ok_inj in E. injection E as <- <- <-.
  split; [|split; [reflexivity|vm_compute; discriminate]].
  split; [repeat constructor|]. intros i j Hi Hj. simpl in Hi, Hj.
  do 5 (destruct i as [|i]; [do 5 (destruct j as [|j]; [reflexivity|]); exfalso; lia|]). exfalso; lia.
Qed.
Print Assumptions C57_optics_stale_ordering_refuted.

(** [minpts = 0] passes the argument check but fails on an isolated point (index -1 of an empty list). *)
Theorem C11_optics_minpts_zero_refuted :
  exists data eps, same_dimension 1 data /\ data <> [] /\ (0 <= eps)%Q /\ optics_points data eps 0 = Raise IndexError.
Proof.
  exists [[0]; [10]]%Q, 1%Q. split; [repeat constructor|]. split; [discriminate|]. split; [discriminate|]. vm_compute. reflexivity.
Qed.
Print Assumptions C11_optics_minpts_zero_refuted.

(** *** Concrete cases *)
Definition op_ex : list point := [[0]; [1]; [3]; [10]; [11]; [12]; [30]]%Q.
Example C11_ex :
  match optics_points op_ex 3 2 with
  | Ok o => (r_clusters o, r_noise o, r_order o) = ([[0; 1; 2]; [3; 4; 5]], [6], [0; 1; 2; 3; 4; 5; 6]) /\
            map (core_of o) [0; 1; 2; 3; 6] = [Some 9; Some 4; Some 9; Some 4; None]%Q /\
            map (rch_of o) [0; 1; 2; 3; 6] = [None; Some 9; Some 4; None; None]%Q
  | Raise _ => False
  end.
Proof. vm_compute. auto. Qed.
Example C11_ex_meets : op_ex <> [] /\ same_dimension 1 op_ex /\ (0 <= 3)%Q /\ 1 <= 2.
Proof. split; [discriminate|]. split; [repeat constructor|]. split; [discriminate|lia]. Qed.
Example C12_ex_matrix :
  match optics_matrix (line [0; 1; 2; 10; 11; 12; 30; 31; 32]%Q) 50 2 (Some 3%Z) with
  | Ok (o, r, _) => r_clusters o = [[0; 1; 2]; [3; 4; 5]; [6; 7; 8]] /\ (r == 9 # 2)%Q
  | Raise _ => False
  end.
Proof. vm_compute. auto. Qed.
Example C56_ex : connectivity_radius [2; 1; 8; 2; 1; 18; 2; 1]%Q 2 100 = Ok (Some ((0 + 18) / 2))%Q.
Proof. vm_compute. reflexivity. Qed.
