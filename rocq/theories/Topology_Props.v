(** C38, C39, C58: network topologies. *)
From Verif Require Import Base Topology_Model Topology_Proofs.

(** C38: the neighbour lists of a map contain exactly the adjacent cells, each once. *)
Theorem C38_som_neighbours_exact :
  forall conn rows cols i, i < rows * cols ->
  let l := nth i (som_create_connections conn rows cols) [] in
  NoDup l /\
  forall j, In j l <-> (0 <= j < Z.of_nat (rows * cols))%Z /\ adjacent conn (Z.of_nat cols) (Z.of_nat i) j.
Proof.
  intros conn rows cols i Hi. unfold som_create_connections. rewrite nth_map_seq by exact Hi. cbv zeta.
  assert (Hc : (0 < Z.of_nat cols)%Z) by (destruct cols; lia).
  split; [exact (som_nodup conn _ _ _ Hc)|].
  intros j. rewrite Nat2Z.inj_mul. apply som_spec; [exact Hc|]. lia.
Qed.
Print Assumptions C38_som_neighbours_exact.

(** so the relation is symmetric and irreflexive *)
Theorem C38_som_neighbours_symmetric :
  forall conn rows cols i j, i < rows * cols -> j < rows * cols ->
  let nb a b := In (Z.of_nat b) (nth a (som_create_connections conn rows cols) []) in
  (nb i j <-> nb j i) /\ ~ nb i i.
Proof.
  intros conn rows cols i j Hi Hj. cbv zeta.
  destruct (C38_som_neighbours_exact conn rows cols i Hi) as [_ Ei].
  destruct (C38_som_neighbours_exact conn rows cols j Hj) as [_ Ej].
  rewrite (Ei (Z.of_nat j)), (Ej (Z.of_nat i)), (Ei (Z.of_nat i)).
  unfold adjacent, adjacent_four, adjacent_eight, adjacent_hex. destruct conn; lia.
Qed.
Print Assumptions C38_som_neighbours_symmetric.

(** C39, false: in a 2 x 2 GRID_FOUR network the oscillators 0 and 1 are not connected, 1 and 2 are *)
Theorem C39_grid_four_refuted :
  exists n w net, network_init n CGridFour RMatrix (Some (2, w)) = Ok net /\
   (exists i j, i < n /\ j < n /\ grid_four w i j /\ has_connection net i j = false) /\
   (exists i j, i < n /\ j < n /\ ~ grid_four w i j /\ has_connection net i j = true).
Proof.
  exists 4, 2. eexists. split; [vm_compute; reflexivity|]. split.
  - exists 0, 1. split; [lia|]. split; [lia|]. split; [vm_compute; reflexivity|vm_compute; reflexivity].
  - exists 1, 2. split; [lia|]. split; [lia|]. split; [vm_compute; discriminate|vm_compute; reflexivity].
Qed.
Print Assumptions C39_grid_four_refuted.

(** the same for GRID_EIGHT: 2 and 3 of a 3 x 3 grid are at opposite ends of two rows, yet connected;
    0 and 1 are side by side, yet not connected *)
Theorem C39_grid_eight_refuted :
  exists n w net, network_init n CGridEight RList (Some (3, w)) = Ok net /\
   (exists i j, i < n /\ j < n /\ grid_eight w i j /\ has_connection net i j = false) /\
   (exists i j, i < n /\ j < n /\ ~ grid_eight w i j /\ has_connection net i j = true).
Proof.
  exists 9, 3. eexists. split; [vm_compute; reflexivity|]. split.
  - exists 0, 1. split; [lia|]. split; [lia|]. split; [|vm_compute; reflexivity].
    split; [lia|]. vm_compute. split; discriminate.
  - exists 2, 3. split; [lia|]. split; [lia|]. split; [|vm_compute; reflexivity].
    intros [_ [_ H]]. vm_compute in H. apply H. reflexivity.
Qed.
Print Assumptions C39_grid_eight_refuted.

(** C39, what the code does build, for every size and both representations: vertical neighbours are
    right, horizontal neighbours are those of the groups {0}, {1..w}, {w+1..2w}, ... *)
Theorem C39_grid_four_actual :
  forall n r h w net i j, 0 < w -> network_init n CGridFour r (Some (h, w)) = Ok net -> i < n -> j < n ->
  (has_connection net i j = true <-> shifted_four w i j).
Proof.
  intros n r h w net i j Hw E Hi Hj. unfold network_init in E. cbn [is_grid] in E.
  destruct (Nat.eqb_spec (h * w) n) as [En|]; [|discriminate]. apply Ok_inj in E. subst net.
  exact (four_hasc n w h Hw En r i j Hi Hj).
Qed.
Print Assumptions C39_grid_four_actual.

Theorem C39_grid_eight_actual :
  forall n r h w net i j, 0 < w -> network_init n CGridEight r (Some (h, w)) = Ok net -> i < n -> j < n ->
  (has_connection net i j = true <-> shifted_four w i j \/ diagonal w i j).
Proof.
  intros n r h w net i j Hw E Hi Hj. unfold network_init in E. cbn [is_grid] in E.
  destruct (Nat.eqb_spec (h * w) n) as [En|]; [|discriminate]. apply Ok_inj in E. subst net.
  exact (eight_hasc n w h Hw En r i j Hi Hj).
Qed.
Print Assumptions C39_grid_eight_actual.

(** C58: all-to-all, list, none and dynamic structures, both representations *)
Theorem C58_plain_structures :
  forall n r size net i j, i < n -> j < n ->
  (network_init n CAllToAll r size = Ok net -> (has_connection net i j = true <-> i <> j)) /\
  (network_init n CListBidir r size = Ok net -> (has_connection net i j = true <-> line_neighbours i j)) /\
  (network_init n CNone r size = Ok net -> has_connection net i j = false) /\
  (network_init n CDynamic r size = Ok net -> has_connection net i j = false).
Proof.
  intros n r size net i j Hi Hj.
  split; [|split; [|split]]; intros E; apply Ok_inj in E; subst net.
  - exact (all_hasc r n 0 i j Hi Hj).
  - exact (line_hasc r n 0 i j Hi Hj).
  - exact (none_hasc CNone r n 0 i j (or_introl eq_refl)).
  - exact (none_hasc CDynamic r n 0 i j (or_intror eq_refl)).
Qed.
Print Assumptions C58_plain_structures.

(** C58: connections set on a dynamic network are exactly the set ones, in both directions *)
Theorem C58_dynamic_connections :
  forall n r size net l, network_init n CDynamic r size = Ok net -> (forall i j, In (i, j) l -> i < n /\ j < n) ->
  exists net', set_connections net l = Ok net' /\
   forall i j, i < n -> j < n ->
    (has_connection net' i j = true <-> In (i, j) l \/ In (j, i) l) /\
    (In j (get_neighbors net' i) <-> has_connection net' i j = true).
Proof.
  intros n r size net l E Hl.
  destruct (init_wf n CDynamic r size net E ltac:(discriminate)) as [Hn [Ht Hw]].
  destruct (set_connections_spec n l net Ht Hn Hw Hl) as [net' [E' [[Hn' Hw'] H]]].
  exists net'. split; auto. intros i j Hi Hj. split.
  - rewrite H. assert (F : has_connection net i j = false).
    { apply Ok_inj in E. subst net. exact (none_hasc CDynamic r n 0 i j (or_intror eq_refl)). }
    rewrite F. intuition discriminate.
  - subst n. apply neighbors_has; try congruence; auto.
Qed.
Print Assumptions C58_dynamic_connections.

(** C58: [get_neighbors] agrees with [has_connection] in every network *)
Theorem C58_neighbors_agree :
  forall n t r size net i j, network_init n t r size = Ok net -> (is_grid t = true -> 0 < n_width net) ->
  i < n -> j < n -> (In j (get_neighbors net i) <-> has_connection net i j = true).
Proof.
  intros n t r size net i j E Hg Hi Hj. destruct (init_wf n t r size net E Hg) as [Hn [_ Hw]].
  subst n. apply neighbors_has; auto.
Qed.
Print Assumptions C58_neighbors_agree.

(** set twice, a connection is counted twice in the list representation *)
Theorem C58_dynamic_duplicate_refuted :
  exists n net net', network_init n CDynamic RList None = Ok net /\
    set_connections net [(0, 1); (0, 1)] = Ok net' /\ get_neighbors net' 0 = [1; 1].
Proof. exists 2. eexists. eexists. split; [reflexivity|]. split; reflexivity. Qed.
Print Assumptions C58_dynamic_duplicate_refuted.

(** *** Concrete cases *)
Example C38_ex_four : nth 4 (som_create_connections SGridFour 3 3) [] = [1; 7; 3; 5]%Z.
Proof. vm_compute. reflexivity. Qed.
Example C38_ex_eight_edge : nth 3 (som_create_connections SGridEight 3 3) [] = [0; 6; 4; 1; 7]%Z.
Proof. vm_compute. reflexivity. Qed.
Example C38_ex_hex : nth 4 (som_create_connections SHoneycomb 3 3) [] = [3; 5; 0; 1; 6; 7]%Z.
Proof. vm_compute. reflexivity. Qed.
Example C39_ex : exists net, network_init 6 CGridFour RList (Some (2, 3)) = Ok net /\ get_neighbors net 3 = [0; 2] /\ 0 < 3.
Proof. eexists. split; [reflexivity|]. split; [vm_compute; reflexivity|lia]. Qed.
Example C58_ex : exists net, network_init 4 CListBidir RMatrix None = Ok net /\ get_neighbors net 2 = [1; 3].
Proof. eexists. split; [reflexivity|]. vm_compute. reflexivity. Qed.
