(** CLIQUE: theorems. *)
From Verif Require Import Base Kmeans_Model Kmeans_Proofs Clique_Model Clique_Proofs.

(** C26.  [where_ i] is the cell a point is counted in (a point on a border lies in several closed
    boxes and is counted in one of them).  [uniform D data]: all points have the dimension of the first. *)
Theorem C26_clique_dense_components : forall data intervals threshold,
  1 <= intervals -> data <> [] -> uniform (dimension data) data ->
  exists st where_, clique data intervals threshold = Ok st /\
    (forall i, i < length data -> in_grid (dimension data) intervals (where_ i) /\ in_box data intervals (where_ i) (nth i data [])) /\
    Permutation (concat (clusters st) ++ noise st) (seq 0 (length data)) /\ no_empty (clusters st) /\
    (forall i, i < length data -> (In i (noise st) <-> ~ dense_loc (length data) threshold where_ (where_ i))) /\
    (forall i j, i < length data -> j < length data ->
       ((exists c, In c (clusters st) /\ In i c /\ In j c) <->
        dense_chain (dimension data) intervals (dense_loc (length data) threshold where_) (where_ i) (where_ j))).
Proof. intros data a t Ha Hne Hd. exact (clique_spec data a t Ha Hne Hd). Qed.
Print Assumptions C26_clique_dense_components.

Theorem C26_clique_refuses : forall data intervals threshold,
  data = [] \/ intervals = 0 -> clique data intervals threshold = Raise ValueError.
Proof. intros data a t [->| ->]; [reflexivity|]. destruct data; reflexivity. Qed.
Print Assumptions C26_clique_refuses.

Definition clique_data : list point := [[0;0];[1;0];[1;1];[9;9];[10;9];[4;4];[10;0];[5;5]]%Q.
Example C26_ex : 1 <= 4 /\ clique_data <> [] /\ uniform (dimension clique_data) clique_data /\
  clique clique_data 4 1 = Ok (mkS [[3;4];[0;1;2]] [6;5;7]).
Proof.
  split; [lia|]. split; [discriminate|]. split; [|vm_compute; reflexivity].
  intros p Hp. vm_compute in Hp. intuition; subst; reflexivity.
Qed.
(** two dense cells joined by a face *)
Example C26_ex_chain : clique [[0];[1];[2];[3];[4];[9];[10]]%Q 5 1 = Ok (mkS [[2;3;4;0;1];[5;6]] []).
Proof. vm_compute. reflexivity. Qed.

(** C49, CLIQUE: a second process() repeats every cluster and every noise point *)
Theorem C49_clique_reprocess_refuted : exists data intervals threshold st st',
  clique data intervals threshold = Ok st /\ process data intervals threshold st = Ok st' /\
  Permutation (concat (clusters st) ++ noise st) (seq 0 (length data)) /\
  clusters st' <> clusters st /\ ~ Permutation (concat (clusters st') ++ noise st') (seq 0 (length data)).
Proof.
  exists clique_data, 4, 1, (mkS [[3;4];[0;1;2]] [6;5;7]), (mkS [[3; 4]; [0; 1; 2]; [3; 4]; [0; 1; 2]] [6; 5; 7; 6; 5; 7]).
  split; [vm_compute; reflexivity|]. split; [vm_compute; reflexivity|]. split.
  - apply NoDup_Permutation; [repeat (constructor; [simpl; lia|]); constructor|apply seq_NoDup|]. intros x. simpl. lia.
  - split; [discriminate|]. intros H. apply Permutation_length in H. discriminate.
Qed.
Print Assumptions C49_clique_reprocess_refuted.
