(** C46, C71: CURE. *)
From Verif Require Import Base Kmeans_Model Kmeans_Proofs Kd_Model Kd_Proofs Cure_Model Cure_Proofs.
From Coq Require Import Reals Qreals Lra.
Local Open Scope nat_scope.

(** C46 *)
Theorem C46_cure data number represent compression :
  data <> [] -> 0 < dimension data -> uniform (dimension data) data -> (0 <= compression)%Q -> 1 <= represent -> 1 <= number ->
  exists s, cure data represent compression number = Ok s /\
    partitions (length data) (clusters s) /\ no_empty (clusters s) /\ length (clusters s) = Nat.min (length data) number /\
    length (means s) = length (clusters s) /\ length (representors s) = length (clusters s) /\
    forall k, k < length (clusters s) ->
      let pts := map (fun i => nth i data []) (nth k (clusters s) []) in
      is_mean (dimension data) pts (nth k (means s) []) /\
      nth k (representors s) [] <> [] /\ length (nth k (representors s) []) <= represent /\
      Forall (shrunk (dimension data) compression pts (nth k (means s) [])) (nth k (representors s) []).
Proof.
  intros Hne HD Hu Hc Hr Hn. destruct (cure_spec data represent compression Hr HD Hu number Hne Hc Hn) as (s & E & I & L).
  exists s. split; [exact E|]. split; [apply (s_part _ _ _ _ I)|].
  assert (Hlen : length (clusters s) = length (queue s)) by (unfold clusters; apply map_length). split; [|split; [lia|split; [|split]]].
  - unfold no_empty. rewrite Forall_forall. intros c Hin. unfold clusters in Hin. apply in_map_iff in Hin as (i & <- & Hi). apply (o_idx data represent compression), (s_obj _ _ _ _ I i Hi).
  - unfold means. rewrite map_length. auto.
  - unfold representors. rewrite map_length. auto.
  - intros k Hk pts. rewrite Hlen in Hk. set (i := nth k (queue s) 0). assert (Hi : In i (queue s)) by (apply nth_In; auto).
    destruct (s_obj _ _ _ _ I i Hi) as [_ O].
    assert (E1 : nth k (clusters s) [] = cidx (obj (heap s) i)). { unfold clusters. rewrite nth_indep with (d' := (fun i => cidx (obj (heap s) i)) 0) by (rewrite map_length; auto). apply (map_nth (fun i => cidx (obj (heap s) i))). }
    assert (E2 : nth k (means s) [] = cmean (obj (heap s) i)). { unfold means. rewrite nth_indep with (d' := (fun i => cmean (obj (heap s) i)) 0) by (rewrite map_length; auto). apply (map_nth (fun i => cmean (obj (heap s) i))). }
    assert (E3 : nth k (representors s) [] = crep (obj (heap s) i)). { unfold representors. rewrite nth_indep with (d' := (fun i => crep (obj (heap s) i)) 0) by (rewrite map_length; auto). apply (map_nth (fun i => crep (obj (heap s) i))). }
    unfold pts. rewrite E1, E2, E3. rewrite <- (o_pts _ _ _ _ O). destruct O. auto.
Qed.
Print Assumptions C46_cure.

Theorem C46_refused data number represent compression :
  data = [] \/ number = 0 \/ (compression < 0)%Q \/ represent = 0 -> cure data represent compression number = Raise ValueError.
Proof.
  intros H. unfold cure. destruct data; [reflexivity|]. destruct (Nat.eqb_spec number 0); [reflexivity|]. destruct (Qltb compression 0) eqn:E; [reflexivity|]. apply Qltb_false in E.
  destruct (Nat.eqb_spec represent 0); [reflexivity|]. exfalso. destruct H as [H|[H|[H|H]]]; try congruence. apply Qle_not_lt in E. contradiction.
Qed.
Print Assumptions C46_refused.

Example C46_nonvacuous : let data := [[0;0];[1;0];[0;0];[9;9];[9;8];[5;0]]%Q in
  data <> [] /\ 0 < dimension data /\ uniform (dimension data) data /\
  exists s, cure data 2 (1 # 2) 3 = Ok s /\ clusters s = [[0;2;1]; [5]; [3;4]].
Proof.
  split; [discriminate|]. split; [vm_compute; lia|]. split; [intros p Hp; simpl in Hp; intuition; subst; reflexivity|].
  eexists. split; vm_compute; reflexivity.
Qed.

(** the comparisons with the root of the squared distance, made between squares in the model *)
Lemma C46_le_sqrt e s : (0 <= s)%Q -> le_root e s = true <-> (Q2R e <= sqrt (Q2R s))%R.
Proof.
  intros Hs. apply Qle_Rle in Hs. rewrite RMicromega.Q2R_0 in Hs. unfold le_root. rewrite orb_true_iff, !Qle_bool_iff. split.
  - intros [H|H]; apply Qle_Rle in H.
    + rewrite RMicromega.Q2R_0 in H. pose proof (sqrt_pos (Q2R s)). lra.
    + rewrite Q2R_mult in H. destruct (Rle_lt_dec (Q2R e) 0); [pose proof (sqrt_pos (Q2R s)); lra|]. rewrite <- (sqrt_square (Q2R e)) by lra. apply sqrt_le_1; nra.
  - intros H. destruct (Rle_lt_dec (Q2R e) 0) as [Hn|Hp]; [left; apply Rle_Qle; rewrite RMicromega.Q2R_0; auto|]. right. apply Rle_Qle. rewrite Q2R_mult.
    pose proof (sqrt_sqrt (Q2R s) Hs). nra.
Qed.

Lemma C46_lt_sqrt e s : (0 <= s)%Q -> lt_root e s = true <-> (Q2R e < sqrt (Q2R s))%R.
Proof.
  intros Hs. apply Qle_Rle in Hs. rewrite RMicromega.Q2R_0 in Hs. unfold lt_root. rewrite orb_true_iff, !Qltb_true. split.
  - intros [H|H]; apply Qlt_Rlt in H.
    + rewrite RMicromega.Q2R_0 in H. pose proof (sqrt_pos (Q2R s)). lra.
    + rewrite Q2R_mult in H. destruct (Rle_lt_dec 0 (Q2R e)); [|pose proof (sqrt_pos (Q2R s)); lra]. rewrite <- (sqrt_square (Q2R e)) by lra. apply sqrt_lt_1; nra.
  - intros H. destruct (Rlt_le_dec (Q2R e) 0) as [Hn|Hp]; [left; apply Rlt_Qlt; rewrite RMicromega.Q2R_0; auto|]. right. apply Rlt_Qlt. rewrite Q2R_mult.
    pose proof (sqrt_sqrt (Q2R s) Hs). nra.
Qed.

(** C71: CURE is described as merging the two closest clusters in every step.  Here five clusters
    remain after one merge; 100 and 101.5 are at (squared) distance 2.25, but the next merge joins
    the cluster of 0 and -1 with -2.3, whose representatives are 2.4025 apart. *)
Definition cluster_apart (rep1 rep2 : list point) (v : Q) : Prop :=
  (exists p q, In p rep1 /\ In q rep2 /\ (v == sqdist p q)%Q) /\ forall p q, In p rep1 -> In q rep2 -> (v <= sqdist p q)%Q.

Theorem C71_cure_closest_pair_refuted : exists data s5 s4,
  cure data 5 (1 # 2) 5 = Ok s5 /\ cure data 5 (1 # 2) 4 = Ok s4 /\
  clusters s5 = [[0;1];[3];[4];[5];[2]] /\ clusters s4 = [[4];[5];[0;1;3];[2]] /\
  cluster_apart (nth 0 (representors s5) []) (nth 1 (representors s5) []) (24025 # 10000) /\
  cluster_apart (nth 2 (representors s5) []) (nth 3 (representors s5) []) (225 # 100).
Proof.
  exists [[0];[-1];[14 # 10];[-23 # 10];[100];[1015 # 10]]%Q. do 2 eexists. split; [vm_compute; reflexivity|]. split; [vm_compute; reflexivity|].
  split; [vm_compute; reflexivity|]. split; [vm_compute; reflexivity|]. split; (split; [|intros p q Hp Hq; vm_compute in Hp, Hq; intuition; subst; vm_compute; discriminate]).
  - vm_compute. eexists. eexists. split; [left; reflexivity|]. split; [left; reflexivity|]. reflexivity.
  - vm_compute. eexists. eexists. split; [left; reflexivity|]. split; [left; reflexivity|]. reflexivity.
Qed.
Print Assumptions C71_cure_closest_pair_refuted.
