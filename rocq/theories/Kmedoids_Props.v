(** C16, C17, C64, C65: k-medoids *)
From Verif Require Import Base Kmeans_Model Kmeans_Proofs Kmedoids_Model Kmedoids_Proofs.

(** the cost of an exchange is the true change of the total deviation *)
Theorem C16_swap_cost_exact D n M k c : M <> [] -> k < length M -> c < n ->
  (D c c == 0)%Q -> (forall m, In m (upd M k c) -> (0 <= D c m)%Q) ->
  (swap_cost D n (table D n M) c k == deviation D n (upd M k c) - deviation D n M)%Q.
Proof. exact (swap_cost_exact D n M k c). Qed.
Print Assumptions C16_swap_cost_exact.

(** [deviation] is what it should be: the sum of the distances to nearest medoids *)
Theorem C16_deviation_meaning D M i : M <> [] -> is_min_dist D M i (least (D i) M).
Proof. exact (least_is_min_dist D M i). Qed.
Print Assumptions C16_deviation_meaning.

(** false: "an exchange is applied only if it lowers the deviation": k-medoids started in the
    optimal medoid of three points ends in a worse one *)
Definition c16_points : list point := [[0%Q]; [1%Q]; [2%Q]].
Definition c16_D (i j : nat) : Q := sqdist (nth i c16_points []) (nth j c16_points []).
Theorem C16_swap_only_improving_refuted : exists n initial r,
  kmedoids_process c16_D n initial (1 # 1000) 200 = Ok r /\
  (deviation c16_D n initial < deviation c16_D n (r_medoids r))%Q /\
  (forall m, m < n -> (deviation c16_D n initial <= deviation c16_D n [m])%Q).
Proof.
  exists 3, [1]. eexists. split; [vm_compute; reflexivity|]. split; [vm_compute; reflexivity|].
  intros m Hm. destruct m as [|[|[|m]]]; try lia; vm_compute; discriminate.
Qed.
Print Assumptions C16_swap_only_improving_refuted.

(** C65: what process() does, for all inputs *)
Theorem C65_kmedoids_partition D n initial tol itermax r :
  (forall i, i < n -> (D i i == 0)%Q) -> (forall i j, i < n -> j < n -> (0 <= D i j)%Q) ->
  initial <> [] -> (forall m, In m initial -> m < n) -> 1 <= itermax ->
  kmedoids_process D n initial tol itermax = Ok r ->
  partitions n (r_clusters r) /\ no_empty (r_clusters r) /\ length (r_medoids r) = length (r_clusters r) /\
  length (r_medoids r) <= length initial /\ (forall m, In m (r_medoids r) -> m < n) /\ (NoDup initial -> NoDup (r_medoids r)) /\
  (forall k i, k < length (r_clusters r) -> In i (nth k (r_clusters r) []) ->
     forall m, In m (r_medoids r) -> (D i (nth k (r_medoids r) 0%nat) <= D i m)%Q) /\
  (r_total r == deviation D n (r_medoids r))%Q.
Proof.
  intros H1 H2 H3 H4 Hi H.
  destruct (kmedoids_process_spec D n H1 H2 initial tol itermax r (conj H3 H4) Hi H) as (A1 & A2 & A3 & A4 & A5 & A6 & A7 & M & B1 & B2 & B3 & B4).
  split; [|split; [|split; [|split; [|split; [|split; [|split]]]]]]; try assumption.
  rewrite B2. unfold deviation. apply qsum_ext. intros i Hin. apply in_seq in Hin. symmetry. apply B4. lia.
Qed.
Print Assumptions C65_kmedoids_partition.

(** the run: only best exchanges, each but the last lowers the deviation by more than the
    tolerance; it ends at the limit, without allowed exchanges, or after the first exchange
    that does not lower the deviation enough *)
Theorem C65_kmedoids_run D n initial tol itermax r :
  (forall i, i < n -> (D i i == 0)%Q) -> (forall i j, i < n -> j < n -> (0 <= D i j)%Q) ->
  initial <> [] -> (forall m, In m initial -> m < n) -> 1 <= itermax ->
  kmedoids_process D n initial tol itermax = Ok r ->
  exists M, pam D n tol itermax initial (r_iterations r) M /\ (r_total r == deviation D n M)%Q /\
     (forall m, In m (r_medoids r) -> In m M).
Proof.
  intros H1 H2 H3 H4 Hi H.
  destruct (kmedoids_process_spec D n H1 H2 initial tol itermax r (conj H3 H4) Hi H) as (A1 & A2 & A3 & A4 & A5 & A6 & A7 & M & B1 & B2 & B3 & B4).
  exists M. auto.
Qed.
Print Assumptions C65_kmedoids_run.

(** consequently with two iterations or more, all but the last exchange improved *)
Theorem C65_pam_improves D n tol limit M T M' : (0 <= tol)%Q -> pam D n tol limit M T M' ->
  T <= limit /\ forall t, S t < T -> exists M1, pam D n tol (S t) M (S t) M1 /\ (deviation D n M1 < deviation D n M)%Q.
Proof.
  intros Ht H. induction H as [M|l M Hno|l M M' Hb Hd|l M M' T M'' Hb Hd Hp IH].
  - split; [lia|]. intros; lia.
  - split; [lia|]. intros; lia.
  - split; [lia|]. intros; lia.
  - destruct IH as [IH1 IH2]. split; [lia|]. intros t HtT. destruct t as [|t].
    + exists M'. split; [|lra]. apply pam_step with M'; auto. constructor.
    + destruct (IH2 t ltac:(lia)) as (M1 & HM1 & Hlt). exists M1. split; [apply pam_step with M'; auto|lra].
Qed.
Print Assumptions C65_pam_improves.

(** C64: labels and clusters disagree when a medoid has no points *)
Definition c64_points : list point := [[0%Q]; [0%Q]; [5%Q]].
Definition c64_D (i j : nat) : Q := sqdist (nth i c64_points []) (nth j c64_points []).
Theorem C64_labels_refuted : exists n initial r, NoDup initial /\
  kmedoids_process c64_D n initial (1 # 1000) 200 = Ok r /\
  exists i k, In i (nth k (r_clusters r) []) /\ nth i (r_labels r) 0 <> k /\ length (r_clusters r) <= nth i (r_labels r) 0.
Proof.
  exists 3, [0; 1; 2]. eexists. split; [repeat constructor; simpl; intuition congruence|]. split; [vm_compute; reflexivity|].
  exists 2, 1. vm_compute. split; [auto|]. split; [discriminate|auto].
Qed.
Print Assumptions C64_labels_refuted.

(** labels and clusters agree when no cluster is dropped *)
Theorem C64_labels_agree D n initial tol itermax r :
  (forall i, i < n -> (D i i == 0)%Q) -> (forall i j, i < n -> j < n -> (0 <= D i j)%Q) ->
  initial <> [] -> (forall m, In m initial -> m < n) -> 1 <= itermax ->
  kmedoids_process D n initial tol itermax = Ok r -> length (r_clusters r) = length initial ->
  forall k i, k < length (r_clusters r) -> (In i (nth k (r_clusters r) []) <-> i < n /\ nth i (r_labels r) 0 = k).
Proof.
  intros H1 H2 H3 H4 Hi H Hlen k i Hk.
  unfold kmedoids_process in H.
  destruct (n =? 0) eqn:En; [discriminate|]. destruct initial as [|m0 mt] eqn:Einit; [congruence|]. rewrite <- Einit in *. clear Einit.
  destruct (Qltb tol 0); [discriminate|]. destruct itermax as [|it]; [lia|].
  pose proof (kmedoids_loop_spec D n H1 H2 tol (S it) None initial 0 (med_deviation D n initial) (conj H3 H4) (med_deviation_spec D n initial H3)) as Hs.
  destruct (kmedoids_loop D n tol (S it) None initial 0 (med_deviation D n initial)) as [[M T] total].
  destruct Hs as (Hv' & Hl & _).
  assert (Hlc : length (med_clusters D n M) = length M) by (rewrite med_clusters_groups; unfold groups_of; now rewrite map_length, seq_length).
  pose proof (erase_fst (med_clusters D n M) M Hlc) as Hf.
  destruct (erase_empty (med_clusters D n M) M) as [cl ms]. apply Ok_inj in H. subst r. cbn [r_clusters r_labels fst] in *. subst cl.
  rewrite filter_full in * by (rewrite Hlen, Hlc; auto). rewrite med_clusters_groups in *. unfold groups_of in *.
  rewrite map_length, seq_length in Hk. rewrite nth_map_seq0 by auto. rewrite filter_In, in_seq, Nat.eqb_eq.
  split; intros [Ha Hb]; (split; [lia|]).
  - unfold table. rewrite map_map. rewrite nth_map_seq0 by lia. exact Hb.
  - unfold table in Hb. rewrite map_map in Hb. rewrite nth_map_seq0 in Hb by lia. exact Hb.
Qed.
Print Assumptions C64_labels_agree.

Theorem C17_build_greedy D n k :
  (forall i, i < n -> (D i i == 0)%Q) -> (forall i j, i < n -> j < n -> (0 <= D i j)%Q) -> 1 <= k -> k <= n ->
  exists M, build_initialize D n k = Ok M /\ length M = k /\ NoDup M /\ (forall m, In m M -> m < n) /\
    forall pre x post, M = pre ++ x :: post -> forall y, y < n -> ~ In y pre ->
      (qsum (map (fun j => least (fun m => D m j) (pre ++ [x])) (seq 0 n)) <=
       qsum (map (fun j => least (fun m => D m j) (pre ++ [y])) (seq 0 n)))%Q.
Proof. exact (fun H1 H2 => build_initialize_spec D n H1 H2 k). Qed.
Print Assumptions C17_build_greedy.

(** arguments out of range are refused *)
Theorem C17_build_refuses D n k : (k < 1 \/ n < k) -> build_initialize D n k = Raise ValueError.
Proof.
  intros H. unfold build_initialize. destruct (Nat.eqb_spec n 0); auto. destruct (Nat.ltb_spec k 1); auto.
  destruct (Nat.ltb_spec n k); auto. lia.
Qed.
Print Assumptions C17_build_refuses.

Definition c17_points : list point := [[0%Q]; [1%Q]; [2%Q]; [10%Q]; [11%Q]].
Definition c17_D (i j : nat) : Q := sqdist (nth i c17_points []) (nth j c17_points []).
Example C17_case : (forall i, i < 5 -> (c17_D i i == 0)%Q) /\ (forall i j, i < 5 -> j < 5 -> (0 <= c17_D i j)%Q) /\
  build_initialize c17_D 5 2 = Ok [2; 3].
Proof. split; [intros; apply sqdist_refl|]. split; [intros; apply sqdist_nonneg|vm_compute; reflexivity]. Qed.
Example C16_case : (swap_cost c17_D 5 (table c17_D 5 [0%nat; 1%nat]) 3 1 == -176)%Q /\ (c17_D 3 3 == 0)%Q.
Proof. split; vm_compute; reflexivity. Qed.
Example C65_case : exists r, kmedoids_process c17_D 5 [0; 1] (1 # 1000) 10 = Ok r /\
  r_clusters r = [[3; 4]; [0; 1; 2]] /\ r_medoids r = [4; 1] /\ r_iterations r = 2.
Proof. eexists. split; [vm_compute; reflexivity|]. vm_compute. auto. Qed.
