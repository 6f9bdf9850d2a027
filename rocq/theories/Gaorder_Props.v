(** C288: the fitness of a chromosome depends on the partition only, not on the numbers of the clusters or the order of
    the points. *)
From Verif Require Import Base Kmeans_Model Kmeans_Proofs Ga_Model Ga_Proofs.

(** ** specification *)
(** [number] gives the clusters other numbers *)
Definition renumbering (k : nat) (number : nat -> nat) : Prop :=
  (forall a, a < k -> number a < k) /\ forall a b, a < k -> b < k -> number a = number b -> a = b.
(** a list in the order [order] *)
Definition reordered {A} (order : list nat) (d : A) (l : list A) : list A := map (fun i => nth i l d) order.

(** ** proofs *)
Lemma nth_gene (number : nat -> nat) c i : i < length c -> nth i (map number c) 0 = number (nth i c 0).
Proof. intros H. rewrite (nth_indep _ 0 (number 0)) by (rewrite map_length; exact H). apply map_nth. Qed.
Lemma gene_range k c i : Forall (fun g => g < k) c -> i < length c -> nth i c 0 < k.
Proof. intros H Hi. rewrite Forall_forall in H. apply H, nth_In, Hi. Qed.

Lemma labelled_renumbered n k number c j : renumbering k number -> chromosome_ok n k c -> j < k ->
  labelled (map number c) (number j) = labelled c j.
Proof.
  intros (R1 & R2) (_ & Hg) Hj. unfold labelled. rewrite map_length. apply filter_ext_in. intros i Hi. apply in_seq in Hi.
  rewrite nth_gene by lia. pose proof (gene_range k c i Hg ltac:(lia)) as Hc.
  destruct (Nat.eqb_spec (nth i c 0) j) as [->|Hne]; [apply Nat.eqb_refl|]. apply Nat.eqb_neq. intros E. apply Hne, R2; auto.
Qed.

(** For every assignment of other numbers to the clusters the fitness stays and each cluster is found under its new number. *)
Theorem C288_numbers : forall (data : list point) (k : nat) (number : nat -> nat) (c : list nat),
  renumbering k number -> chromosome_ok (length data) k c ->
  (fitness data k (map number c) == fitness data k c)%Q /\
  exists cl cl', get_clusters_representation k c = Ok cl /\ get_clusters_representation k (map number c) = Ok cl' /\
    length cl = k /\ length cl' = k /\ forall j, j < k -> nth (number j) cl' [] = nth j cl [].
Proof.
  intros data k number c R Hc.
  assert (Hc' : chromosome_ok (length data) k (map number c)).
  { destruct R as (R1 & _), Hc as (H1 & H2). split; [now rewrite map_length|]. rewrite Forall_forall in *. intros x Hx. apply in_map_iff in Hx as (y & <- & Hy). auto. }
  split.
  - rewrite (fitness_cost data k c Hc), (fitness_cost data k _ Hc'). unfold label_cost. apply qsum_ext. intros i Hi. apply in_seq in Hi. apply qsum_ext. intros d _.
    destruct Hc as (H1 & H2). rewrite nth_gene by lia. unfold label_mean. rewrite (labelled_renumbered (length data) k) by (first [exact R|split; assumption|apply (gene_range k c i H2); lia]). reflexivity.
  - destruct (representation_ok data k c Hc) as (cl & E & L & _ & S). destruct (representation_ok data k _ Hc') as (cl' & E' & L' & _ & S').
    exists cl, cl'. repeat (split; [assumption|]). intros j Hj. rewrite S by exact Hj. rewrite S' by (apply R, Hj). apply (labelled_renumbered (length data) k); assumption.
Qed.
Print Assumptions C288_numbers.

Section Order.
Variables (data : list point) (order : list nat).
Hypothesis Hdim : forall p q, In p data -> In q data -> length p = length q.
Hypothesis Horder : Permutation order (seq 0 (length data)).
Notation n := (length data).
Notation data' := (@reordered point order [] data).

Lemma order_size : length order = n.
Proof. rewrite (Permutation_length Horder). apply seq_length. Qed.
Lemma order_in i : i < n -> nth i order 0 < n.
Proof. intros Hi. assert (In (nth i order 0) (seq 0 n)) as H by (eapply Permutation_in; [exact Horder|]; apply nth_In; rewrite order_size; exact Hi). apply in_seq in H. lia. Qed.
Lemma nth_reordered {A} (d : A) l i : i < n -> nth i (reordered order d l) d = nth (nth i order 0) l d.
Proof.
  intros Hi. unfold reordered. rewrite (nth_indep _ d ((fun i => nth i l d) 0)) by (rewrite map_length, order_size; exact Hi).
  apply (map_nth (fun i => nth i l d)).
Qed.
Lemma order_seq : map (fun i => nth i order 0) (seq 0 n) = order.
Proof.
  rewrite <- order_size. generalize order as l. clear. induction l as [|x t IH]; [reflexivity|]. cbn [length seq map nth]. f_equal. rewrite <- seq_shift, map_map. exact IH.
Qed.
Lemma filter_map_commute (p : nat -> bool) (f : nat -> nat) l : map f (filter (fun x => p (f x)) l) = filter p (map f l).
Proof. induction l as [|x t IH]; [reflexivity|]. cbn [filter map]. destruct (p (f x)); cbn [map]; congruence. Qed.
Lemma filter_permuted (p : nat -> bool) l l' : Permutation l l' -> Permutation (filter p l) (filter p l').
Proof.
  induction 1; cbn [filter]; auto.
  - destruct (p x); auto.
  - destruct (p x), (p y); auto; try apply perm_swap.
  - eapply Permutation_trans; eassumption.
Qed.
Lemma labelled_reordered c j : length c = n -> Permutation (map (fun i => nth i order 0) (labelled (reordered order 0 c) j)) (labelled c j).
Proof.
  intros Hc. unfold labelled. assert (L : length (reordered order 0 c) = n) by (unfold reordered; rewrite map_length; apply order_size). rewrite L, Hc.
  rewrite (filter_ext_in (fun i => nth i (reordered order 0 c) 0 =? j) (fun i => nth (nth i order 0) c 0 =? j)).
  - rewrite (filter_map_commute (fun x => nth x c 0 =? j) (fun i => nth i order 0)), order_seq. apply filter_permuted, Horder.
  - intros i Hi. apply in_seq in Hi. rewrite (nth_reordered 0) by lia. reflexivity.
Qed.
Lemma labelled_small c j i : length c = n -> In i (labelled c j) -> i < n.
Proof. intros Hc Hi. unfold labelled in Hi. apply filter_In in Hi as [Hi _]. apply in_seq in Hi. lia. Qed.
Lemma reordered_size {A} (d : A) l : length (reordered order d l) = n.
Proof. unfold reordered. rewrite map_length. apply order_size. Qed.
Lemma mean_reordered c j d : length c = n -> (label_mean data' (reordered order 0%nat c) j d == label_mean data c j d)%Q.
Proof.
  intros Hc. pose proof (labelled_reordered c j Hc) as P. unfold label_mean.
  assert (L : length (labelled (reordered order 0 c) j) = length (labelled c j)) by (rewrite <- (Permutation_length P), map_length; reflexivity). rewrite L.
  rewrite <- (qsum_perm _ _ (Permutation_map (fun i => coord (nth i data []) d) P)), map_map.
  rewrite (qsum_ext (fun i => coord (nth i data' []) d) (fun i => coord (nth (nth i order 0%nat) data []) d)); [reflexivity|].
  intros i Hi. rewrite nth_reordered; [reflexivity|]. apply (labelled_small (reordered order 0 c) j i (reordered_size 0 c) Hi).
Qed.
Lemma first_dimension : 0 < n -> length (nth 0 data' []) = length (nth 0 data []).
Proof. intros H. rewrite nth_reordered by exact H. apply Hdim; apply nth_In; [apply order_in; exact H|exact H]. Qed.
Lemma cost_reordered c : length c = n -> (label_cost data' (reordered order 0%nat c) == label_cost data c)%Q.
Proof.
  intros Hc. unfold label_cost. rewrite (@reordered_size point [] data).
  set (g := fun i => qsum (map (fun d => Qabs (coord (nth i data []) d - label_mean data c (nth i c 0%nat) d)) (seq 0 (length (nth 0 data []))))).
  change (qsum (map (fun i => qsum (map (fun d => Qabs (coord (nth i data []) d - label_mean data c (nth i c 0%nat) d)) (seq 0 (length (nth 0 data []))))) (seq 0 n))) with (qsum (map g (seq 0 n))).
  rewrite <- (qsum_perm _ _ (Permutation_map g Horder)). assert (X : map g order = map (fun i => g (nth i order 0)) (seq 0 n)) by (rewrite <- (map_map (fun i => nth i order 0) g), order_seq; reflexivity). rewrite X. apply qsum_ext. intros i Hi. apply in_seq in Hi. unfold g.
  rewrite first_dimension by lia. apply qsum_ext. intros d _. rewrite (@nth_reordered point [] data), (nth_reordered 0 c), mean_reordered by (auto; lia). reflexivity.
Qed.
End Order.

(** For points with the same number of coordinates, in whatever order they are given together with their genes: the
    fitness stays, and the clusters have the same points. *)
Theorem C288_order : forall (data : list point) (k : nat) (order : list nat) (c : list nat),
  (forall p q, In p data -> In q data -> length p = length q) -> Permutation order (seq 0 (length data)) -> chromosome_ok (length data) k c ->
  let data' := @reordered point order [] data in
  let c' := reordered order 0 c in
  (fitness data' k c' == fitness data k c)%Q /\
  exists cl cl', get_clusters_representation k c = Ok cl /\ get_clusters_representation k c' = Ok cl' /\
    length cl = k /\ length cl' = k /\ forall j, j < k -> Permutation (map (fun i => nth i order 0) (nth j cl' [])) (nth j cl []).
Proof.
  intros data k order c Hd Ho Hc data' c'. assert (Hn : length data' = length data) by (apply (reordered_size data order Ho)).
  assert (Hc' : chromosome_ok (length data') k c').
  { rewrite Hn. destruct Hc as (H1 & H2). split; [apply (reordered_size data order Ho)|]. apply Forall_forall. intros x Hx. apply in_map_iff in Hx as (i & <- & Hi).
    apply (gene_range k c i H2). rewrite H1. apply (Permutation_in _ Ho) in Hi. apply in_seq in Hi. lia. }
  split.
  - rewrite (fitness_cost data k c Hc), (fitness_cost data' k c' Hc'). apply cost_reordered; auto. apply Hc.
  - destruct (representation_ok data k c Hc) as (cl & E & L & _ & S). destruct (representation_ok data' k c' Hc') as (cl' & E' & L' & _ & S').
    exists cl, cl'. repeat (split; [assumption|]). intros j Hj. rewrite S, S' by exact Hj. apply (labelled_reordered data order Ho). apply Hc.
Qed.
Print Assumptions C288_order.

(** numbers 0 and 1 exchanged; the points in the order 2, 0, 1 *)
Example C288_example :
  renumbering 2 (fun j => 1 - j) /\ chromosome_ok 3 2 [0; 1; 1] /\ Permutation [2; 0; 1] (seq 0 3) /\
  map (fun j => 1 - j) [0; 1; 1] = [1; 0; 0] /\
  reordered [2; 0; 1] 0 [0; 1; 1] = [1; 0; 1] /\ reordered [2; 0; 1] [] [[0]; [4]; [6]]%Q = [[6]; [0]; [4]]%Q /\
  (fitness [[0]; [4]; [6]]%Q 2 [0; 1; 1]%nat == 2)%Q /\ (fitness [[6]; [0]; [4]]%Q 2 [1; 0; 1]%nat == 2)%Q /\ (fitness [[6]; [0]; [4]]%Q 2 [0; 0; 1]%nat == 6)%Q.
Proof.
  split. { split; intros; lia. } split; [repeat constructor|].
  split. { cbn. apply Permutation_sym. apply (Permutation_trans (l' := [0; 2; 1])); [apply perm_skip, perm_swap|apply perm_swap]. }
  repeat split.
Qed.

(** The chromosome cannot be read as clusters exactly when some gene is not the number of a cluster. *)
Theorem C288_out_of_range : forall k c, Exists (fun g => k <= g) c <-> get_clusters_representation k c = Raise IndexError.
Proof.
  intros k c. unfold get_clusters_representation. rewrite Exists_exists. destruct (existsb _ c) eqn:E.
  - split; [reflexivity|]. intros _. apply existsb_exists in E as (g & Hg & H). exists g. split; [exact Hg|]. now apply Nat.leb_le.
  - split; [|discriminate]. intros (g & Hg & H). assert (X : existsb (fun c0 => k <=? c0) c = true) by (apply existsb_exists; exists g; split; [exact Hg|now apply Nat.leb_le]). congruence.
Qed.
Print Assumptions C288_out_of_range.
