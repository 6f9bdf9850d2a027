(** C102: which clusters EM keeps when some have no responsibility for any point. *)
From Verif Require Import Base Kmeans_Model Kmeans_Proofs Metric_Model Fcm_Model Fcm_Proofs Ema_Model Ema_Proofs.
From Coq Require Import Reals Lra Lia.
Local Open Scope R_scope.

(** ** specification *)
(** [mean] is the mean of the points weighted by the responsibilities of cluster [c] *)
Definition centre_of (data : list rpoint) (e : state) (c : nat) (mean : rpoint) : Prop :=
  length mean = length (nth 0 data []) /\
  forall d, (d < length (nth 0 data []))%nat ->
    nth d mean 0 * sum_over (length data) (resp e c) = sum_over (length data) (fun i => resp e c i * nth d (nth i data []) 0).
(** no cluster but the given ones has any responsibility *)
Definition remaining (e : state) (left : list nat) : Prop :=
  StronglySorted lt left /\ forall c, In c left <-> (c < amount e)%nat /\ rtotal (nth c (rc e) []) <> 0.

Lemma strongly_filter (p : nat -> bool) l : StronglySorted lt l -> StronglySorted lt (filter p l).
Proof. induction 1 as [|x l Hs IH Hf]; cbn [filter]; [constructor|]. destruct (p x); auto. constructor; auto. rewrite Forall_forall in *. intros y Hy. apply filter_In in Hy as (Hy & _). auto. Qed.
Lemma sorted_ext l : StronglySorted lt l -> forall l', StronglySorted lt l' -> (forall x, In x l <-> In x l') -> l = l'.
Proof.
  induction 1 as [|x l Hs IH Hf]; intros [|y l'] H' E; auto.
  - exfalso. destruct (proj2 (E y)). now left.
  - exfalso. destruct (proj1 (E x)). now left.
  - rewrite Forall_forall in Hf. pose proof (StronglySorted_inv H') as (Hs' & Hf'). rewrite Forall_forall in Hf'.
    assert (x = y) as <-. { destruct (proj1 (E x) (or_introl eq_refl)) as [|I1]; auto. destruct (proj2 (E y) (or_introl eq_refl)) as [|I2]; auto. apply Hf' in I1. apply Hf in I2. lia. }
    f_equal. apply IH; auto. intro z. split; intro Hz.
    + destruct (proj1 (E z) (or_intror Hz)) as [<-|]; auto. apply Hf in Hz. lia.
    + destruct (proj2 (E z) (or_intror Hz)) as [<-|]; auto. apply Hf' in Hz. lia.
Qed.
Lemma seq_strongly n a : StronglySorted lt (seq a n).
Proof. revert a. induction n as [|n IH]; intro a; cbn [seq]; constructor; auto. apply Forall_forall. intros x Hx. apply in_seq in Hx. lia. Qed.
Lemma remaining_possible e left : remaining e left -> possible e = left.
Proof.
  intros (Hs & H). apply sorted_ext; [apply strongly_filter, seq_strongly|exact Hs|]. intro c. rewrite H. unfold possible. rewrite filter_In, in_seq. destruct (Req_EM_T _ 0); split; intros (A & B); (split; [lia|congruence]).
Qed.
Lemma mean_centre data e c : length (nth c (rc e) []) = length data -> rtotal (nth c (rc e) []) <> 0 -> centre_of data e c (update_mean data (nth c (rc e) []) (rtotal (nth c (rc e) []))).
Proof.
  intros L N. split; [unfold update_mean, width; now rewrite map_length, seq_length|]. intros d Hd. unfold update_mean. rewrite nth_map_seq0 by exact Hd.
  unfold sum_over. change (fold_right Rplus R0) with rtotal. change (map (resp e c) (seq 0 (length data))) with (map (fun i => resp e c i) (seq 0 (length data))). rewrite <- (row_total data e c L). unfold resp, Rdiv. rewrite Rmult_assoc, Rinv_l by exact N. rewrite Rmult_1_r. reflexivity.
Qed.

(** what the code does: the k-th remaining cluster gets the centre of its own responsibilities, but the points are divided
    by the responsibilities of the first clusters, whichever remain *)
Theorem C102_rows data e left : (0 < length data)%nat -> left <> [] -> remaining e left -> length (rc e) = amount e -> (forall c, (c < amount e)%nat -> length (nth c (rc e) []) = length data) ->
  exists s idx, extract data (maximization data e) = Ok s /\ partitions (length data) (clusters s) /\ no_empty (clusters s) /\
    length idx = length (clusters s) /\ StronglySorted lt idx /\
    forall k, (k < length idx)%nat -> (nth k idx 0 < length left)%nat /\ centre_of data e (nth (nth k idx 0%nat) left 0%nat) (nth k (means s) []) /\
      (forall i, In i (nth k (clusters s) []) -> forall c, (c < length left)%nat -> resp e c i <= resp e (nth k idx 0%nat) i).
Proof.
  intros Hn Hl Hr Lrc Lrow. pose proof (remaining_possible e left Hr) as P. set (m := maximization data e).
  assert (Am : amount m = length left) by (unfold m, maximization; cbn [amount]; now rewrite P).
  assert (Rm : forall c i, resp m c i = resp e c i) by reflexivity.
  assert (Mm : forall k, (k < length left)%nat -> centre_of data e (nth k left 0%nat) (nth k (means m) [])).
  { intros k Hk. unfold m, maximization. cbn [means]. rewrite P. set (g := fun c => update_mean data (nth c (rc e) []) (rtotal (nth c (rc e) []))).
    assert (W : nth k (map g left) [] = g (nth k left 0%nat)) by (rewrite (nth_indep _ [] (g 0%nat)) by (rewrite map_length; exact Hk); apply (map_nth g left 0%nat k)). fold g. unfold rpoint in *. rewrite W. unfold g. destruct (proj1 (proj2 Hr (nth k left 0%nat))) as (B1 & B2); [now apply nth_In|]. apply mean_centre; auto. }
  unfold extract. destruct (Nat.eqb_spec (amount m) 0) as [Z|Z]; [exfalso; rewrite Z in Am; symmetry in Am; apply length_zero_iff_nil in Am; congruence|].
  rewrite (push_groups (fun i => argmax (candidates m i))). set (cl := groups_of (fun i => argmax (candidates m i)) (length data) (amount m)).
  assert (Lcl : length cl = amount m) by (unfold cl, groups_of; rewrite map_length, seq_length; auto).
  assert (Hcand : forall i, (argmax (candidates m i) < amount m)%nat /\ forall c', (c' < amount m)%nat -> resp m c' i <= resp m (argmax (candidates m i)) i).
  { intros i. destruct (argmax_spec (candidates m i)) as (B1 & B2 & _).
    - unfold candidates. destruct (amount m); [lia|discriminate].
    - assert (Lc : length (candidates m i) = amount m) by (unfold candidates; now rewrite map_length, seq_length). rewrite Lc in B1, B2. split; auto.
      intros c' Hc'. specialize (B2 c' Hc'). assert (Nc : forall c, (c < amount m)%nat -> nth c (candidates m i) 0 = resp m c i) by (intros c Hc; unfold candidates; rewrite nth_map_seq0 by auto; reflexivity). rewrite !Nc in B2 by auto. exact B2. }
  assert (Pt : partitions (length data) cl).
  { unfold partitions, cl, groups_of. apply (filter_label_perm (fun i => argmax (candidates m i))). intros i _. apply Hcand. }
  assert (Mx : forall c i, (c < amount m)%nat -> In i (nth c cl []) -> forall c', (c' < amount m)%nat -> resp m c' i <= resp m c i).
  { intros c i Hc Hi c' Hc'. unfold cl, groups_of in Hi. rewrite nth_map_seq0 in Hi by auto. apply filter_In in Hi as (_ & Ei). apply Nat.eqb_eq in Ei. subst c. apply Hcand. auto. }
  set (idx := filter (fun c => nonempty (nth c cl [])) (seq 0 (length cl))).
  assert (Hidx : forall c, (c < length idx)%nat -> (nth c idx 0%nat < amount m)%nat /\ nonempty (nth (nth c idx 0%nat) cl []) = true).
  { intros c Hc. pose proof (nth_In idx 0%nat Hc) as H. apply filter_In in H as (H & H'). apply in_seq in H. split; [lia|auto]. }
  unfold erase_empty. cbn [clusters amount means variances pic gaussians rc]. fold idx.
  destruct (Nat.eqb_spec (length idx) (length cl)) as [El|El].
  - assert (NE : no_empty cl).
    { apply Forall_forall. intros g Hg. apply (In_nth _ _ []) in Hg as (c & Hc & <-). assert (El' : length idx = length (seq 0 (length cl))) by (rewrite seq_length; exact El).
      assert (Ic : In c (seq 0 (length cl))) by (apply in_seq; lia). pose proof (@filter_full_len data Hn _ _ _ El' c Ic) as Hne. cbn beta in Hne. intros E0. rewrite E0 in Hne. discriminate. }
    eexists. exists (seq 0 (amount m)). split; [reflexivity|]. cbn [clusters means]. split; [exact Pt|]. split; [exact NE|]. split; [rewrite seq_length; auto|]. split; [apply seq_strongly|].
    intros k Hk. rewrite seq_length in Hk. rewrite seq_nth by exact Hk. cbn [plus]. split; [lia|]. split; [apply Mm; lia|]. intros i Hi c Hc. rewrite <- !Rm. apply Mx; auto. lia.
  - eexists. exists idx. split; [reflexivity|]. cbn [clusters means]. split; [unfold partitions; rewrite (concat_keep data Hn) by reflexivity; exact Pt|]. split; [|split; [now rewrite keep_length|split; [apply strongly_filter, seq_strongly|]]].
    + apply Forall_forall. intros g Hg. apply in_map_iff in Hg as (c & <- & Hc). apply filter_In in Hc as (_ & Hc). intros E0. rewrite E0 in Hc. discriminate.
    + intros k Hk. destruct (Hidx k Hk) as (B1 & B2). split; [lia|]. rewrite !nth_keep by exact Hk. split; [apply Mm; lia|]. intros i Hi c Hc. rewrite <- !Rm. apply Mx; auto. lia.
Qed.
Print Assumptions C102_rows.

(** the claim holds when the impossible clusters are the last ones: every cluster that remains has the centre of its own
    responsibilities and the points for which it has the largest one of all clusters *)
Theorem C102_last_removed data e j : (0 < length data)%nat -> (0 < j <= amount e)%nat -> length (rc e) = amount e ->
  (forall c, (c < amount e)%nat -> length (nth c (rc e) []) = length data /\ forall i, (i < length data)%nat -> 0 <= resp e c i) ->
  (forall c, (c < amount e)%nat -> ((exists i, (i < length data)%nat /\ 0 < resp e c i) <-> (c < j)%nat)) ->
  exists s idx, extract data (maximization data e) = Ok s /\ partitions (length data) (clusters s) /\ no_empty (clusters s) /\
    length idx = length (clusters s) /\ StronglySorted lt idx /\
    forall k, (k < length idx)%nat -> (nth k idx 0 < j)%nat /\ centre_of data e (nth k idx 0%nat) (nth k (means s) []) /\
      (forall i, In i (nth k (clusters s) []) -> forall c, (c < amount e)%nat -> resp e c i <= resp e (nth k idx 0%nat) i).
Proof.
  intros Hn Hj Lrc Rows Last.
  assert (Zero : forall c, (c < amount e)%nat -> (rtotal (nth c (rc e) []) <> 0 <-> (c < j)%nat)).
  { intros c Hc. destruct (Rows c Hc) as (L & N). rewrite <- (Last c Hc), (row_total data e c L). clear - N.
    assert (G : forall l, (forall i, In i l -> (i < length data)%nat) -> 0 <= rtotal (map (resp e c) l) /\ (rtotal (map (resp e c) l) <> 0 <-> exists i, In i l /\ 0 < resp e c i)).
    { induction l as [|i l IH]; intro B; cbn [map].
      - unfold rtotal. cbn. split; [lra|]. split; [lra|]. intros (i & [] & _).
      - destruct IH as (I1 & I2); [intros; apply B; now right|]. assert (Ni : 0 <= resp e c i) by (apply N, B; now left).
        unfold rtotal in *. cbn [fold_right]. set (S := fold_right Rplus 0 (map (resp e c) l)) in *. split; [lra|]. split.
        + intro H. destruct (Req_dec S 0) as [E|E]; [exists i; split; [now left|lra]|]. apply I2 in E as (x & Hx & Px). exists x. split; [now right|exact Px].
        + intros (x & [<- | Hx] & Px); [lra|]. assert (S <> 0) by (apply I2; eauto). lra. }
    destruct (G (seq 0 (length data))) as (_ & G2); [intros i Hi; apply in_seq in Hi; lia|]. rewrite G2. split; intros (i & Hi & Pi); exists i; rewrite in_seq in *; split; auto; lia. }
  destruct (C102_rows data e (seq 0 j) Hn) as (s & idx & E & Pt & NE & L & So & H); auto.
  - destruct j; [lia|discriminate].
  - split; [apply seq_strongly|]. intro c. rewrite in_seq. split.
    + intro B. assert (Hc : (c < amount e)%nat) by lia. split; [exact Hc|]. apply Zero; lia.
    + intros (Hc & B). apply Zero in B; lia.
  - intros c Hc. apply (Rows c Hc).
  - exists s, idx. repeat (split; [assumption|]). intros k Hk. destruct (H k Hk) as (H1 & H2 & H3). rewrite seq_length in *. rewrite seq_nth in H2 by exact H1. split; [exact H1|]. split; [exact H2|].
    intros i Hi c Hc. destruct (Nat.lt_ge_cases c j) as [Hcj|Hcj]; [now apply H3|].
    assert (Hin : (i < length data)%nat). { assert (In i (concat (clusters s))) as I by (apply in_concat; exists (nth k (clusters s) []); split; [apply nth_In; lia|exact Hi]). apply (Permutation_in _ Pt), in_seq in I. lia. }
    assert (resp e c i <= 0). { destruct (Rle_lt_dec (resp e c i) 0) as [|B]; [assumption|]. exfalso. assert ((c < j)%nat) by (apply (Last c Hc); eauto). lia. }
    assert (0 <= resp e (nth k idx 0%nat) i) by (apply Rows; [lia|exact Hin]). lra.
Qed.
Print Assumptions C102_last_removed.

(** the impossible cluster is the last one: both others stay *)
Example C102_last_example : let e := {| amount := 3; means := []; variances := []; pic := []; gaussians := []; rc := [[1; 0]; [0; 1]; [0; 0]]; clusters := [] |} in
  (forall c, (c < 3)%nat -> length (nth c (rc e) []) = 2%nat /\ forall i, (i < 2)%nat -> 0 <= resp e c i) /\
  (forall c, (c < 3)%nat -> ((exists i, (i < 2)%nat /\ 0 < resp e c i) <-> (c < 2)%nat)).
Proof.
  unfold resp. cbn [rc]. split.
  - intros [|[|[|c]]] Hc; try lia; (split; [reflexivity|]); intros [|[|i]] Hi; try lia; cbn [nth]; lra.
  - intros [|[|[|c]]] Hc; try lia; split; intro H; try lia.
    + exists 0%nat. split; [lia|]. cbn. lra.
    + exists 1%nat. split; [lia|]. cbn. lra.
    + destruct H as ([|[|i]] & Hi & P); cbn in P; try lia; lra.
Qed.
