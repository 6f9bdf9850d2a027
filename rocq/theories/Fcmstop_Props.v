(** C290: when fuzzy c-means stops. *)
From Verif Require Import Base Kmeans_Model Metric_Model Fcm_Model.
From Coq Require Import Reals Lra Lia.
Local Open Scope R_scope.

(** ** specification *)
(** the square of the distance between two places of a centre *)
Definition squared_move (a b : rpoint) : R := fold_right Rplus 0 (map2 (fun x y => (x - y) ^ 2) a b).
(** some centre moved, squared, by more than the tolerance *)
Definition moved (tolerance : R) (before after : list rpoint) : Prop :=
  exists i, (i < length before)%nat /\ (i < length after)%nat /\ tolerance < squared_move (nth i before []) (nth i after []).
(** the places of the centres after [k] rounds, one round being a new membership and new centres *)
Fixpoint rounds (data : list rpoint) (m : R) (initial : list rpoint) (k : nat) : list rpoint :=
  match k with
  | O => initial
  | S k' => let c := rounds data m initial k' in calculate_centers data (update_membership data m c) (length c)
  end.

(** ** proofs *)
Lemma map2_nth_move : forall (a b : list rpoint) i, (i < length a)%nat -> (i < length b)%nat ->
  nth i (map2 difference a b) 0 = squared_move (nth i a []) (nth i b []).
Proof. induction a as [|x a IH]; intros [|y b] [|i] H1 H2; cbn [length] in *; try lia; [reflexivity|]. apply (IH b i); lia. Qed.
Lemma map2_len : forall (a b : list rpoint), length (map2 difference a b) = Nat.min (length a) (length b).
Proof. induction a as [|x a IH]; intros [|y b]; cbn; try reflexivity. now rewrite IH. Qed.
Lemma max_above t : 0 <= t -> forall l, t < fold_right Rmax 0 l <-> exists i, (i < length l)%nat /\ t < nth i l 0.
Proof.
  intros Ht. induction l as [|x l IH]; cbn [fold_right length].
  - split; [intros H; exfalso; lra|intros (i & H & _); lia].
  - split.
    + intros H. destruct (Rlt_dec t x) as [Hx|Hx]; [exists O; split; [lia|exact Hx]|].
      destruct (proj1 IH) as (i & Hi & H'); [|exists (S i); split; [lia|exact H']].
      revert H. apply Rmax_case; [intros; lra|auto].
    + intros ([|i] & Hi & H); cbn [nth] in H.
      * eapply Rlt_le_trans; [exact H|apply Rmax_l].
      * eapply Rlt_le_trans; [|apply Rmax_r]. apply IH. exists i. split; [lia|exact H].
Qed.
Lemma changes_moved t before after : 0 <= t -> (t < calculate_changes before after <-> moved t before after).
Proof.
  intros Ht. unfold calculate_changes. rewrite max_above by exact Ht. rewrite map2_len. split.
  - intros (i & Hi & H). rewrite map2_nth_move in H by lia. exists i. repeat split; [lia|lia|exact H].
  - intros (i & H1 & H2 & H). exists i. split; [lia|]. rewrite map2_nth_move by assumption. exact H.
Qed.

Lemma loop_stop data m initial tolerance : 0 <= tolerance -> forall left j mem,
  exists k, (S j <= k <= S j + left)%nat /\
    fcm_loop data m tolerance left (Some (calculate_changes (rounds data m initial j) (rounds data m initial (S j)))) mem (rounds data m initial (S j)) =
      ((if (k =? S j)%nat then mem else update_membership data m (rounds data m initial (k - 1))), rounds data m initial k) /\
    (forall i, (S j <= i < k)%nat -> moved tolerance (rounds data m initial (i - 1)) (rounds data m initial i)) /\
    (k = (S j + left)%nat \/ ~ moved tolerance (rounds data m initial (k - 1)) (rounds data m initial k)).
Proof.
  intros Ht. induction left as [|left IH]; intros j mem.
  - exists (S j). rewrite Nat.eqb_refl. split; [lia|]. split; [reflexivity|]. split; [lia|left; lia].
  - cbn [fcm_loop]. destruct (Rlt_dec tolerance (calculate_changes (rounds data m initial j) (rounds data m initial (S j)))) as [H|H].
    + destruct (IH (S j) (update_membership data m (rounds data m initial (S j)))) as (k & Hk & E & F & G).
      exists k. split; [lia|]. split.
      * etransitivity; [exact E|]. destruct (Nat.eqb_spec k (S j)) as [Hx|_]; [lia|].
        destruct (Nat.eqb_spec k (S (S j))) as [Hx|_]; [|reflexivity]. subst k. replace (S (S j) - 1)%nat with (S j) by lia. reflexivity.
      * split.
        -- intros i Hi. destruct (Nat.eq_dec i (S j)) as [->|Hne]; [|apply F; lia].
           replace (S j - 1)%nat with j by lia. apply changes_moved; assumption.
        -- destruct G as [G|G]; [left; lia|right; exact G].
    + exists (S j). rewrite Nat.eqb_refl. split; [lia|]. split; [reflexivity|]. split; [lia|]. right.
      replace (S j - 1)%nat with j by lia. intros Hm. apply H, changes_moved; assumption.
Qed.

(** The centres returned are those of the first round in which no centre moved, squared, by more than the tolerance, or of
    round [itermax]; the memberships are those the last centres were calculated from. *)
Theorem C290_stop : forall (data : list rpoint) (m : R) (initial : list rpoint) (tolerance : R) (itermax : nat) clusters centers membership,
  0 <= tolerance -> (1 <= itermax)%nat -> fcm_process data m initial tolerance itermax = Ok (clusters, centers, membership) ->
  exists k, (1 <= k <= itermax)%nat /\ centers = rounds data m initial k /\ membership = update_membership data m (rounds data m initial (k - 1)) /\
    (forall i, (1 <= i < k)%nat -> moved tolerance (rounds data m initial (i - 1)) (rounds data m initial i)) /\
    (k = itermax \/ ~ moved tolerance (rounds data m initial (k - 1)) (rounds data m initial k)).
Proof.
  intros data m initial tolerance itermax clusters centers membership Ht Hi E. unfold fcm_process in E.
  destruct (length data =? 0)%nat; [discriminate|]. destruct (length initial =? 0)%nat; [discriminate|]. cbv zeta in E.
  injection E as _ E1 E2. subst centers membership. destruct itermax as [|left]; [lia|]. cbn [fcm_loop].
  destruct (loop_stop data m initial tolerance Ht left 0 (update_membership data m initial)) as (k & Hk & L & F & G).
  cbn [rounds] in L. rewrite L. cbn [fst snd]. exists k. split; [lia|]. split; [reflexivity|]. split; [|split; [exact F|destruct G; [left; lia|right; assumption]]].
  destruct (Nat.eqb_spec k 1) as [->|_]; reflexivity.
Qed.
Print Assumptions C290_stop.

Lemma member_alone m d : member m [d] d = 1.
Proof.
  assert (P : rpow m 1 = 1).
  { unfold rpow. destruct (Req_EM_T 1 0); [lra|]. unfold Rpower. rewrite ln_1, Rmult_0_r. apply exp_0. }
  assert (D : divider m [d] d = if Req_EM_T d 0 then 0 else 1).
  { unfold divider, differs. cbn [filter]. destruct (Req_EM_T d 0) as [e|ne]; cbn [map rtotal fold_right]; [reflexivity|].
    replace (d / d) with 1 by (field; exact ne). rewrite P. unfold rtotal; cbn; lra. }
  unfold member. rewrite D. destruct (Req_EM_T d 0); destruct (Req_EM_T _ 0); try lra; try (exfalso; lra).
Qed.

(** The documented tolerance is for the change of the centres, but what is compared with it is the square: for every
    tolerance below 1 there are data whose first round moves the centre further than the tolerance and ends the run. *)
Theorem C290_distance_refuted : forall tolerance, 0 < tolerance < 1 -> exists (data initial : list rpoint) step,
  tolerance < step /\ initial = [[0]] /\ rounds data 2 initial 1 = [[step]] /\
  ~ moved tolerance (rounds data 2 initial 0) (rounds data 2 initial 1).
Proof.
  intros t Ht.
  assert (Hq : t < sqrt t).
  { apply Rsqr_incrst_0; [|lra|apply sqrt_pos]. rewrite Rsqr_sqrt by lra. unfold Rsqr. nra. }
  exists [[sqrt t]], [[0]], (sqrt t). split; [exact Hq|]. split; [reflexivity|].
  assert (E : rounds [[sqrt t]] 2 [[0]] 1 = [[sqrt t]]).
  { cbn [rounds length update_membership map]. unfold point_membership. cbv zeta. cbn [map]. rewrite member_alone.
    unfold calculate_centers, dim, column, rtotal. cbn. f_equal. f_equal. field. }
  split; [exact E|]. rewrite E. cbn [rounds]. intros (i & H1 & _ & H). cbn [length] in H1. destruct i; [|lia].
  unfold squared_move in H. cbn [nth map2 fold_right] in H. pose proof (sqrt_sqrt t ltac:(lra)) as Q. revert H Q. generalize (sqrt t). intros x H Q. nra.
Qed.
Print Assumptions C290_distance_refuted.

(** the hypotheses of C290_stop are met, with a run that stops before [itermax] *)
Example C290_example : exists clusters centers membership,
  fcm_process [[1]; [3]] 2 [[0]] (1/10) 5 = Ok (clusters, centers, membership) /\ centers = [[2]] /\
  moved (1/10) (rounds [[1]; [3]] 2 [[0]] 0) (rounds [[1]; [3]] 2 [[0]] 1) /\
  ~ moved (1/10) (rounds [[1]; [3]] 2 [[0]] 1) (rounds [[1]; [3]] 2 [[0]] 2).
Proof.
  assert (S : forall c, calculate_centers [[1]; [3]] (update_membership [[1]; [3]] 2 [c]) 1 = [[2]]).
  { intros c. unfold update_membership, point_membership. cbv zeta. cbn [map]. rewrite !member_alone.
    unfold calculate_centers, dim, column, rtotal. cbn. f_equal. f_equal. field. }
  assert (R1 : rounds [[1]; [3]] 2 [[0]] 1 = [[2]]) by (cbn [rounds length]; apply S).
  assert (R2 : rounds [[1]; [3]] 2 [[0]] 2 = [[2]]) by (change (rounds [[1]; [3]] 2 [[0]] 2) with (let c := rounds [[1]; [3]] 2 [[0]] 1 in calculate_centers [[1]; [3]] (update_membership [[1]; [3]] 2 c) (length c)); rewrite R1; apply S).
  assert (M : moved (1/10) (rounds [[1]; [3]] 2 [[0]] 0) (rounds [[1]; [3]] 2 [[0]] 1)).
  { rewrite R1. exists O. cbn [rounds length nth]. repeat split; [lia|lia|]. unfold squared_move; cbn; lra. }
  assert (N : ~ moved (1/10) (rounds [[1]; [3]] 2 [[0]] 1) (rounds [[1]; [3]] 2 [[0]] 2)).
  { rewrite R1, R2. intros ([|i] & H & _ & L); [|cbn in H; lia]. unfold squared_move in L; cbn in L; lra. }
  destruct (fcm_process [[1]; [3]] 2 [[0]] (1/10) 5) as [[[cl ce] me]|x] eqn:E; [|unfold fcm_process in E; discriminate].
  exists cl, ce, me. split; [reflexivity|]. split; [|split; assumption].
  destruct (C290_stop [[1]; [3]] 2 [[0]] (1/10) 5 cl ce me ltac:(lra) ltac:(lia) E) as ([|k] & Hk & -> & _); [lia|]. clear.
  assert (L : length (rounds [[1]; [3]] 2 [[0]] k) = 1%nat) by (induction k as [|k IH]; [reflexivity|]; cbn [rounds]; unfold calculate_centers; rewrite map_length, seq_length; exact IH).
  cbn [rounds]. destruct (rounds [[1]; [3]] 2 [[0]] k) as [|c [|? ?]]; try discriminate L. 
  unfold update_membership, point_membership. cbv zeta. cbn [map length]. rewrite !member_alone.
  unfold calculate_centers, dim, column, rtotal. cbn. f_equal. f_equal. field.
Qed.
