(** Specification and proofs for DSATUR colouring (C06). *)
From Verif Require Import Base Dsatur_Model.

(** ** Specification *)
Definition square (M : matrix) : Prop := M <> [] /\ Forall (fun row => length row = length M) M.
Definition adjacent (M : matrix) (i j : nat) : Prop := entry M i j <> 0%Z.
Definition undirected (M : matrix) : Prop := forall i j, adjacent M i j -> adjacent M j i.

(** number of vertices adjacent to [i] *)
Definition degree (M : matrix) (i : nat) : nat :=
  length (filter (fun j => negb (Z.eqb (entry M i j) 0)) (seq 0 (length M))).

Definition proper (M : matrix) (colors : list nat) : Prop :=
  forall i j, i < length M -> j < length M -> i <> j -> adjacent M i j ->
    nth i colors 0 <> nth j colors 0.

(** the colours in use are exactly [1..k] *)
Definition uses_exactly (colors : list nat) (k : nat) : Prop :=
  forall c, 1 <= c <= k <-> In c colors.

(** ** Proofs *)
Lemma nat_pos_of_nonnil {A} (l : list A) : l <> [] -> 0 < length l.
Proof. destruct l; [congruence|simpl; lia]. Qed.

Lemma dsatur_square iter M : square M ->
  dsatur iter M = do s <- loop iter (length M) M (init_state M); Ok (coloring s).
Proof.
  intros [Hne Hr]. unfold dsatur. destruct M as [|row t]; [congruence|].
  inversion Hr; subst. rewrite (proj2 (Nat.eqb_eq (length row) _) H1). reflexivity.
Qed.

Section Proofs.
Variable iter : list nat -> list nat.
Hypothesis Hiter : forall l, Permutation (iter l) l.
Variable M : matrix.
Hypothesis Hsq : square M.
Hypothesis Hund : undirected M.

Let n := length M.

Lemma row_length i : i < n -> length (nth i M []) = n.
Proof.
  intros Hi. destruct Hsq as [_ H]. rewrite Forall_forall in H. apply H, nth_In. exact Hi.
Qed.

Lemma neighbors_spec i j : i < n -> (In j (neighbors M i) <-> j < n /\ adjacent M i j).
Proof.
  intros Hi. unfold neighbors, adjacent. rewrite filter_In, in_seq, (row_length i Hi), negb_true_iff, Z.eqb_neq.
  split; intros [H1 H2]; split; auto; lia.
Qed.

Lemma neighbors_degree i : i < n -> length (neighbors M i) = degree M i.
Proof. intros Hi. unfold neighbors, degree. rewrite (row_length i Hi). reflexivity. Qed.

Lemma n_pos : 0 < n.
Proof. destruct Hsq as [H _]. unfold n. apply nat_pos_of_nonnil; exact H. Qed.

Lemma max_degree_fold l : forall acc,
  In (fst (fold_left (fun acc i => if (snd acc <? degree_sum M i)%Z then (i, degree_sum M i) else acc) l acc))
     (fst acc :: l).
Proof.
  induction l as [|x t IH]; intros acc; simpl; [auto|].
  specialize (IH (if (snd acc <? degree_sum M x)%Z then (x, degree_sum M x) else acc)).
  destruct (snd acc <? degree_sum M x)%Z; simpl in IH; tauto.
Qed.

Lemma max_degree_vertex_lt : max_degree_vertex M < n.
Proof.
  unfold max_degree_vertex. pose proof (max_degree_fold (seq 0 (length M)) (0, 0%Z)) as H.
  destruct H as [H|H]; [simpl fst at 1 in H; rewrite <- H; apply n_pos|].
  apply in_seq in H. unfold n; lia.
Qed.

Record inv (s : st) : Prop := mkInv {
  inv_len : length (coloring s) = n;
  inv_nodup : NoDup (uncolored s);
  inv_unc : forall v, In v (uncolored s) <-> v < n /\ nth v (coloring s) 0 = 0;
  inv_counter : 1 <= counter s;
  inv_le : forall v, v < n -> nth v (coloring s) 0 <= counter s;
  inv_used : forall c, 1 <= c <= counter s -> exists v, v < n /\ nth v (coloring s) 0 = c;
  inv_deg : forall v, v < n -> nth v (coloring s) 0 <= degree M v + 1;
  inv_proper : forall i j, i < n -> j < n -> i <> j -> adjacent M i j ->
      nth i (coloring s) 0 <> 0 -> nth i (coloring s) 0 <> nth j (coloring s) 0
}.

Lemma nth_repeat0 i m : nth i (repeat 0 m) 0 = 0.
Proof. revert i; induction m as [|m IH]; intros [|i]; simpl; auto. Qed.

Lemma remove_nodup (l : list nat) v : NoDup l -> NoDup (remove Nat.eq_dec v l).
Proof.
  induction 1 as [|x t Hx Ht IH]; simpl; [constructor|].
  destruct (Nat.eq_dec v x); auto. constructor; auto. intro Hc. apply in_remove in Hc as [Hc _]. auto.
Qed.

Lemma remove_In_iff (l : list nat) v x : In x (remove Nat.eq_dec v l) <-> In x l /\ x <> v.
Proof.
  split; intro H; [apply in_remove in H; exact H|]. destruct H. apply in_in_remove; auto.
Qed.

Lemma init_inv : inv (init_state M).
Proof.
  pose proof max_degree_vertex_lt as Hv. unfold init_state. set (v := max_degree_vertex M) in *. fold n.
  assert (Hcol : forall i, nth i (upd (repeat 0 n) v 1) 0 = if v =? i then 1 else 0).
  { intros i. rewrite upd_nth, repeat_length. rewrite (proj2 (Nat.ltb_lt v n) Hv), andb_true_r.
    destruct (v =? i); auto. apply nth_repeat0. }
  constructor; cbn [coloring counter uncolored].
  - rewrite upd_length. apply repeat_length.
  - apply remove_nodup, seq_NoDup.
  - intros u. rewrite remove_In_iff, in_seq, Hcol. destruct (Nat.eqb_spec v u); split; lia.
  - lia.
  - intros u _. rewrite Hcol. destruct (v =? u); lia.
  - intros c Hc. exists v. split; auto. rewrite Hcol, Nat.eqb_refl. lia.
  - intros u _. rewrite Hcol. destruct (v =? u); lia.
  - intros i j Hi Hj Hne _. rewrite !Hcol. destruct (Nat.eqb_spec v i), (Nat.eqb_spec v j); lia.
Qed.

(** selection *)
Lemma max_satur_ge s l : forall acc,
  (acc <= fold_left (fun acc i => if (acc <? Z.of_nat (nth i (satur s) O))%Z then Z.of_nat (nth i (satur s) O) else acc) l acc)%Z /\
  (forall i, In i l -> Z.of_nat (nth i (satur s) O) <=
     fold_left (fun acc i => if (acc <? Z.of_nat (nth i (satur s) O))%Z then Z.of_nat (nth i (satur s) O) else acc) l acc)%Z /\
  (fold_left (fun acc i => if (acc <? Z.of_nat (nth i (satur s) O))%Z then Z.of_nat (nth i (satur s) O) else acc) l acc = acc \/
   exists i, In i l /\ Z.of_nat (nth i (satur s) O) =
     fold_left (fun acc i => if (acc <? Z.of_nat (nth i (satur s) O))%Z then Z.of_nat (nth i (satur s) O) else acc) l acc).
Proof.
  induction l as [|x t IH]; intros acc; simpl; [split; [lia|]; split; [intros i []|auto]|].
  destruct (Z.ltb_spec acc (Z.of_nat (nth x (satur s) O))) as [H|H].
  - destruct (IH (Z.of_nat (nth x (satur s) O))) as [H1 [H2 H3]]. split; [lia|]. split.
    + intros i [<-|Hi]; [lia|auto].
    + right. destruct H3 as [H3|[i [Hi H3]]]; [exists x; auto|exists i; auto].
  - destruct (IH acc) as [H1 [H2 H3]]. split; [lia|]. split.
    + intros i [<-|Hi]; [lia|auto].
    + destruct H3 as [H3|[i [Hi H3]]]; [left; auto|right; exists i; auto].
Qed.

Lemma choose_spec s : uncolored s <> [] -> exists v, choose iter M s = Ok v /\ In v (uncolored s) /\
  (forall u, In u (uncolored s) -> nth u (satur s) 0 <= nth v (satur s) 0).
Proof.
  intros Hne.
  assert (Hne' : iter (uncolored s) <> []).
  { intro Hc. apply Hne. apply Permutation_nil. rewrite <- Hc. apply Hiter. }
  destruct (max_satur_ge s (iter (uncolored s)) (-1)%Z) as [H1 [H2 H3]].
  fold (max_satur iter s) in *.
  assert (Hex : exists i, In i (iter (uncolored s)) /\ Z.of_nat (nth i (satur s) O) = max_satur iter s).
  { destruct H3 as [H3|H3]; [|exact H3]. destruct (iter (uncolored s)) as [|x t]; [congruence|].
    specialize (H2 x (or_introl eq_refl)). lia. }
  assert (Hall : forall v, In v (max_satur_list iter s) -> In v (uncolored s) /\
     (forall u, In u (uncolored s) -> nth u (satur s) 0 <= nth v (satur s) 0)).
  { intros v Hv. unfold max_satur_list in Hv. apply filter_In in Hv as [Hv Es]. apply Z.eqb_eq in Es. split.
    - eapply Permutation_in; [apply Hiter|exact Hv].
    - intros u Hu. assert (In u (iter (uncolored s))) by (eapply Permutation_in; [symmetry; apply Hiter|exact Hu]).
      specialize (H2 u H). lia. }
  destruct Hex as [i [Hi Ei]].
  assert (Hin : In i (max_satur_list iter s)).
  { unfold max_satur_list. apply filter_In. split; auto. apply Z.eqb_eq; auto. }
  unfold choose. destruct (max_satur_list iter s) as [|v0 t] eqn:E; [destruct Hin|].
  destruct (1 <? length (v0 :: t)).
  - eexists; split; [reflexivity|]. apply Hall.
    pose proof (max_degree_fold (v0 :: t) (v0, (-1)%Z)) as Hf.
    destruct Hf as [Hf|Hf]; [|exact Hf]. cbn [fst] in Hf. rewrite <- Hf. left; reflexivity.
  - eexists; split; [reflexivity|]. apply Hall. left; reflexivity.
Qed.

Lemma amount_zero col idx c : amount_color col idx c = 0 <-> (forall i, In i idx -> nth i col 0 <> c).
Proof.
  unfold amount_color. split.
  - intros H i Hi Hc. apply length_zero_iff_nil in H.
    assert (Hin : In i (filter (fun i => nth i col 0 =? c) idx)) by (apply filter_In; split; auto; apply Nat.eqb_eq; auto).
    rewrite H in Hin. destruct Hin.
  - intros H. apply length_zero_iff_nil. induction idx as [|x t IH]; simpl; auto.
    destruct (Nat.eqb_spec (nth x col 0) c) as [E|E].
    + exfalso. apply (H x); simpl; auto.
    + apply IH. intros; apply H; simpl; auto.
Qed.

Lemma colors_le_neighbors col idx k :
  (forall c, 1 <= c <= k -> amount_color col idx c <> 0) -> k <= length idx.
Proof.
  intros H. rewrite <- (map_length (fun i => nth i col 0) idx). rewrite <- (seq_length k 1).
  apply NoDup_incl_length; [apply seq_NoDup|].
  intros c Hc. apply in_seq in Hc. specialize (H c ltac:(lia)).
  destruct (In_dec Nat.eq_dec c (map (fun i => nth i col 0) idx)) as [Hin|Hin]; auto.
  exfalso. apply H. apply amount_zero. intros i Hi Hc'. apply Hin. apply in_map_iff. exists i; auto.
Qed.

Lemma find_seq_spec (f : nat -> bool) k : forall a,
  match find f (seq a k) with
  | Some c => f c = true /\ a <= c < a + k /\ forall c', a <= c' < c -> f c' = false
  | None => forall c', a <= c' < a + k -> f c' = false
  end.
Proof.
  induction k as [|k IH]; intros a; simpl; [intros; lia|].
  destruct (f a) eqn:E; [split; [auto|split; [lia|intros; lia]]|].
  specialize (IH (S a)). destruct (find f (seq (S a) k)) as [c|].
  - destruct IH as [H1 [H2 H3]]. split; [auto|]. split; [lia|].
    intros c' Hc'. destruct (Nat.eq_dec c' a) as [->|]; [auto|apply H3; lia].
  - intros c' Hc'. destruct (Nat.eq_dec c' a) as [->|]; [auto|apply IH; lia].
Qed.

Lemma pick_color_spec col nb k c k' : pick_color col nb k = (c, k') ->
  (forall i, In i nb -> nth i col 0 <= k) ->
  1 <= c <= length nb + 1 /\ c <= k' /\ (forall i, In i nb -> nth i col 0 <> c) /\
  ((k' = k /\ c <= k) \/ (k' = S k /\ c = S k)).
Proof.
  unfold pick_color. intros H Hle. pose proof (find_seq_spec (fun c => amount_color col nb c =? 0) k 1) as Hf.
  destruct (find _ (seq 1 k)) as [c0|].
  - injection H as <- <-. destruct Hf as [H1 [H2 H3]]. apply Nat.eqb_eq in H1.
    assert (c0 - 1 <= length nb).
    { apply (colors_le_neighbors col). intros c' Hc'. specialize (H3 c' ltac:(lia)).
      apply Nat.eqb_neq in H3. exact H3. }
    split; [lia|]. split; [lia|]. split; [apply amount_zero; auto|left; lia].
  - injection H as <- <-.
    assert (k <= length nb).
    { apply (colors_le_neighbors col). intros c' Hc'. specialize (Hf c' ltac:(lia)).
      apply Nat.eqb_neq in Hf. exact Hf. }
    split; [lia|]. split; [lia|]. split; [|right; lia].
    intros i Hi Hc. specialize (Hle i Hi). lia.
Qed.

Lemma step_inv s : inv s -> uncolored s <> [] ->
  exists s', step iter M s = Ok s' /\ inv s' /\ length (uncolored s') < length (uncolored s).
Proof.
  intros [Hlen Hnd Hunc Hcnt Hle Hused Hdeg Hprop] Hne.
  destruct (choose_spec s Hne) as [v [Ev [Hv _]]].
  unfold step. rewrite Ev. cbn [bind].
  destruct (pick_color (coloring s) (neighbors M v) (counter s)) as [c k] eqn:Ep.
  eexists; split; [reflexivity|].
  pose proof (proj1 (Hunc v) Hv) as [Hvn Hv0].
  destruct (pick_color_spec _ _ _ _ _ Ep) as [Hc1 [Hck [Hcn Hcase]]].
  { intros i Hi. apply neighbors_spec in Hi; auto. apply Hle. tauto. }
  assert (Hcol : forall i, nth i (upd (coloring s) v c) 0 = if v =? i then c else nth i (coloring s) 0).
  { intros i. rewrite upd_nth, Hlen, (proj2 (Nat.ltb_lt v n) Hvn), andb_true_r. reflexivity. }
  split.
  - constructor; cbn [coloring counter uncolored].
    + rewrite upd_length; auto.
    + apply remove_nodup; auto.
    + intros u. rewrite remove_In_iff, Hunc, Hcol. destruct (Nat.eqb_spec v u) as [<-|]; split; intros; lia.
    + lia.
    + intros u Hu. rewrite Hcol. specialize (Hle u Hu). destruct (v =? u); lia.
    + intros c' Hc'. destruct (le_lt_dec c' (counter s)) as [Hlec|Hltc].
      * destruct (Hused c' ltac:(lia)) as [u [Hu Eu]]. exists u. split; auto. rewrite Hcol.
        destruct (Nat.eqb_spec v u) as [<-|]; auto. lia.
      * exists v. split; auto. rewrite Hcol, Nat.eqb_refl. lia.
    + intros u Hu. rewrite Hcol. specialize (Hdeg u Hu). destruct (Nat.eqb_spec v u) as [<-|]; auto.
      rewrite <- (neighbors_degree v Hvn). lia.
    + intros i j Hi Hj Hij Hadj. rewrite !Hcol.
      destruct (Nat.eqb_spec v i) as [E1|Hni], (Nat.eqb_spec v j) as [E2|Hnj]; try lia; intros Hnz; try subst i; try subst j.
      * intro Hc. apply (Hcn j); [apply neighbors_spec; auto|congruence].
      * intro Hc. apply (Hcn i); [apply neighbors_spec; auto|congruence].
      * auto.
  - cbn [uncolored]. apply remove_length_lt. exact Hv.
Qed.

Lemma loop_inv fuel : forall s, inv s -> length (uncolored s) <= fuel ->
  exists s', loop iter fuel M s = Ok s' /\ inv s' /\ uncolored s' = [].
Proof.
  induction fuel as [|f IH]; intros s Hs Hf.
  - exists s. destruct (uncolored s) eqn:E; [|simpl in Hf; lia]. cbn [loop]. rewrite E. auto.
  - cbn [loop]. destruct (uncolored s) as [|u t] eqn:E; [exists s; auto|].
    destruct (step_inv s Hs ltac:(congruence)) as [s1 [E1 [I1 L1]]]. rewrite E1. cbn [bind].
    apply IH; auto. rewrite E in L1. simpl in *. lia.
Qed.

Lemma dsatur_correct : exists colors k,
  dsatur iter M = Ok colors /\ length colors = n /\
  (forall i, i < n -> 1 <= nth i colors 0 <= degree M i + 1) /\
  proper M colors /\ uses_exactly colors k.
Proof.
  destruct (loop_inv n (init_state M) init_inv) as [s [E [[Hlen Hnd Hunc Hcnt Hle Hused Hdeg Hprop] Hu]]].
  { unfold init_state. cbn [uncolored]. fold n.
    pose proof (remove_length_le Nat.eq_dec (seq 0 n) (max_degree_vertex M)). rewrite seq_length in H. exact H. }
  assert (Hpos : forall i, i < n -> nth i (coloring s) 0 <> 0).
  { intros i Hi Hc. assert (Hin : In i (uncolored s)) by (apply Hunc; auto). rewrite Hu in Hin. destruct Hin. }
  exists (coloring s), (counter s). split; [|split; [|split; [|split]]].
  - rewrite dsatur_square by exact Hsq. fold n. rewrite E. reflexivity.
  - exact Hlen.
  - intros i Hi. specialize (Hpos i Hi). specialize (Hdeg i Hi). lia.
  - intros i j Hi Hj Hij Hadj. apply Hprop; auto.
  - intros c. split.
    + intros Hc. destruct (Hused c Hc) as [v [Hv <-]]. apply nth_In. lia.
    + intros Hc. apply In_nth with (d := 0) in Hc as [i [Hi <-]]. rewrite Hlen in Hi.
      specialize (Hpos i Hi). specialize (Hle i Hi). lia.
Qed.
End Proofs.
