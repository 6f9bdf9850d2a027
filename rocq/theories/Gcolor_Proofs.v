(** Proofs about the graph colouring networks and the static simulations. *)
From Verif Require Import Base Kmeans_Model Kmeans_Proofs Topology_Model Topology_Proofs Ensembles_Model Ensembles_Proofs Gcolor_Model.
From Coq Require Import Qround.

(** * Specification *)
(** [m] gives every node the number of the group it belongs to, and all numbers are used *)
Definition colors_are_groups (n : nat) (groups : list (list nat)) (m : list nat) : Prop :=
  length m = n /\ (forall v, v < n -> nth v m 0 < length groups /\ In v (nth (nth v m 0) groups [])) /\
  (forall v w g, In g groups -> In v g -> (nth v m 0 = nth w m 0 <-> In w g) \/ n <= w) /\
  forall c, c < length groups -> exists v, v < n /\ nth v m 0 = c.

(** the graph matrix is square *)
Definition square_graph (graph : list (list Q)) : Prop := Forall (fun row => length row = length graph) graph.
Definition entry (graph : list (list Q)) (i j : nat) : Q := nth j (nth i graph []) 0%Q.

(** * Colour maps *)
Lemma paint_nth color : forall nodes m v, Forall (fun x => x < length m) nodes ->
  nth v (fold_left (fun m node => upd m node color) nodes m) 0 = if existsb (Nat.eqb v) nodes then color else nth v m 0.
Proof.
  induction nodes as [|x t IH]; intros m v H; [reflexivity|]. inversion_clear H. cbn [fold_left existsb].
  rewrite IH by (rewrite upd_length; auto). destruct (existsb (Nat.eqb v) t) eqn:E; [now rewrite orb_true_r|]. rewrite orb_false_r, upd_nth.
  rewrite (Nat.eqb_sym v x). destruct (Nat.eqb_spec x v) as [->|]; cbn [andb]; auto. destruct (Nat.ltb_spec v (length m)); auto. lia.
Qed.

Lemma paint_length (color : nat) : forall nodes (m : list nat), length (fold_left (fun m node => upd m node color) nodes m) = length m.
Proof. induction nodes as [|x t IH]; intros m; [reflexivity|]. cbn [fold_left]. now rewrite IH, upd_length. Qed.

Lemma existsb_In v l : existsb (Nat.eqb v) l = true <-> In v l.
Proof. rewrite existsb_exists. split; [intros (x & Hx & E); apply Nat.eqb_eq in E; now subst|]. intros H. exists v. split; auto. apply Nat.eqb_refl. Qed.

Section Colors.
Variables (n : nat) (groups : list (list nat)).
Hypothesis Hp : partitions n groups.

Lemma node_range g v : In g groups -> In v g -> v < n.
Proof. intros Hg Hv. assert (In v (concat groups)) by (apply in_concat; eauto). apply (Permutation_in _ Hp) in H. apply in_seq in H. lia. Qed.

Lemma nodup_concat : NoDup (concat groups).
Proof. apply (Permutation_NoDup (Permutation_sym Hp)), seq_NoDup. Qed.

Lemma group_unique : forall gs (a b v : nat), NoDup (concat gs) -> In v (nth a gs []) -> In v (nth b gs []) -> a = b.
Proof.
  induction gs as [|g gs IH]; intros a b v N Ha Hb; [destruct a; contradiction|].
  cbn [concat] in N. assert (Hd : forall x, In x g -> ~ In x (concat gs)).
  { intros x H1 H2. clear -N H1 H2. induction g as [|y g IH]; [contradiction|]. inversion_clear N. destruct H1 as [->|H1]; [apply H, in_or_app; auto|auto]. }
  assert (Ng : NoDup (concat gs)) by (clear -N; induction g; [auto|inversion_clear N; auto]).
  assert (Hc : forall k x, In x (nth k gs []) -> In x (concat gs)).
  { intros k x Hx. apply in_concat. exists (nth k gs []). split; auto. apply nth_In. destruct (Nat.lt_ge_cases k (length gs)); auto. rewrite nth_overflow in Hx by auto. contradiction. }
  destruct a as [|a], b as [|b]; cbn [nth] in *; auto.
  - exfalso. eapply Hd; eauto.
  - exfalso. eapply Hd; eauto.
  - f_equal. eapply IH; eauto.
Qed.

Lemma paint_all : forall k, k <= length groups ->
  let m := fold_left (fun m color => fold_left (fun m node => upd m node color) (nth color groups []) m) (seq 0 k) (repeat 0 n) in
  length m = n /\ forall c v, c < k -> In v (nth c groups []) -> nth v m 0 = c.
Proof.
  induction k as [|k IH]; intros Hk; cbv zeta; [split; [apply repeat_length|lia]|].
  rewrite seq_S, fold_left_app, Nat.add_0_l. cbn [fold_left]. destruct (IH ltac:(lia)) as [L N]. split; [now rewrite paint_length|].
  intros c v Hc Hv. rewrite paint_nth.
  - destruct (existsb (Nat.eqb v) (nth k groups [])) eqn:E.
    + apply existsb_In in E. eapply group_unique; [apply nodup_concat|exact E|exact Hv].
    + destruct (Nat.eq_dec c k) as [->|]; [apply existsb_In in Hv; congruence|]. apply N; auto. lia.
  - apply Forall_forall. intros x Hx. rewrite L. eapply node_range; [|exact Hx]. apply nth_In. lia.
Qed.

Lemma coloring_spec : no_empty groups -> colors_are_groups n groups (coloring_map n groups).
Proof.
  intros Hn. unfold coloring_map. destruct (paint_all (length groups) (Nat.le_refl _)) as [L N]. cbv zeta in *.
  set (m := fold_left _ (seq 0 (length groups)) (repeat 0 n)) in *.
  assert (A : forall v, v < n -> nth v m 0 < length groups /\ In v (nth (nth v m 0) groups [])).
  { intros v Hv. assert (In v (concat groups)) by (apply (Permutation_in _ (Permutation_sym Hp)), in_seq; lia).
    apply in_concat in H as (g & Hg & Hvg). apply (In_nth _ _ []) in Hg as (c & Hc & <-). rewrite (N c v Hc Hvg). auto. }
  split; [exact L|]. split; [exact A|]. split.
  - intros v w g Hg Hv. destruct (Nat.lt_ge_cases w n) as [Hw|]; [left|right; auto].
    apply (In_nth _ _ []) in Hg as (c & Hc & <-). rewrite (N c v Hc Hv). split.
    + intros E. rewrite E. apply A. auto.
    + intros H. symmetry. apply N; auto.
  - intros c Hc. unfold no_empty in Hn. rewrite Forall_forall in Hn. assert (Hg : In (nth c groups []) groups) by (apply nth_In; auto).
    destruct (nth c groups []) as [|v g] eqn:E; [now apply Hn in Hg|]. exists v. split; [eapply node_range; [exact Hg|now left]|].
    apply N; auto. rewrite E. now left.
Qed.
End Colors.

(** * Networks *)
Lemma in_graph_pairs graph i j : square_graph graph -> (In (i, j) (graph_pairs graph) <-> i < length graph /\ j < length graph /\ (0 < entry graph i j)%Q).
Proof.
  intros Hs. unfold graph_pairs. rewrite filter_In. cbn [fst snd]. rewrite Qltb_true, in_flat_map. unfold entry. split.
  - intros [(r & Hr & H) Hp]. apply in_map_iff in H as (c & E & Hc). injection E as <- <-. apply in_seq in Hr, Hc.
    unfold square_graph in Hs. rewrite Forall_forall in Hs. rewrite (Hs (nth r graph [])) in Hc by (apply nth_In; lia). repeat split; auto; lia.
  - intros (Hi & Hj & Hp). split; auto. exists i. split; [apply in_seq; lia|]. apply in_map_iff. exists j. split; auto. apply in_seq.
    unfold square_graph in Hs. rewrite Forall_forall in Hs. rewrite (Hs (nth i graph [])) by (apply nth_In; lia). lia.
Qed.

Lemma syncgcolor_spec graph : square_graph graph -> exists net, syncgcolor graph = Ok net /\ n_osc net = length graph /\
  forall i j, i < length graph -> j < length graph -> (has_connection net i j = true <-> (0 < entry graph i j)%Q \/ (0 < entry graph j i)%Q).
Proof.
  intros Hs. unfold syncgcolor. cbn [network_init].
  destruct (network_init (length graph) CDynamic RMatrix None) as [net0|e] eqn:E0; [|discriminate]. cbn [bind].
  assert (H0 : n_type net0 = CDynamic /\ n_osc net0 = length graph /\ wf (length graph) (n_conn net0) /\ forall i j, has_connection net0 i j = false).
  { apply Ok_inj in E0. subst net0. split; [reflexivity|]. split; [reflexivity|]. split; [apply (no_conn_wf RMatrix)|].
    intros i j. exact (none_hasc CDynamic RMatrix (length graph) 0 i j (or_intror eq_refl)). }
  destruct H0 as (T & N & W & F).
  destruct (set_connections_spec (length graph) (graph_pairs graph) net0 T N W) as (net & E & [N' _] & H).
  - intros i j Hij. apply in_graph_pairs in Hij; auto. tauto.
  - exists net. split; [exact E|]. split; auto. intros i j Hi Hj. rewrite H, F, !in_graph_pairs by auto. split.
    + intros [Hx|[Hx|Hx]]; [discriminate|left|right]; tauto.
    + intros [Hx|Hx]; right; [left|right]; auto.
Qed.

(** * Hysteresis weights *)
Lemma collect_rows_ok f rows : (forall r, In r rows -> exists w, f r = Ok w) ->
  exists ws, collect_rows f rows = Ok ws /\ length ws = length rows /\ forall k, k < length rows -> f (nth k rows 0) = Ok (nth k ws []).
Proof.
  induction rows as [|r t IH]; intros H; cbn [collect_rows]; [exists []; split; auto; split; auto; intros k Hk; simpl in Hk; lia|].
  destruct (H r (or_introl eq_refl)) as [w E]. rewrite E. cbn [bind]. destruct IH as (ws & E2 & L & N); [intros x Hx; apply H; now right|].
  rewrite E2. cbn [bind]. exists (w :: ws). split; auto. split; [simpl; auto|]. intros [|k] Hk; cbn [nth]; auto. apply N. simpl in Hk. lia.
Qed.

Lemma collect_rows_raise f e rows : (forall r x, f r = Raise x -> x = e) -> (exists r, In r rows /\ f r = Raise e) -> collect_rows f rows = Raise e.
Proof.
  intros Hf. induction rows as [|r t IH]; intros (x & Hx & Ex); [contradiction|]. cbn [collect_rows].
  destruct (f r) as [w|e'] eqn:E; cbn [bind]; [|f_equal; eauto]. destruct Hx as [->|Hx]; [congruence|]. rewrite IH by eauto. reflexivity.
Qed.

(** * Static simulation *)
Lemma arange_length step time steps : (0 < time)%Q -> 1 <= steps -> step = (time / inject_Z (Z.of_nat steps))%Q ->
  arange step (time + step) step = map (fun k => (step + inject_Z (Z.of_nat k) * step)%Q) (seq 0 steps).
Proof.
  intros Ht Hs E. unfold arange. f_equal. f_equal.
  assert (P : (0 < inject_Z (Z.of_nat steps))%Q) by (change 0%Q with (inject_Z 0); rewrite <- Zlt_Qlt; lia).
  assert (H : ((time + step - step) / step == inject_Z (Z.of_nat steps))%Q).
  { rewrite E. field. split; intros H; rewrite H in *; lra. }
  rewrite (Qceiling_comp _ _ H), Qceiling_Z. apply Nat2Z.id.
Qed.

Section Static.
Context {state : Type}.
Variable next : Q -> state -> state.
Variable output : state -> list Q.

(** the states after each of the given times *)
Fixpoint trajectory (s : state) (times : list Q) : list state :=
  match times with [] => [] | t :: rest => next t s :: trajectory (next t s) rest end.

Lemma trajectory_length times : forall s, length (trajectory s times) = length times.
Proof. induction times as [|t l IH]; intros s; simpl; auto. Qed.

Lemma static_loop_collect times : forall s d, static_loop next output true times s (Some d) =
  Ok (last (trajectory s times) s, Some (fst d ++ map output (trajectory s times), snd d ++ times)).
Proof.
  induction times as [|t l IH]; intros s d; cbn [static_loop trajectory map]; [rewrite !app_nil_r; destruct d; reflexivity|].
  rewrite IH. cbn [fst snd]. rewrite <- !app_assoc. cbn [app]. f_equal. f_equal. destruct (trajectory (next t s) l) eqn:E; [reflexivity|].
  change (last (s0 :: l0) (next t s) = last (s0 :: l0) s). clear. revert s0. induction l0 as [|x l0 IH]; intros s0; [reflexivity|]. cbn [last] in *. apply IH.
Qed.

Lemma static_loop_silent times : forall s d, static_loop next output false times s d = Ok (last (trajectory s times) s, d).
Proof.
  induction times as [|t l IH]; intros s d; cbn [static_loop trajectory]; [reflexivity|].
  rewrite IH. f_equal. f_equal. destruct (trajectory (next t s) l) eqn:E; [reflexivity|].
  change (last (s0 :: l0) (next t s) = last (s0 :: l0) s). clear. revert s0. induction l0 as [|x l0 IH]; intros s0; [reflexivity|]. cbn [last] in *. apply IH.
Qed.
End Static.
