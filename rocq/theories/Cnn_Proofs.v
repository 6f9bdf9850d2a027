(** Chaotic neural network: specification and proofs *)
From Verif Require Import Base Kmeans_Model Kmeans_Proofs Cldist_Model Cldist_Proofs Syncnet_Model Syncnet_Proofs Cnn_Model.

(** * Specification *)
(** the logistic map every neuron follows on its own *)
Definition logistic (y : Q) : Q := (1 - 2 * y ^ 2)%Q.
Definition others (n i : nat) : list nat := filter (fun j => negb (j =? i)) (seq 0 n).
(** weighted mean of the values of the other neurons *)
Definition weighted_mean (n : nat) (w : nat -> nat -> Q) (output : list Q) (i : nat) : Q :=
  (qsum (map (fun j => w i j * logistic (nth j output 0)) (others n i)) / qsum (map (fun j => w i j) (others n i)))%Q.
Definition in_range (y : Q) : Prop := (-1 <= y <= 1)%Q.
(** the last [steps] states in which the neurons [i] and [j] are both on or both off *)
Definition same_activity (output : list (list Q)) (steps i j : nat) : Prop :=
  forall t, length output - steps <= t < length output -> (0 < nth i (nth t output []) 0)%Q <-> (0 < nth j (nth t output []) 0)%Q.

(** * Weights *)
Definition entry (m : list (list Q)) (i j : nat) : Q := nth j (nth i m []) 0%Q.
Definition square (n : nat) (m : list (list Q)) : Prop := length m = n /\ forall r, In r m -> length r = n.

Lemma qsum_upd : forall (l : list Q) i v, i < length l -> (qsum (upd l i v) == qsum l - nth i l 0 + v)%Q.
Proof.
  induction l as [|x l IH]; intros [|i] v H; cbn [length] in H; try lia; cbn [upd qsum nth]; [ring|]. rewrite IH by lia. ring.
Qed.

Lemma set2_square n m i j v : square n m -> square n (set2 m i j v).
Proof.
  intros [L H]. unfold set2. split; [now rewrite upd_length|]. intros r Hr. apply (In_nth _ _ []) in Hr as (k & Hk & <-). rewrite upd_length in Hk.
  rewrite upd_nth. destruct ((i =? k) && (i <? length m)) eqn:E; [|apply H, nth_In; exact Hk].
  rewrite upd_length. apply andb_true_iff in E as [_ E]. apply Nat.ltb_lt in E. apply H, nth_In. exact E.
Qed.

Lemma set2_entry n m i j v a b : square n m -> i < n -> j < n -> entry (set2 m i j v) a b = if (i =? a) && (j =? b) then v else entry m a b.
Proof.
  intros [L H] Hi Hj. unfold entry, set2. rewrite upd_nth, L. destruct (Nat.eqb_spec i a) as [->|]; cbn [andb]; auto.
  apply Nat.ltb_lt in Hi as Hi'. rewrite Hi'. rewrite upd_nth. rewrite (H (nth a m [])) by (apply nth_In; lia). apply Nat.ltb_lt in Hj. rewrite Hj. now rewrite andb_true_r.
Qed.

Lemma set2_row n m i j v a : square n m -> i < n -> j < n -> (qsum (nth a (set2 m i j v) []) == qsum (nth a m []) + (if i =? a then v - entry m i j else 0))%Q.
Proof.
  intros [L H] Hi Hj. unfold set2. rewrite upd_nth, L. destruct (Nat.eqb_spec i a) as [->|]; cbn [andb]; [|ring].
  apply Nat.ltb_lt in Hi as Hi'. rewrite Hi', qsum_upd by (rewrite (H (nth a m [])) by (apply nth_In; lia); exact Hj). unfold entry. ring.
Qed.

Lemma pair_dec (a b : nat * nat) : {a = b} + {a <> b}.
Proof. decide equality; apply Nat.eq_dec. Qed.

Section Weights.
Variables (distance : point -> point -> Q) (expminus : Q -> Q).
Hypothesis exp_pos : forall x, (0 <= expminus x)%Q.
Hypothesis exp_ext : forall x y, (x == y)%Q -> (expminus x == expminus y)%Q.

(** weight of two neurons *)
Definition coupling (average : Q) (stimulus : list point) (i j : nat) : Q := expminus (sqdist (nth i stimulus []) (nth j stimulus []) / (2 * average)).

(** weights and row sums while the pairs [done] have been connected *)
Definition connected (n : nat) (w : nat -> nat -> Q) (done : list (nat * nat)) (m : list (list Q) * list Q) : Prop :=
  square n (fst m) /\ length (snd m) = n /\
  (forall i j, In (i, j) done \/ In (j, i) done -> (entry (fst m) i j == w i j)%Q) /\
  (forall i j, ~ In (i, j) done -> ~ In (j, i) done -> (entry (fst m) i j == 0)%Q) /\
  (forall i, (qsum (nth i (fst m) []) <= nth i (snd m) 0)%Q).

Lemma connect_connected n w done m i j v : (forall a b, (0 <= w a b)%Q) -> (forall a b, (w a b == w b a)%Q) -> i < n -> j < n -> i <> j -> v = w i j ->
  connected n w done m -> connected n w (done ++ [(i, j)]) (connect m i j v) /\
  (~ In (i, j) done -> ~ In (j, i) done -> (forall a, (qsum (nth a (fst m) []) == nth a (snd m) 0)%Q) -> forall a, (qsum (nth a (fst (connect m i j v)) []) == nth a (snd (connect m i j v)) 0)%Q).
Proof.
  intros Hp Hs Hi Hj Hij -> (Sq & L & H1 & H2 & H3).
  assert (Sq1 : square n (set2 (fst m) i j (w i j))) by (apply set2_square; auto).
  assert (Sq2 : square n (set2 (set2 (fst m) i j (w i j)) j i (w i j))) by (apply set2_square; auto).
  assert (En : forall a b, entry (set2 (set2 (fst m) i j (w i j)) j i (w i j)) a b = if (j =? a) && (i =? b) then w i j else if (i =? a) && (j =? b) then w i j else entry (fst m) a b).
  { intros a b. rewrite (set2_entry n), (set2_entry n); auto. }
  assert (Ji : entry (set2 (fst m) i j (w i j)) j i = entry (fst m) j i).
  { rewrite (set2_entry n); auto. destruct (Nat.eqb_spec i j); [lia|reflexivity]. }
  assert (Row : forall a, (qsum (nth a (set2 (set2 (fst m) i j (w i j)) j i (w i j)) []) == qsum (nth a (fst m) []) + (if i =? a then w i j - entry (fst m) i j else 0) + (if j =? a then w i j - entry (fst m) j i else 0))%Q).
  { intros a. rewrite (set2_row n), (set2_row n); auto. rewrite Ji. reflexivity. }
  assert (Su : forall a, (nth a (snd (connect m i j (w i j))) 0 == nth a (snd m) 0 + (if i =? a then w i j else 0) + (if j =? a then w i j else 0))%Q).
  { intros a. unfold connect. cbn [snd]. rewrite !upd_nth, !upd_length, L. apply Nat.ltb_lt in Hi as ->. apply Nat.ltb_lt in Hj as ->. rewrite !andb_true_r.
    destruct (Nat.eqb_spec j a) as [->|]; [destruct (Nat.eqb_spec i a); [lia|]; ring|]. destruct (Nat.eqb_spec i a) as [->|]; ring. }
  assert (Pos : forall a b, (0 <= entry (fst m) a b)%Q).
  { intros a b. destruct (in_dec pair_dec (a, b) done) as [Y|N1]; [rewrite H1 by auto; apply Hp|].
    destruct (in_dec pair_dec (b, a) done) as [Y|N2]; [rewrite H1 by auto; apply Hp|]. rewrite H2 by auto. apply Qle_refl. }
  split.
  - unfold connected. split; [exact Sq2|]. split; [unfold connect; cbn [snd]; now rewrite !upd_length|]. split; [|split].
    + intros a b Hab. unfold connect. cbn [fst]. rewrite En.
      destruct ((j =? a) && (i =? b)) eqn:B1; [apply andb_true_iff in B1 as [B1 B1']; apply Nat.eqb_eq in B1, B1'; subst; apply Hs|].
      destruct ((i =? a) && (j =? b)) eqn:B2; [apply andb_true_iff in B2 as [B2 B2']; apply Nat.eqb_eq in B2, B2'; subst; reflexivity|].
      apply H1. rewrite !in_app_iff in Hab. destruct Hab as [[Hab|[Hab|[]]]|[Hab|[Hab|[]]]]; auto; injection Hab as E1 E2; subst; rewrite !Nat.eqb_refl in *; discriminate.
    + intros a b N1 N2. unfold connect. cbn [fst]. rewrite En. rewrite in_app_iff in N1, N2.
      destruct ((j =? a) && (i =? b)) eqn:B1; [apply andb_true_iff in B1 as [B1 B1']; apply Nat.eqb_eq in B1, B1'; subst; exfalso; apply N2; right; left; reflexivity|].
      destruct ((i =? a) && (j =? b)) eqn:B2; [apply andb_true_iff in B2 as [B2 B2']; apply Nat.eqb_eq in B2, B2'; subst; exfalso; apply N1; right; left; reflexivity|].
      apply H2; tauto.
    + intros a. rewrite Su. unfold connect at 1. cbn [fst]. rewrite Row. specialize (H3 a). pose proof (Pos i j) as P1. pose proof (Pos j i) as P2.
      destruct (i =? a), (j =? a); lra.
  - intros N1 N2 Eq a. rewrite Su. unfold connect at 1. cbn [fst]. rewrite Row, (Eq a). pose proof (H2 i j N1 N2) as Z1. pose proof (H2 j i N2 N1) as Z2. destruct (i =? a), (j =? a); rewrite ?Z1, ?Z2; ring.
Qed.

Lemma coupling_sym average stimulus i j : (coupling average stimulus i j == coupling average stimulus j i)%Q.
Proof. unfold coupling. apply exp_ext. rewrite sqdist_sym. reflexivity. Qed.

Lemma connect_all_spec average stimulus n : ~ (average == 0)%Q -> forall l done m,
  (forall i j, In (i, j) l -> i < n /\ j < n /\ i <> j) -> connected n (coupling average stimulus) done m ->
  exists m', connect_all expminus average stimulus l m = Ok m' /\ connected n (coupling average stimulus) (done ++ l) m' /\
    (NoDup (done ++ l) -> (forall i j, In (i, j) (done ++ l) -> In (j, i) (done ++ l) -> False) -> (forall a, (qsum (nth a (fst m) []) == nth a (snd m) 0)%Q) ->
       forall a, (qsum (nth a (fst m') []) == nth a (snd m') 0)%Q).
Proof.
  intros Ha. induction l as [|[i j] l IH]; intros done m Hl C.
  - exists m. rewrite app_nil_r. cbn [connect_all]. auto.
  - cbn [connect_all]. unfold calculate_weight. destruct (Qeq_bool average 0) eqn:E; [apply Qeq_bool_iff in E; contradiction|]. cbn [bind].
    destruct (Hl i j (or_introl eq_refl)) as (Hi & Hj & Hij).
    destruct (connect_connected n (coupling average stimulus) done m i j (coupling average stimulus i j)) as [C1 C2]; auto; [intros; apply exp_pos|intros; apply coupling_sym|].
    destruct (IH (done ++ [(i, j)]) (connect m i j (coupling average stimulus i j))) as (m' & E' & C' & S'); auto; [intros a b Hab; apply Hl; now right|].
    exists m'. split; [exact E'|]. rewrite <- app_assoc in C', S'. cbn [app] in C', S'. split; [exact C'|].
    intros Nd Na Eq. apply S'; auto. apply C2; auto.
    + intros Hin. apply NoDup_remove_2 in Nd. apply Nd. apply in_or_app. auto.
    + intros Hin. apply (Na i j); apply in_or_app; [right; now left|auto].
Qed.

(** * Evolution *)
Lemma fold_value (row output : list Q) l acc : (fold_left (fun acc j => (acc + nth j row 0 * (1 - 2 * (nth j output 0 * nth j output 0)))%Q) l acc ==
  acc + qsum (map (fun j => nth j row 0 * logistic (nth j output 0)) l))%Q.
Proof.
  revert acc. induction l as [|j l IH]; intros acc; cbn [fold_left map qsum]; [ring|]. rewrite IH. unfold logistic. ring.
Qed.

Lemma logistic_range y : in_range y -> in_range (logistic y).
Proof. unfold in_range, logistic. intros [H1 H2]. setoid_replace (y ^ 2)%Q with (y * y)%Q by ring. nra. Qed.

Lemma qsum_bounds (row output : list Q) l : (forall j, (0 <= nth j row 0)%Q) -> (forall j, In j l -> in_range (nth j output 0%Q)) ->
  (- qsum (map (fun j => nth j row 0) l) <= qsum (map (fun j => nth j row 0 * logistic (nth j output 0)) l) <= qsum (map (fun j => nth j row 0) l))%Q.
Proof.
  intros Hp. induction l as [|j l IH]; intros Ho; cbn [map qsum]; [split; apply Qle_refl|].
  destruct IH as [I1 I2]; [intros k Hk; apply Ho; now right|]. destruct (logistic_range _ (Ho j (or_introl eq_refl))) as [L1 L2]. specialize (Hp j).
  set (a := nth j row 0%Q) in *. set (b := logistic _) in *. split; nra.
Qed.

Lemma qsum_seq (l : list Q) : qsum (map (fun j => nth j l 0%Q) (seq 0 (length l))) = qsum l.
Proof.
  f_equal. apply (nth_ext _ _ 0%Q 0%Q); rewrite map_length, seq_length; auto. intros i Hi. now rewrite nth_map_seq0.
Qed.

Lemma evolve_ok m output : forall l out, evolve m output l = Ok out <-> length out = length l /\ forall k, k < length l -> neuron_evolution m output (nth k l 0) = Ok (nth k out 0%Q).
Proof.
  induction l as [|i l IH]; intros out; cbn [evolve].
  - split; [intros E; apply Ok_inj in E; subst; split; auto; intros k Hk; cbn in Hk; lia|]. intros [L _]. destruct out; [reflexivity|discriminate].
  - split.
    + destruct (neuron_evolution m output i) as [v|] eqn:E1; cbn [bind]; [|discriminate]. destruct (evolve m output l) as [r|] eqn:E2; cbn [bind]; [|discriminate].
      intros E. apply Ok_inj in E. subst out. destruct (proj1 (IH r) eq_refl) as [L H]. cbn [length]. split; [auto|]. intros [|k] Hk; cbn [nth]; [exact E1|apply H; lia].
    + intros [L H]. destruct out as [|v out]; [discriminate|]. pose proof (H 0 ltac:(cbn; lia)) as H0. cbn [nth] in H0. rewrite H0. cbn [bind].
      rewrite (proj2 (IH out)); [reflexivity|]. split; [cbn in L; lia|]. intros k Hk. apply (H (S k)). cbn [length]. lia.
Qed.

Lemma calculate_ok m output out : calculate_states m output = Ok out <-> length out = length output /\ forall i, i < length output -> neuron_evolution m output i = Ok (nth i out 0%Q).
Proof.
  unfold calculate_states. rewrite evolve_ok, seq_length. split; intros [L H]; (split; [exact L|]); intros k Hk; specialize (H k Hk); rewrite seq_nth in * by exact Hk; exact H.
Qed.

Lemma neuron_range m output i v : square (length output) (fst m) -> (forall a b, (0 <= entry (fst m) a b)%Q) -> (qsum (nth i (fst m) []) <= nth i (snd m) 0)%Q ->
  i < length output -> (forall j, j < length output -> in_range (nth j output 0%Q)) -> neuron_evolution m output i = Ok v -> in_range v.
Proof.
  intros Sq Hp Hs Hi Ho E. unfold neuron_evolution in E. destruct (Qeq_bool _ 0) eqn:Ez; [discriminate|]. apply Ok_inj in E. subst v.
  apply Qeq_bool_neq in Ez. set (S := nth i (snd m) 0%Q) in *.
  assert (Lr : length (nth i (fst m) []) = length output) by (apply Sq, nth_In; destruct Sq as [-> _]; exact Hi).
  destruct (qsum_bounds (nth i (fst m) []) output (seq 0 (length output))) as [B1 B2]; [intros j; apply (Hp i j)|intros j Hj; apply in_seq in Hj; apply Ho; lia|].
  pose proof (qsum_seq (nth i (fst m) [])) as Q1. rewrite Lr in Q1. rewrite Q1 in B1, B2.
  assert (Sp : (0 < S)%Q).
  { assert (0 <= qsum (nth i (fst m) []))%Q; [|destruct (Qlt_le_dec 0 S) as [h|h]; auto; exfalso; apply Ez; apply Qle_antisym; lra].
    rewrite <- qsum_seq. clear - Hp. generalize (seq 0 (length (nth i (fst m) []))) as l. induction l as [|j l IH]; cbn [map qsum]; [apply Qle_refl|].
    specialize (Hp i j). unfold entry in Hp. lra. }
  unfold in_range. split.
  - apply Qle_shift_div_l; [exact Sp|]. rewrite fold_value. lra.
  - apply Qle_shift_div_r; [exact Sp|]. rewrite fold_value. lra.
Qed.
End Weights.

(** * Results of the weights *)
Section Create.
Variables (distance : point -> point -> Q) (expminus : Q -> Q).
Hypothesis exp_pos : forall x, (0 <= expminus x)%Q.
Hypothesis exp_ext : forall x y, (x == y)%Q -> (expminus x == expminus y)%Q.

Definition good_edges (n : nat) (l : list (nat * nat)) : Prop := forall i j, In (i, j) l -> i < n /\ j < n /\ i <> j.

Lemma repeat_connected n w : connected n w [] (repeat (repeat 0%Q n) n, repeat 0%Q n).
Proof.
  assert (E : forall i j, entry (repeat (repeat 0%Q n) n) i j = 0%Q).
  { intros i j. unfold entry. destruct (Nat.lt_ge_cases i n) as [H|H].
    - rewrite (nth_indep _ [] (repeat 0%Q n)) by (now rewrite repeat_length). rewrite nth_repeat. apply nth_repeat.
    - rewrite (nth_overflow (repeat _ _)) by (now rewrite repeat_length). destruct j; reflexivity. }
  assert (Z : forall k, (qsum (repeat 0%Q k) == 0)%Q) by (induction k as [|k IH]; cbn [repeat qsum]; [reflexivity|rewrite IH; ring]).
  unfold connected. cbn [fst snd]. split; [split; [apply repeat_length|intros r Hr; apply repeat_spec in Hr; subst r; apply repeat_length]|].
  split; [apply repeat_length|]. split; [intros i j [[]|[]]|]. split; [intros i j _ _; rewrite E; reflexivity|].
  intros i. rewrite nth_repeat. destruct (Nat.lt_ge_cases i n) as [H|H].
  - rewrite (nth_indep _ [] (repeat 0%Q n)) by (now rewrite repeat_length). rewrite nth_repeat, Z. apply Qle_refl.
  - rewrite (nth_overflow (repeat _ _)) by (now rewrite repeat_length). apply Qle_refl.
Qed.

Lemma repeat_rows n a : (qsum (nth a (fst (repeat (repeat 0%Q n) n, repeat 0%Q n)) []) == nth a (snd (repeat (repeat 0%Q n) n, repeat 0%Q n)) 0)%Q.
Proof.
  cbn [fst snd]. rewrite nth_repeat. destruct (Nat.lt_ge_cases a n) as [H|H].
  - rewrite (nth_indep _ [] (repeat 0%Q n)) by (now rewrite repeat_length). rewrite nth_repeat.
    clear. induction n as [|k IH]; cbn [repeat qsum]; [reflexivity|rewrite IH; ring].
  - rewrite (nth_overflow (repeat _ _)) by (now rewrite repeat_length). reflexivity.
Qed.

Lemma create_spec conn k stimulus m : good_edges (length stimulus) (edges conn (length stimulus)) -> edges conn (length stimulus) <> [] ->
  create_weights distance expminus conn k stimulus = Ok m ->
  exists average, average_neighbor_distance distance stimulus k = Ok average /\ ~ (average == 0)%Q /\
    connected (length stimulus) (coupling expminus average stimulus) (edges conn (length stimulus)) m /\
    (conn = AllToAll -> forall a, (qsum (nth a (fst m) []) == nth a (snd m) 0)%Q).
Proof.
  intros Hg Hne E. unfold create_weights in E. destruct (average_neighbor_distance distance stimulus k) as [average|]; cbn [bind] in E; [|discriminate].
  exists average. split; auto. assert (Ha : ~ (average == 0)%Q).
  { intros Ha. apply Qeq_bool_iff in Ha. destruct (edges conn (length stimulus)) as [|[i j] t]; [congruence|]. cbn [connect_all] in E. unfold calculate_weight in E. rewrite Ha in E. discriminate. }
  split; auto.
  destruct (connect_all_spec expminus exp_pos exp_ext average stimulus (length stimulus) Ha (edges conn (length stimulus)) [] _ Hg (repeat_connected _ _)) as (m' & E' & C & R).
  rewrite E' in E. apply Ok_inj in E. subst m'. split; [exact C|]. intros -> a. cbn [edges app] in *. apply R; [apply NoDup_pairs| |apply repeat_rows].
  intros i j H1 H2. apply in_pairs in H1, H2. lia.
Qed.

Lemma connected_pos n w done m : (forall a b, (0 <= w a b)%Q) -> connected n w done m -> forall a b, (0 <= entry (fst m) a b)%Q.
Proof.
  intros Hp (_ & _ & H1 & H2 & _) a b. destruct (in_dec pair_dec (a, b) done) as [Y|N1]; [rewrite H1 by auto; apply Hp|].
  destruct (in_dec pair_dec (b, a) done) as [Y|N2]; [rewrite H1 by auto; apply Hp|]. rewrite H2 by auto. apply Qle_refl.
Qed.

Lemma pairs_good n : good_edges n (pairs n).
Proof. intros i j H. apply in_pairs in H. lia. Qed.

Lemma qsum_others f n i : (f i == 0)%Q -> (qsum (map f (seq 0 n)) == qsum (map f (others n i)))%Q.
Proof.
  intros H. unfold others. generalize (seq 0 n) as l. induction l as [|j l IH]; cbn [map filter qsum]; [reflexivity|].
  destruct (Nat.eqb_spec j i) as [->|]; cbn [negb map qsum]; rewrite IH; [rewrite H; ring|reflexivity].
Qed.

Lemma neuron_mean average stimulus m output i v : connected (length stimulus) (coupling expminus average stimulus) (pairs (length stimulus)) m ->
  (forall a, (qsum (nth a (fst m) []) == nth a (snd m) 0)%Q) -> length output = length stimulus -> i < length stimulus ->
  neuron_evolution m output i = Ok v ->
  let n := length stimulus in let w := coupling expminus average stimulus in
  ~ (qsum (map (fun j => w i j) (others n i)) == 0)%Q /\ (v == weighted_mean n w output i)%Q.
Proof.
  intros (Sq & L & H1 & H2 & _) Rows Lo Hi E. cbv zeta. unfold neuron_evolution in E. destruct (Qeq_bool _ 0) eqn:Ez; [discriminate|]. apply Ok_inj in E.
  apply Qeq_bool_neq in Ez.
  assert (Z : (entry (fst m) i i == 0)%Q) by (apply H2; intros Hin; apply in_pairs in Hin; lia).
  assert (En : forall j, In j (others (length stimulus) i) -> (entry (fst m) i j == coupling expminus average stimulus i j)%Q).
  { intros j Hj. unfold others in Hj. apply filter_In in Hj as [Hj Hn]. apply in_seq in Hj. apply negb_true_iff, Nat.eqb_neq in Hn. apply H1.
    destruct (Nat.lt_total i j) as [h|[h|h]]; [left; apply in_pairs; lia|lia|right; apply in_pairs; lia]. }
  assert (Sum : forall g, (qsum (map (fun j => entry (fst m) i j * g j) (seq 0 (length stimulus))) == qsum (map (fun j => coupling expminus average stimulus i j * g j) (others (length stimulus) i)))%Q).
  { intros g. rewrite (qsum_others _ _ i) by (rewrite Z; ring). apply qsum_ext. intros j Hj. rewrite (En j Hj). reflexivity. }
  assert (Ssum : (nth i (snd m) 0 == qsum (map (fun j => coupling expminus average stimulus i j) (others (length stimulus) i)))%Q).
  { rewrite <- (Rows i). assert (Lr : length (nth i (fst m) []) = length stimulus) by (apply Sq, nth_In; destruct Sq as [-> _]; exact Hi).
    rewrite <- (qsum_seq (nth i (fst m) [])), Lr. rewrite (qsum_others _ _ i) by exact Z. apply qsum_ext. intros j Hj. apply (En j Hj). }
  split; [rewrite <- Ssum; exact Ez|]. subst v. unfold weighted_mean. rewrite <- Ssum. rewrite fold_value, Lo. apply Qdiv_comp; [|reflexivity].
  rewrite Qplus_0_l. apply (Sum (fun j => logistic (nth j output 0%Q))).
Qed.
End Create.

(** * Simulation *)
Lemma simulate_loop_spec m : forall left step output outs times, simulate_loop m output step left = Ok (outs, times) ->
  length outs = left /\ times = seq step left /\ forall t, t < left -> calculate_states m (nth t (output :: outs) []) = Ok (nth t outs []).
Proof.
  induction left as [|left IH]; intros step output outs times E; cbn [simulate_loop] in E.
  - apply Ok_inj in E. injection E as <- <-. split; auto. split; auto. intros; lia.
  - destruct (calculate_states m output) as [o|] eqn:E1; cbn [bind] in E; [|discriminate]. destruct (simulate_loop m o (S step) left) as [[os ts]|] eqn:E2; cbn [bind] in E; [|discriminate].
    apply Ok_inj in E. cbn [fst snd] in E. injection E as <- <-. destruct (IH _ _ _ _ E2) as (L & T & H). cbn [length seq]. split; [lia|]. split; [now rewrite T|].
    intros [|t] Ht; cbn [nth]; [exact E1|]. apply H. lia.
Qed.

(** * Ensembles *)
Section Ensembles.
Variable pattern : nat -> list nat.
Definition inv (k : nat) (es : list (list nat)) : Prop :=
  Permutation (concat es) (seq 0 k) /\ (forall e, In e es -> e <> [] /\ forall i, In i e -> pattern i = pattern (hd 0 e)) /\ NoDup (map (fun e => pattern (hd 0 e)) es).

Lemma list_eqb_true a b : list_eqb a b = true <-> a = b.
Proof. unfold list_eqb. destruct (list_eq_dec Nat.eq_dec a b); split; intros; auto; discriminate. Qed.

Lemma join_spec i : forall es, (forall e, In e es -> e <> [] /\ forall j, In j e -> pattern j = pattern (hd 0 e)) -> NoDup (map (fun e => pattern (hd 0 e)) es) ->
  Permutation (concat (join pattern i es)) (concat es ++ [i]) /\
  (forall e, In e (join pattern i es) -> e <> [] /\ forall j, In j e -> pattern j = pattern (hd 0 e)) /\
  NoDup (map (fun e => pattern (hd 0 e)) (join pattern i es)) /\
  (forall q, In q (map (fun e => pattern (hd 0 e)) (join pattern i es)) -> q = pattern i \/ In q (map (fun e => pattern (hd 0 e)) es)).
Proof.
  induction es as [|e es IH]; intros He Nd; cbn [join].
  - cbn. split; auto. split; [|split; [constructor; [auto|constructor]|intros q [<-|[]]; auto]]. intros e [<-|[]]. split; [discriminate|]. intros j [<-|[]]. reflexivity.
  - destruct (He e (or_introl eq_refl)) as [Ne Pe]. destruct (list_eqb (pattern i) (pattern (hd 0 e))) eqn:B.
    + apply list_eqb_true in B. assert (Hh : hd 0 (e ++ [i]) = hd 0 e) by (destruct e; [congruence|reflexivity]). cbn [concat map]. rewrite Hh. split; [|split; [|split]].
      * rewrite <- !app_assoc. apply Permutation_app_head. apply Permutation_app_comm.
      * intros e' [<-|He']; [|apply He; now right]. split; [destruct e; discriminate|]. intros j Hj. rewrite Hh. apply in_app_or in Hj as [Hj|[<-|[]]]; auto.
      * exact Nd.
      * auto.
    + assert (Hn : pattern i <> pattern (hd 0 e)) by (intros E; apply list_eqb_true in E; congruence). cbn [map] in Nd. inversion_clear Nd as [|? ? N1 N2].
      destruct IH as (I1 & I2 & I3 & I4); auto; [intros e' He'; apply He; now right|]. cbn [concat map]. split; [|split; [|split]].
      * rewrite <- app_assoc. apply Permutation_app_head. exact I1.
      * intros e' [<-|He']; auto.
      * constructor; auto. intros Hin. destruct (I4 _ Hin) as [E|E]; [congruence|contradiction].
      * intros q [<-|Hq]; [right; now left|]. destruct (I4 _ Hq) as [E|E]; [auto|right; now right].
Qed.

Lemma fold_inv : forall l k es, inv k es -> l = seq k (length l) -> inv (k + length l) (fold_left (fun es i => join pattern i es) l es).
Proof.
  induction l as [|i l IH]; intros k es Hi El; cbn [fold_left length]; [now rewrite Nat.add_0_r|]. cbn [length seq] in El. injection El as -> El.
  replace (k + S (length l)) with (S k + length l) by lia. apply IH; auto. destruct Hi as (P & He & Nd). destruct (join_spec k es He Nd) as (J1 & J2 & J3 & _).
  split; [|split; auto]. rewrite J1, P. rewrite seq_S. reflexivity.
Qed.

Lemma inv_classes k es : inv k es -> forall i j, i < k -> j < k -> ((exists e, In e es /\ In i e /\ In j e) <-> pattern i = pattern j).
Proof.
  intros (P & He & Nd) i j Hi Hj. split.
  - intros (e & H1 & H2 & H3). destruct (He e H1) as [_ H]. rewrite (H i H2), (H j H3). reflexivity.
  - intros E. assert (G : forall x, x < k -> exists e, In e es /\ In x e).
    { intros x Hx. assert (Hin : In x (concat es)) by (apply (Permutation_in _ (Permutation_sym P)), in_seq; lia). apply in_concat in Hin as (e & H1 & H2). eauto. }
    destruct (G i Hi) as (e1 & A1 & A2). destruct (G j Hj) as (e2 & B1 & B2). assert (e1 = e2); [|subst; eauto].
    assert (Eq : pattern (hd 0 e1) = pattern (hd 0 e2)) by (rewrite <- (proj2 (He e1 A1) i A2), <- (proj2 (He e2 B1) j B2); exact E).
    clear - A1 B1 Eq Nd. induction es as [|e es IH]; [destruct A1|]. cbn [map] in Nd. inversion_clear Nd as [|? ? N1 N2].
    destruct A1 as [->|A1], B1 as [->|B1]; auto.
    + exfalso. apply N1. rewrite Eq. apply (in_map (fun e => pattern (hd 0 e))). exact B1.
    + exfalso. apply N1. rewrite <- Eq. apply (in_map (fun e => pattern (hd 0 e))). exact A1.
Qed.
End Ensembles.

Lemma heaviside_eq a b : heaviside a = heaviside b <-> ((0 < a)%Q <-> (0 < b)%Q).
Proof.
  unfold heaviside. destruct (Qltb 0 a) eqn:A, (Qltb 0 b) eqn:B; try apply Qltb_true in A; try apply Qltb_false in A; try apply Qltb_true in B; try apply Qltb_false in B.
  - tauto.
  - split; [discriminate|]. intros [H _]. exfalso. apply (Qle_not_lt _ _ B). auto.
  - split; [discriminate|]. intros [_ H]. exfalso. apply (Qle_not_lt _ _ A). auto.
  - split; auto. intros _. split; intros H; exfalso; [apply (Qle_not_lt _ _ A H)|apply (Qle_not_lt _ _ B H)].
Qed.

Lemma nth_map_seq_from (f : nat -> nat) a c k : k < c -> nth k (map f (seq a c)) 0 = f (a + k).
Proof.
  revert a k. induction c as [|c IH]; intros a [|k] H; try lia; cbn [seq map nth]; [now rewrite Nat.add_0_r|]. rewrite IH by lia. f_equal. lia.
Qed.

Lemma pattern_activity output steps i j : let it := if length output <=? steps then length output else steps in
  neuron_pattern output (length output - it) (length output) i = neuron_pattern output (length output - it) (length output) j <-> same_activity output steps i j.
Proof.
  cbv zeta. unfold same_activity, neuron_pattern. set (it := if length output <=? steps then length output else steps).
  assert (E : length output - it = length output - steps) by (unfold it; destruct (Nat.leb_spec (length output) steps); lia). rewrite E. clear it E.
  set (a := length output - steps). set (c := length output - a). split.
  - intros H t Ht. assert (Ht' : t - a < c) by lia.
    apply heaviside_eq. assert (G := f_equal (fun l : list nat => nth (t - a) l 0) H). cbn beta in G.
    rewrite !nth_map_seq_from in G by exact Ht'. replace (a + (t - a)) with t in G by lia. exact G.
  - intros H. apply map_ext_in. intros t Ht. apply in_seq in Ht. apply heaviside_eq. apply H. lia.
Qed.
