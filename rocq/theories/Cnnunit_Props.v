(** C289: the chaotic network does not depend on the origin of the coordinates, but it does on the unit. *)
From Coq Require Import Reals Qreals.
From Verif Require Import Base Kmeans_Model Kmeans_Proofs Scaled_Proofs Unit_Props Unitmore_Props Cldist_Model Syncnet_Model Cnn_Model.
Local Open Scope nat_scope.

(** ** specification *)
(** equal outputs at the same times *)
Definition same_dynamic (r r' : list (list Q) * list nat) : Prop := Forall2 (Forall2 Qeq) (fst r) (fst r') /\ snd r' = snd r.
(** the triangles consist of points *)
Definition conn_ok (n : nat) (conn : cnn_conn) : Prop :=
  match conn with AllToAll => True | Delaunay triangles => Forall (Forall (fun i => i < n)) triangles end.
(** the distance is multiplied like the unit, wherever the origin is *)
Definition follows_unit (s : Q) (v : point) (distance : point -> point -> Q) : Prop :=
  forall p q p' q', moved s v p p' -> moved s v q q' -> (distance p' q' == s * distance p q)%Q.
(** [e] is exp(-x) with an error of at most 1/100 *)
Definition rounded_exp (e : Q -> Q) : Prop := forall x, (0 <= x)%Q -> (Rabs (Q2R (e x) - exp (- Q2R x)) <= 1 / 100)%R.

(** ** proofs *)
Lemma row_both {A B} (R : A -> B -> Prop) m m' : Forall2 (Forall2 R) m m' -> forall i, Forall2 R (nth i m []) (nth i m' []).
Proof. induction 1; intros [|i]; cbn [nth]; auto. Qed.
Lemma repeat_both {A B} (R : A -> B -> Prop) a b n : R a b -> Forall2 R (repeat a n) (repeat b n).
Proof. intros H. induction n; cbn [repeat]; constructor; auto. Qed.
Lemma set2_both (R : Q -> Q -> Prop) m m' i j a b : Forall2 (Forall2 R) m m' -> R a b -> Forall2 (Forall2 R) (set2 m i j a) (set2 m' i j b).
Proof. intros H Hab. unfold set2. apply upd_both; [exact H|]. apply upd_both; [apply row_both, H|exact Hab]. Qed.

Section Average.
Variables (s : Q) (v : point).
Hypothesis Hs : (0 < s)%Q.
Variable distance : point -> point -> Q.
Hypothesis Hdist : follows_unit s v distance.
Variables data data' : list point.
Hypothesis Hdata : Forall2 (moved s v) data data'.
Notation near := (times s).

Lemma insert_times x x' l l' : near x x' -> Forall2 near l l' -> Forall2 near (ins_key (fun q => q) x l) (ins_key (fun q => q) x' l').
Proof.
  intros Hx. induction 1 as [|y y' l l' Hy Hl IH]; cbn [ins_key]; [repeat constructor; exact Hx|].
  rewrite (scale_leb s Hs x y x' y' Hx Hy). destruct (Qle_bool x y); repeat constructor; auto.
Qed.
Lemma sort_times l l' : Forall2 near l l' -> Forall2 near (sort_key (fun q => q) l) (sort_key (fun q => q) l').
Proof. unfold sort_key. induction 1; cbn [fold_right]; [constructor|]. apply insert_times; assumption. Qed.

Lemma matrix_times : Forall2 (Forall2 near) (neighbor_matrix distance data) (neighbor_matrix distance data').
Proof.
  unfold neighbor_matrix. rewrite (both_length _ _ _ Hdata). set (n := length data).
  assert (Hz : Forall2 (Forall2 near) (repeat (repeat 0%Q n) n) (repeat (repeat 0%Q n) n)) by (apply repeat_both, repeat_both; unfold times; ring).
  assert (Hin : forall i, In i (seq 0 n) -> i < n) by (intros i Hi; apply in_seq in Hi; lia).
  revert Hz Hin. generalize (repeat (repeat 0%Q n) n) at 1 3 as m. generalize (repeat (repeat 0%Q n) n) as m'. induction (seq 0 n) as [|i t IH]; intros m' m Hm Hin; cbn [fold_left]; [exact Hm|].
  apply IH; [|intros; apply Hin; right; assumption]. pose proof (Hin i (or_introl eq_refl)) as Hi.
  assert (K : forall js a a', Forall2 (Forall2 near) a a' -> (forall j, In j js -> j < n) ->
    Forall2 (Forall2 near) (fold_left (fun m j => let w := distance (nth i data []) (nth j data []) in set2 (set2 m i j w) j i w) js a)
      (fold_left (fun m j => let w := distance (nth i data' []) (nth j data' []) in set2 (set2 m i j w) j i w) js a')).
  { induction js as [|j js IHj]; intros a a' Ha Hj; cbn [fold_left]; [exact Ha|]. apply IHj; [|intros; apply Hj; right; assumption].
    cbv zeta. assert (W : near (distance (nth i data []) (nth j data [])) (distance (nth i data' []) (nth j data' []))).
    { apply Hdist; apply nth_moved; auto. apply Hj. left. reflexivity. }
    apply set2_both; [apply set2_both; [exact Ha|exact W]|exact W]. }
  assert (K' := K (seq (S i) (n - S i)) m m' Hm ltac:(intros j Hj; apply in_seq in Hj; lia)).
  apply upd_both; [exact K'|]. apply sort_times, row_both, K'.
Qed.

Lemma average_times k : same_run near (average_neighbor_distance distance data k) (average_neighbor_distance distance data' k).
Proof.
  unfold average_neighbor_distance. rewrite (both_length _ _ _ Hdata). destruct (_ <? _)%Z; [reflexivity|]. destruct (_ =? 0); [reflexivity|]. cbn [same_run].
  pose proof matrix_times as M. set (m := neighbor_matrix distance data) in *. set (m' := neighbor_matrix distance data') in *.
  assert (T : forall is a a', near a a' ->
    near (fold_left (fun acc i => fold_left (fun acc j => (acc + nth (j + 1) (nth i m []) 0)%Q) (seq 0 k) acc) is a)
         (fold_left (fun acc i => fold_left (fun acc j => (acc + nth (j + 1) (nth i m' []) 0)%Q) (seq 0 k) acc) is a')).
  { induction is as [|i is IH]; intros a a' Ha; cbn [fold_left]; [exact Ha|]. apply IH. clear IH. revert a a' Ha.
    induction (seq 0 k) as [|j js IHj]; intros a a' Ha; cbn [fold_left]; [exact Ha|]. apply IHj.
    pose proof (times_nth s _ _ (row_both _ _ _ M i) (j + 1)) as E. clear - Ha E. unfold times in *. Lqa.lra. }
  pose proof (T (seq 0 (length data)) 0%Q 0%Q ltac:(unfold times; ring)) as E. clear - E. unfold times in *. rewrite E. unfold Qdiv. ring.
Qed.
End Average.

Section Origin.
Variable v : point.
Variables (distance : point -> point -> Q) (expminus : Q -> Q).
Hypothesis Hdist : follows_unit 1 v distance.
Hypothesis Hexp : forall x y, (x == y)%Q -> (expminus x == expminus y)%Q.
Variables data data' : list point.
Hypothesis Hdata : Forall2 (moved 1 v) data data'.

Definition same_weights (m m' : list (list Q) * list Q) : Prop := Forall2 (Forall2 Qeq) (fst m) (fst m') /\ Forall2 Qeq (snd m) (snd m').

Lemma zero_same x y : (x == y)%Q -> Qeq_bool y 0 = Qeq_bool x 0.
Proof. intros E. destruct (Qeq_bool x 0) eqn:Z; [apply Qeq_bool_iff in Z; apply Qeq_bool_iff; lra|]. apply Qeq_bool_neq in Z. destruct (Qeq_bool y 0) eqn:Z'; [apply Qeq_bool_iff in Z'; exfalso; apply Z; lra|reflexivity]. Qed.
Lemma qeq_nth l l' : Forall2 Qeq l l' -> forall i, (nth i l 0 == nth i l' 0)%Q.
Proof. induction 1; intros [|i]; cbn [nth]; auto; reflexivity. Qed.

Lemma connect_same m m' i j w w' : same_weights m m' -> (w == w')%Q -> same_weights (connect m i j w) (connect m' i j w').
Proof.
  intros (H1 & H2) Hw. unfold connect. split; cbn [fst snd].
  - apply set2_both; [apply set2_both; [exact H1|exact Hw]|exact Hw].
  - assert (U : Forall2 Qeq (upd (snd m) i (nth i (snd m) 0 + w)%Q) (upd (snd m') i (nth i (snd m') 0 + w')%Q)) by (apply upd_both; [exact H2|]; rewrite (qeq_nth _ _ H2 i), Hw; reflexivity).
    apply upd_both; [exact U|]. rewrite (qeq_nth _ _ U j), Hw. reflexivity.
Qed.
Lemma connect_all_same a a' : (a == a')%Q -> forall l, (forall i j, In (i, j) l -> i < length data /\ j < length data) -> forall m m', same_weights m m' ->
  same_run same_weights (connect_all expminus a data l m) (connect_all expminus a' data' l m').
Proof.
  intros Ha. induction l as [|(i & j) t IH]; intros Hl m m' Hm; cbn [connect_all]; [exact Hm|].
  unfold calculate_weight. rewrite (zero_same a a' Ha). destruct (Qeq_bool a 0); cbn [bind]; [reflexivity|].
  apply IH; [intros; apply Hl; right; assumption|]. apply connect_same; [exact Hm|]. apply Hexp. rewrite Ha.
  destruct (Hl i j (or_introl eq_refl)) as (Hi & Hj).
  rewrite (moved_sqdist 1 v _ _ _ _ (nth_moved 1 v data data' Hdata i Hi) (nth_moved 1 v data data' Hdata j Hj)).
  assert (X : (1 * 1 * sqdist (nth i data []) (nth j data []) == sqdist (nth i data []) (nth j data []))%Q) by ring. rewrite X. reflexivity.
Qed.
Lemma pairs_range n i j : In (i, j) (Syncnet_Model.pairs n) -> i < n /\ j < n.
Proof.
  unfold Syncnet_Model.pairs. intros H. apply in_flat_map in H as (x & Hx & H). apply in_map_iff in H as (y & E & Hy). injection E as <- <-.
  apply in_seq in Hx. apply in_seq in Hy. lia.
Qed.
Lemma edges_range conn n i j : conn_ok n conn -> In (i, j) (edges conn n) -> i < n /\ j < n.
Proof.
  destruct conn as [|ts]; cbn [conn_ok edges]; intros Hc H; [apply pairs_range, H|].
  apply in_flat_map in H as (t & Ht & H). apply in_map_iff in H as ((x & y) & E & Hxy). apply pairs_range in Hxy as (X & Y). injection E as <- <-.
  rewrite Forall_forall in Hc. specialize (Hc t Ht). rewrite Forall_forall in Hc. split; apply Hc, nth_In; assumption.
Qed.
Lemma create_same conn k : conn_ok (length data) conn -> same_run same_weights (create_weights distance expminus conn k data) (create_weights distance expminus conn k data').
Proof.
  intros Hc. unfold create_weights. rewrite (both_length _ _ _ Hdata). cbv zeta. pose proof (average_times 1 v eq_refl distance Hdist data data' Hdata k) as A. revert A.
  destruct (average_neighbor_distance distance data k) as [a|], (average_neighbor_distance distance data' k) as [a'|]; cbn [same_run bind]; try contradiction; [|congruence].
  intros A. apply connect_all_same.
  - unfold times in A. rewrite A. ring.
  - intros i j H. apply (edges_range conn); assumption.
  - split; cbn [fst snd]; [apply repeat_both, repeat_both; reflexivity|apply repeat_both; reflexivity].
Qed.

Lemma evolution_same m m' o o' i : same_weights m m' -> Forall2 Qeq o o' -> same_run Qeq (neuron_evolution m o i) (neuron_evolution m' o' i).
Proof.
  intros (H1 & H2) Ho. unfold neuron_evolution. rewrite (zero_same _ _ (qeq_nth _ _ H2 i)). destruct (Qeq_bool (nth i (snd m) 0%Q) 0); [reflexivity|]. cbn [same_run].
  rewrite (both_length _ _ _ Ho), (qeq_nth _ _ H2 i).
  assert (F : forall l a a', (a == a')%Q -> (fold_left (fun acc j => (acc + nth j (nth i (fst m) []) 0 * (1 - 2 * (nth j o 0 * nth j o 0)))%Q) l a ==
    fold_left (fun acc j => (acc + nth j (nth i (fst m') []) 0 * (1 - 2 * (nth j o' 0 * nth j o' 0)))%Q) l a')%Q).
  { induction l as [|j l IH]; intros a a' Ha; cbn [fold_left]; [exact Ha|]. apply IH. rewrite Ha, (qeq_nth _ _ (row_both _ _ _ H1 i) j), (qeq_nth _ _ Ho j). reflexivity. }
  rewrite (F _ 0%Q 0%Q) by reflexivity. reflexivity.
Qed.
Lemma evolve_same m m' o o' l : same_weights m m' -> Forall2 Qeq o o' -> same_run (Forall2 Qeq) (evolve m o l) (evolve m' o' l).
Proof.
  intros Hm Ho. induction l as [|i t IH]; cbn [evolve]; [constructor|]. pose proof (evolution_same m m' o o' i Hm Ho) as E. revert E.
  destruct (neuron_evolution m o i), (neuron_evolution m' o' i); cbn [same_run bind]; try contradiction; [|congruence]. intros E. revert IH.
  destruct (evolve m o t), (evolve m' o' t); cbn [same_run bind]; try contradiction; [|congruence]. intros F. constructor; assumption.
Qed.
Lemma loop_same m m' left : same_weights m m' -> forall o o' step, Forall2 Qeq o o' -> same_run same_dynamic (simulate_loop m o step left) (simulate_loop m' o' step left).
Proof.
  intros Hm. induction left as [|left IH]; intros o o' step Ho; cbn [simulate_loop]; [split; [constructor|reflexivity]|].
  unfold calculate_states. rewrite (both_length _ _ _ Ho). pose proof (evolve_same m m' o o' (seq 0 (length o)) Hm Ho) as E. revert E.
  destruct (evolve m o _) as [p|], (evolve m' o' _) as [p'|]; cbn [same_run bind]; try contradiction; [|congruence]. intros E. pose proof (IH p p' (S step) E) as F. revert F.
  destruct (simulate_loop m p _ left), (simulate_loop m' p' _ left); cbn [same_run bind]; try contradiction; [|congruence]. intros (F1 & F2). split; cbn [fst snd]; [constructor; assumption|congruence].
Qed.
End Origin.

(** The outputs of all steps and the times are the same for the points measured from another origin, and so are the exceptions. *)
Theorem C289_origin : forall (v : point) (distance : point -> point -> Q) (expminus : Q -> Q) (data data' : list point) (conn : cnn_conn)
    (amount_neighbors steps : nat) (output : list Q),
  follows_unit 1 v distance -> (forall x y, (x == y)%Q -> (expminus x == expminus y)%Q) ->
  Forall2 (moved 1 v) data data' -> conn_ok (length data) conn ->
  same_run same_dynamic (simulate distance expminus conn amount_neighbors steps data output)
                        (simulate distance expminus conn amount_neighbors steps data' output).
Proof.
  intros v distance expminus data data' conn k steps output Hd He Hm Hc. unfold simulate.
  pose proof (create_same v distance expminus Hd He data data' Hm conn k Hc) as W. revert W.
  destruct (create_weights distance expminus conn k data) as [m|], (create_weights distance expminus conn k data') as [m'|]; cbn [same_run bind]; try contradiction; [|congruence]. intros W.
  assert (O : Forall2 Qeq output output) by (clear; induction output; constructor; auto; reflexivity).
  pose proof (loop_same m m' (steps - 1) W output output 1 O) as L. revert L.
  destruct (simulate_loop m output 1 (steps - 1)), (simulate_loop m' output 1 (steps - 1)); cbn [same_run bind]; try contradiction; [|congruence].
  intros (L1 & L2). split; cbn [fst snd]; [constructor; assumption|congruence].
Qed.
Print Assumptions C289_origin.

(** The average distance to the neighbours, on which the weights depend, follows the unit and does not depend on the origin. *)
Theorem C289_average : forall (s : Q) (v : point) (distance : point -> point -> Q) (data data' : list point) (amount_neighbors : nat),
  (0 < s)%Q -> follows_unit s v distance -> Forall2 (moved s v) data data' ->
  same_run (fun a a' => (a' == s * a)%Q) (average_neighbor_distance distance data amount_neighbors) (average_neighbor_distance distance data' amount_neighbors).
Proof. intros s v distance data data' k Hs Hd Hm. exact (average_times s v Hs distance Hd data data' Hm k). Qed.
Print Assumptions C289_average.

Lemma rounded_bounds e x : rounded_exp e -> (0 < x)%Q ->
  (Q2R (e x) <= 1 / (1 + Q2R x) + 1 / 100)%R /\ (1 - Q2R x - 1 / 100 <= Q2R (e x))%R /\ (- (1 / 100) <= Q2R (e x))%R /\ (Q2R x <= 2 -> 1 / 10 <= Q2R (e x))%R.
Proof.
  intros He Hx. specialize (He x ltac:(Lqa.lra)). apply Qlt_Rlt in Hx. rewrite RMicromega.Q2R_0 in Hx.
  pose proof (exp_ineq1 (Q2R x) ltac:(Lra.lra)) as A. pose proof (exp_ineq1 (- Q2R x) ltac:(Lra.lra)) as B. pose proof (exp_pos (- Q2R x)) as P.
  assert (C : (exp (- Q2R x) < 1 / (1 + Q2R x))%R).
  { rewrite exp_Ropp. unfold Rdiv. rewrite Rmult_1_l. apply Rinv_lt_contravar; [|exact A]. apply Rmult_lt_0_compat; Lra.lra. }
  assert (D : (Q2R x <= 2 -> 11 / 100 < exp (- Q2R x))%R).
  { intros L. assert (E9 : (exp (Q2R x) <= 9)%R).
    { apply Rle_trans with (exp (1 + 1)).
      - destruct (Req_dec (Q2R x) 2) as [->|N]; [right; f_equal; Lra.lra|]. left. apply exp_increasing. Lra.lra.
      - rewrite exp_plus. pose proof exp_le_3. pose proof (exp_pos 1). Lra.nra. }
    rewrite exp_Ropp. pose proof (exp_pos (Q2R x)) as P'. apply Rlt_le_trans with (/ 9)%R; [Lra.lra|]. apply Rinv_le_contravar; Lra.lra. }
  unfold Rabs in He. destruct (Rcase_abs _) in He; (split; [Lra.lra|]; split; [Lra.lra|]; split; [Lra.lra|]; intros L; specialize (D L); Lra.lra).
Qed.

Lemma three e p q r average : average_neighbor_distance manhattan [p; q; r] 1 = Ok average -> Qeq_bool average 0 = false ->
  let w01 := e (sqdist p q / (2 * average))%Q in let w02 := e (sqdist p r / (2 * average))%Q in let w12 := e (sqdist q r / (2 * average))%Q in
  (0 < w01 + w02)%Q -> (0 < w01 + w12)%Q -> (0 < w02 + w12)%Q ->
  exists x rest, simulate manhattan e AllToAll 1 2 [p; q; r] [0; 0; 1]%Q = Ok ([[0; 0; 1]%Q; x :: rest], [0; 1]) /\ (x * (w01 + w02) == w01 - w02)%Q.
Proof.
  intros Ha Hz w01 w02 w12 H1 H2 H3. unfold simulate, create_weights. rewrite Ha. cbn [bind].
  change (edges AllToAll (length [p; q; r])) with [(0, 1); (0, 2); (1, 2)]. cbn [connect_all nth]. unfold calculate_weight. rewrite Hz. cbn [bind].
  fold w01 w02 w12. clearbody w01 w02 w12. unfold connect, set2. cbn [fst snd upd nth repeat length simulate_loop minus bind].
  unfold calculate_states. cbn [length seq evolve]. unfold neuron_evolution. cbn [length seq fold_left nth fst snd bind].
  assert (N : forall a b, (0 < a + b)%Q -> Qeq_bool (0 + a + b) 0 = false).
  { intros a b Hab. destruct (Qeq_bool (0 + a + b) 0) eqn:E; [|reflexivity]. apply Qeq_bool_iff in E. exfalso. Lqa.lra. }
  rewrite (N w01 w02 H1), (N w01 w12 H2), (N w02 w12 H3). cbn [bind fst snd]. eexists. eexists. split; [reflexivity|]. field. Lqa.lra.
Qed.

(** Three points on a line and the same points in a unit a hundred times as long, with the Euclidean distance of numbers
    and exp rounded in any way with an error of at most 1/100: after one step the first neuron differs. *)
Theorem C289_unit_refuted : exists (s : Q) (data data' : list point) (output : list Q),
  (0 < s)%Q /\ Forall2 (moved s [0%Q]) data data' /\ follows_unit s [0%Q] manhattan /\
  forall e, rounded_exp e ->
  exists x x' rest rest',
    simulate manhattan e AllToAll 1 2 data output = Ok ([output; x :: rest], [0; 1]) /\
    simulate manhattan e AllToAll 1 2 data' output = Ok ([output; x' :: rest'], [0; 1]) /\
    (2 # 5 < x)%Q /\ (x' < 1 # 10)%Q.
Proof.
  exists (1 # 100)%Q, [[0%Q]; [1%Q]; [3%Q]], [[0%Q]; [(1 # 100)%Q]; [(3 # 100)%Q]], [0; 0; 1]%Q. split; [reflexivity|].
  split. { repeat constructor; cbn [length]; try reflexivity; intros d Hd; (destruct d; [reflexivity|cbn in Hd; lia]). }
  split. { intros p q p' q' Hp Hq. apply (moved_manhattan (1 # 100) [0%Q]); [reflexivity|assumption|assumption]. }
  intros e He.
  assert (V : forall a b (x : R), (a == b)%Q -> Q2R b = x -> Q2R a = x) by (intros a b x E <-; now apply Qeq_eqR).
  assert (B : forall x y, (x == y)%Q -> (0 < y)%Q -> (Q2R (e x) <= 1 / (1 + Q2R y) + 1 / 100)%R /\ (1 - Q2R y - 1 / 100 <= Q2R (e x))%R /\ (- (1 / 100) <= Q2R (e x))%R /\ (Q2R y <= 2 -> 1 / 10 <= Q2R (e x))%R).
  { intros x y E Hy. rewrite <- (Qeq_eqR x y E). apply rounded_bounds; [exact He|]. rewrite E. exact Hy. }
  assert (Pos : forall a b, (0 < Q2R a + Q2R b)%R -> (0 < a + b)%Q).
  { intros a b H. apply Rlt_Qlt. rewrite RMicromega.Q2R_0, Q2R_plus. exact H. }
  destruct (three e [0%Q] [1%Q] [3%Q] (4 # 3)) as (x & rest & R & X); [vm_compute; reflexivity|reflexivity| | | |].
  1-3: apply Pos.
  1: destruct (B (sqdist [0] [1] / (2 * (4 # 3))) (3 # 8) eq_refl eq_refl)%Q as (_ & B1 & _); destruct (B (sqdist [0] [3] / (2 * (4 # 3))) (27 # 8) eq_refl eq_refl)%Q as (_ & _ & B2 & _); unfold Q2R in B1 at 1; cbn [Qnum Qden] in B1; Lra.lra.
  1: destruct (B (sqdist [0] [1] / (2 * (4 # 3))) (3 # 8) eq_refl eq_refl)%Q as (_ & B1 & _); destruct (B (sqdist [1] [3] / (2 * (4 # 3))) (3 # 2) eq_refl eq_refl)%Q as (_ & _ & B2 & _); unfold Q2R in B1 at 1; cbn [Qnum Qden] in B1; Lra.lra.
  1: destruct (B (sqdist [0] [3] / (2 * (4 # 3))) (27 # 8) eq_refl eq_refl)%Q as (_ & _ & B1 & _); destruct (B (sqdist [1] [3] / (2 * (4 # 3))) (3 # 2) eq_refl eq_refl)%Q as (_ & _ & _ & B2); specialize (B2 ltac:(unfold Q2R; cbn [Qnum Qden]; Lra.lra)); Lra.lra.
  destruct (three e [0%Q] [(1 # 100)%Q] [(3 # 100)%Q] (4000000 # 300000000)) as (x' & rest' & R' & X'); [vm_compute; reflexivity|reflexivity| | | |].
  1-3: apply Pos.
  1: destruct (B (sqdist [0] [1 # 100] / (2 * (4000000 # 300000000))) (3 # 800) eq_refl eq_refl)%Q as (_ & B1 & _); destruct (B (sqdist [0] [3 # 100] / (2 * (4000000 # 300000000))) (27 # 800) eq_refl eq_refl)%Q as (_ & _ & B2 & _); unfold Q2R in B1 at 1; cbn [Qnum Qden] in B1; Lra.lra.
  1: destruct (B (sqdist [0] [1 # 100] / (2 * (4000000 # 300000000))) (3 # 800) eq_refl eq_refl)%Q as (_ & B1 & _); destruct (B (sqdist [1 # 100] [3 # 100] / (2 * (4000000 # 300000000))) (3 # 200) eq_refl eq_refl)%Q as (_ & _ & B2 & _); unfold Q2R in B1 at 1; cbn [Qnum Qden] in B1; Lra.lra.
  1: destruct (B (sqdist [0] [3 # 100] / (2 * (4000000 # 300000000))) (27 # 800) eq_refl eq_refl)%Q as (_ & B1 & _); destruct (B (sqdist [1 # 100] [3 # 100] / (2 * (4000000 # 300000000))) (3 # 200) eq_refl eq_refl)%Q as (_ & _ & B2 & _); unfold Q2R in B1 at 1; cbn [Qnum Qden] in B1; Lra.lra.
  exists x, x', rest, rest'. split; [exact R|]. split; [exact R'|]. apply Qeq_eqR in X, X'. rewrite Q2R_mult, Q2R_plus, Q2R_minus in X, X'. split; apply Rlt_Qlt.
  - destruct (B (sqdist [0] [1] / (2 * (4 # 3))) (3 # 8) eq_refl eq_refl)%Q as (_ & B1 & _); destruct (B (sqdist [0] [3] / (2 * (4 # 3))) (27 # 8) eq_refl eq_refl)%Q as (B3 & _ & B2 & _).
    set (a := Q2R (e (sqdist [0%Q] [1%Q] / _)%Q)) in *. set (b := Q2R (e (sqdist [0%Q] [3%Q] / _)%Q)) in *. clearbody a b.
    unfold Q2R at 1 in B1. unfold Q2R at 1 in B3. cbn [Qnum Qden] in B1, B3. unfold Q2R at 1. cbn [Qnum Qden].
    assert (B4 : (b <= 24 / 100)%R) by Lra.lra. clear - X B1 B2 B4. set (y := Q2R x) in *. Lra.nra.
  - destruct (B (sqdist [0] [1 # 100] / (2 * (4000000 # 300000000))) (3 # 800) eq_refl eq_refl)%Q as (B0 & B1 & _); destruct (B (sqdist [0] [3 # 100] / (2 * (4000000 # 300000000))) (27 # 800) eq_refl eq_refl)%Q as (_ & B2 & _).
    set (a := Q2R (e (sqdist [0%Q] [(1 # 100)%Q] / _)%Q)) in *. set (b := Q2R (e (sqdist [0%Q] [(3 # 100)%Q] / _)%Q)) in *. clearbody a b.
    unfold Q2R at 1 in B0. unfold Q2R at 1 in B1. unfold Q2R at 1 in B2. cbn [Qnum Qden] in B0, B1, B2. unfold Q2R at 2. cbn [Qnum Qden].
    assert (B4 : (a <= 102 / 100)%R) by Lra.lra. clear - X' B1 B2 B4. set (y := Q2R x') in *. Lra.nra.
Qed.
Print Assumptions C289_unit_refuted.

(** hypotheses of the theorems: a rounded exponential exists, the triangle 0, 1, 2 of three points moved by 5 *)
Definition up_exp (x : Q) : Q := up (100 * exp (- Q2R x)) # 100.
Example C289_example :
  rounded_exp up_exp /\ follows_unit 1 [5%Q] manhattan /\ Forall2 (moved 1 [5%Q]) [[0%Q]; [1%Q]; [3%Q]] [[5%Q]; [6%Q]; [8%Q]] /\
  conn_ok 3 (Delaunay [[0; 1; 2]]) /\
  average_neighbor_distance manhattan [[5%Q]; [6%Q]; [8%Q]] 1 = Ok (4 # 3)%Q /\
  match simulate manhattan (fun x => (1 / (1 + x))%Q) AllToAll 1 2 [[5%Q]; [6%Q]; [8%Q]] [0; 0; 1]%Q with
  | Ok ([_; x :: _], [0; 1]) => (x == 12 # 23)%Q
  | _ => False
  end.
Proof.
  split. { intros x _. unfold up_exp, Q2R at 1. cbn [Qnum Qden]. destruct (archimed (100 * exp (- Q2R x))) as (A & B). unfold Rabs. destruct (Rcase_abs _); Lra.lra. }
  split. { intros p q p' q' Hp Hq. apply (moved_manhattan 1 [5%Q]); [reflexivity|assumption|assumption]. }
  split. { repeat constructor; cbn [length]; try reflexivity; intros d Hd; (destruct d; [reflexivity|cbn in Hd; lia]). }
  split. { repeat constructor. }
  split; [vm_compute; reflexivity|]. vm_compute. reflexivity.
Qed.
