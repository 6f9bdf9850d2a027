(** C126-C129: graph colouring networks and static simulations. *)
From Verif Require Import Base Kmeans_Model Kmeans_Proofs Topology_Model Topology_Proofs Ensembles_Model Ensembles_Proofs Gcolor_Model Gcolor_Proofs.
From Coq Require Import Qround.

(** C126: the colours are the numbers of the ensembles: equal colours mean the same ensemble, all colours are used. *)
Theorem C126_sync_coloring :
  forall period dynamic tolerance n, dynamic <> [] -> (forall st, In st dynamic -> length st = S n) ->
  exists groups m, sync_ensembles period dynamic tolerance None None = Ok groups /\ partitions (S n) groups /\
    sync_map_coloring period dynamic tolerance = Ok m /\ colors_are_groups (S n) groups m.
Proof.
  intros period dynamic tolerance n Hne Hl.
  destruct (nth_error dynamic (length dynamic - 1)) as [st|] eqn:E; [|apply nth_error_None in E; destruct dynamic; [contradiction Hne; reflexivity|simpl in E; lia]].
  destruct (sync_ensembles_spec period tolerance dynamic None st n E Hl) as (cl & Ec & P & N & _).
  exists cl, (coloring_map (S n) cl). split; [exact Ec|]. split; [exact P|]. unfold sync_map_coloring. rewrite Ec. cbn [bind].
  destruct dynamic as [|first t]; [contradiction Hne; reflexivity|]. rewrite (Hl first) by now left. split; [reflexivity|]. apply coloring_spec; auto.
Qed.
Print Assumptions C126_sync_coloring.

(** C126: the hysteresis network: colour 0 for the nodes that follow node 0 during the last steps, and a colour of its own
    for every other node. *)
Theorem C126_hysteresis_coloring :
  forall dynamic tolerance steps n, dynamic <> [] -> length (hd [] dynamic) = S n ->
  exists groups m, hyst_ensembles dynamic tolerance steps = Ok groups /\ partitions (S n) groups /\
    hyst_map_coloring dynamic tolerance steps = Ok m /\ colors_are_groups (S n) groups m /\
    forall v w, v < w <= n -> (nth v m 0 = nth w m 0 <-> (v = 0 \/ follows dynamic tolerance steps 0 v) /\ follows dynamic tolerance steps 0 w).
Proof.
  intros dynamic tolerance steps n Hne Hl. destruct (hyst_ensembles_spec dynamic tolerance steps n Hne Hl) as (g & singles & E & Hg & Hs & P).
  set (groups := (0 :: g) :: map (fun i => [i]) singles) in *.
  assert (N : no_empty groups).
  { constructor; [discriminate|]. apply Forall_forall. intros x Hx. apply in_map_iff in Hx as (i & <- & _). discriminate. }
  pose proof (coloring_spec (S n) groups P N) as C.
  exists groups, (coloring_map (S n) groups). split; [exact E|]. split; [exact P|]. unfold hyst_map_coloring. rewrite E. cbn [bind].
  destruct dynamic as [|first t]; [contradiction Hne; reflexivity|]. cbn [hd] in Hl. rewrite Hl. split; [reflexivity|]. split; [exact C|].
  destruct C as (_ & _ & C & _). intros v w Hvw.
  assert (G0 : In (0 :: g) groups) by now left.
  assert (I0 : forall x, x <= n -> (In x (0 :: g) <-> x = 0 \/ follows (first :: t) tolerance steps 0 x)).
  { intros x Hx. destruct (Nat.eq_dec x 0) as [->|Hx0]; [split; auto; now left|]. split.
    - intros [H|H]; [lia|]. apply Hg in H. tauto.
    - intros [H|H]; [lia|]. right. apply Hg. split; auto. lia. }
  assert (Fd : follows (first :: t) tolerance steps 0 v \/ ~ follows (first :: t) tolerance steps 0 v).
  { destruct (hyst_follow (first :: t) tolerance steps 0 v) eqn:Ef; [left; now apply hyst_follow_spec|right; intros Hf; apply hyst_follow_spec in Hf; congruence]. }
  assert (D : In v (0 :: g) \/ (v <> 0 /\ ~ follows (first :: t) tolerance steps 0 v)).
  { destruct (Nat.eq_dec v 0) as [->|Hv0]; [left; now left|]. destruct Fd as [Hf|Hf]; [left; apply I0; [lia|auto]|right; auto]. }
  destruct D as [D|[D1 D2]].
  - destruct (C v w (0 :: g) G0 D) as [H|H]; [|lia]. rewrite H, (I0 w) by lia. apply I0 in D; [|lia].
    split; [intros [K|K]; [lia|auto]|intros [_ K]; auto].
  - assert (Hin : In [v] groups) by (right; apply in_map_iff; exists v; split; auto; apply Hs; split; auto; lia).
    destruct (C v w [v] Hin (or_introl eq_refl)) as [H|H]; [|lia]. rewrite H. split; [intros [K|[]]; lia|intros [[K|K] _]; tauto].
Qed.
Print Assumptions C126_hysteresis_coloring.

Example C126_meets_hypotheses :
  let d := [[0; 1; 2; 3]; [1; 3; 1; 3]]%Q in
  sync_map_coloring 6 d (1 # 10) = Ok [0; 1; 0; 1] /\ hyst_map_coloring d (1 # 10) 1 = Ok [0; 1; 0; 2] /\
  (forall st, In st d -> length st = 4).
Proof. cbv zeta. split; [vm_compute; reflexivity|]. split; [vm_compute; reflexivity|]. intros st [<-|[<-|[]]]; reflexivity. Qed.

(** C126: two nodes of the hysteresis network with exactly the same output get different colours *)
Theorem C126_same_output_refuted :
  exists dynamic m, hyst_map_coloring dynamic (1 # 10) 10 = Ok m /\
    (forall st, In st dynamic -> nth 1 st 0%Q = nth 2 st 0%Q) /\ nth 1 m 0 <> nth 2 m 0.
Proof.
  exists [[0; 3; 3]; [1; 3; 3]]%Q. eexists. split; [vm_compute; reflexivity|]. split; [|discriminate].
  intros st [<-|[<-|[]]]; reflexivity.
Qed.
Print Assumptions C126_same_output_refuted.

(** C127: syncgcolor connects exactly the adjacent vertices *)
Theorem C127_adjacency :
  forall graph, square_graph graph -> exists net, syncgcolor graph = Ok net /\ n_osc net = length graph /\
  forall i j, i < length graph -> j < length graph ->
    (has_connection net i j = true <-> (0 < entry graph i j)%Q \/ (0 < entry graph j i)%Q) /\
    (In j (get_neighbors net i) <-> has_connection net i j = true).
Proof.
  intros graph Hs. destruct (syncgcolor_spec graph Hs) as (net & E & N & H). exists net. split; [exact E|]. split; [exact N|].
  intros i j Hi Hj. split; [apply H; auto|].
  unfold syncgcolor in E. destruct (network_init (length graph) CDynamic RMatrix None) as [net0|e] eqn:E0; [|discriminate]. cbn [bind] in E.
  apply Ok_inj in E0. subst net0.
  match type of E with set_connections ?x _ = _ => destruct (set_connections_spec (length graph) (graph_pairs graph) x eq_refl eq_refl) as (net2 & E2 & [N2 W2] & _) end.
  - apply (no_conn_wf RMatrix).
  - intros a b Hab. apply in_graph_pairs in Hab; auto. tauto.
  - rewrite E in E2. apply Ok_inj in E2. subst net2. apply neighbors_has; rewrite N2; auto.
Qed.
Print Assumptions C127_adjacency.

Example C127_meets_hypotheses :
  let graph := [[0; 1; 0]; [0; 0; 1]; [0; 0; 0]]%Q in
  square_graph graph /\ exists net, syncgcolor graph = Ok net /\ map (get_neighbors net) (seq 0 3) = [[1]; [0; 2]; [1]].
Proof. cbv zeta. split; [repeat constructor|]. eexists. split; [vm_compute; reflexivity|]. vm_compute. reflexivity. Qed.

(** C128: the weights of the hysteresis network; each node is inhibited by its neighbours with the total weight alpha and by
    itself with alpha + eps; the initial states differ and lie in (-1, 1]. *)
Theorem C128_weights :
  forall graph alpha eps, square_graph graph -> let n := length graph in 2 <= n ->
  (forall r, r < n -> ~ (qsum (nth r graph []) == 0)%Q) ->
  exists states w, hysteresisgcolor graph alpha eps = Ok (states, w) /\
    (forall r c, r < n -> c < n -> r <> c -> (entry w r c * qsum (nth r graph []) == - alpha * entry graph r c)%Q) /\
    (forall r, r < n -> entry w r r = (- alpha - eps)%Q) /\
    (forall r, r < n -> (entry graph r r == 0)%Q -> (qsum (map (fun c => if r =? c then 0%Q else entry w r c) (seq 0 n)) == - alpha)%Q) /\
    (length states = n /\ forall i j, i < n -> j < n ->
       (-1 < nth i states 0 <= 1)%Q /\ ((nth i states 0 == nth j states 0)%Q <-> i = j)).
Proof.
  intros graph alpha eps Hs n Hn Ht. unfold hysteresisgcolor. fold n.
  assert (R : forall r, r < n -> hyst_row graph alpha eps r = Ok (map (fun col => if r =? col then (- alpha - eps)%Q else (- alpha * nth col (nth r graph []) 0 / sumQ (nth r graph []))%Q) (seq 0 n))).
  { intros r Hr. unfold hyst_row. fold n. destruct (Qeq_bool (sumQ (nth r graph [])) 0) eqn:E; [|rewrite andb_false_r; reflexivity].
    apply Qeq_bool_iff in E. rewrite sumQ_qsum in E. now apply Ht in E. }
  destruct (collect_rows_ok (hyst_row graph alpha eps) (seq 0 n)) as (w & Ew & Lw & Nw).
  { intros r Hr. apply in_seq in Hr. eexists. apply R. lia. }
  rewrite Ew. cbn [bind]. exists (hyst_states n), w. split; [reflexivity|]. rewrite seq_length in Lw, Nw.
  assert (V : forall r c, r < n -> c < n -> entry w r c = if r =? c then (- alpha - eps)%Q else (- alpha * entry graph r c / sumQ (nth r graph []))%Q).
  { intros r c Hr Hc. unfold entry at 1. specialize (Nw r Hr). rewrite seq_nth, Nat.add_0_l, R in Nw by auto. apply Ok_inj in Nw. rewrite <- Nw. rewrite nth_map_seq0 by auto. reflexivity. }
  assert (S0 : forall r, r < n -> ~ (sumQ (nth r graph []) == 0)%Q) by (intros r Hr E; rewrite sumQ_qsum in E; now apply Ht in E).
  split; [|split; [|split]].
  - intros r c Hr Hc Hrc. rewrite V by auto. destruct (Nat.eqb_spec r c); [lia|]. rewrite <- sumQ_qsum. field. auto.
  - intros r Hr. rewrite V, Nat.eqb_refl by auto. reflexivity.
  - intros r Hr H0.
    assert (E : (qsum (map (fun c => if r =? c then 0%Q else entry w r c) (seq 0 n)) == qsum (map (fun c => (- alpha / sumQ (nth r graph [])) * entry graph r c)%Q (seq 0 n)))%Q).
    { apply qsum_ext. intros c Hc. apply in_seq in Hc. rewrite V by lia. destruct (Nat.eqb_spec r c) as [<-|]; [rewrite H0; field; auto|field; auto]. }
    rewrite E, qsum_scale. unfold square_graph in Hs. rewrite Forall_forall in Hs.
    assert (L : length (nth r graph []) = n) by (apply Hs, nth_In; auto).
    assert (M : map (entry graph r) (seq 0 n) = nth r graph []).
    { unfold entry. rewrite <- L. generalize (nth r graph []). intros l. clear. induction l as [|x l IH]; auto. cbn [length seq map]. rewrite <- seq_shift, map_map. cbn [nth]. f_equal. exact IH. }
    rewrite M, <- sumQ_qsum. field. auto.
  - unfold hyst_states. rewrite map_length, seq_length. split; [reflexivity|]. intros i j Hi Hj. rewrite !nth_map_seq0 by auto.
    assert (P : (0 < inject_Z (Z.of_nat n))%Q) by (change 0%Q with (inject_Z 0); rewrite <- Zlt_Qlt; lia).
    set (N := inject_Z (Z.of_nat n)) in *. set (I := inject_Z (Z.of_nat i)). set (J := inject_Z (Z.of_nat j)).
    assert (Q1 : (2 / N * I == 2 * (I / N))%Q) by (field; lra). assert (Q2 : (2 / N * J == 2 * (J / N))%Q) by (field; lra).
    assert (B1 : (0 <= I / N)%Q).
    { apply Qle_shift_div_l; auto. unfold I. setoid_replace (0 * N)%Q with (inject_Z 0) by (change (inject_Z 0) with 0%Q; ring). rewrite <- Zle_Qle. lia. }
    assert (B2 : (I / N < 1)%Q).
    { apply Qlt_shift_div_r; auto. unfold I, N. setoid_replace (1 * inject_Z (Z.of_nat n))%Q with (inject_Z (Z.of_nat n)) by ring. rewrite <- Zlt_Qlt. lia. }
    split; [rewrite Q1; split; lra|]. rewrite Q1, Q2. split; [|intros ->; reflexivity].
    intros E. assert (K : (I / N == J / N)%Q) by (lra).
    assert (K2 : (I == J)%Q). { setoid_replace I with (I / N * N)%Q by (field; lra). rewrite K. field. lra. }
    apply (proj1 (inject_Z_injective _ _)) in K2. apply Nat2Z.inj. exact K2.
Qed.
Print Assumptions C128_weights.

(** C128: the constructor raises exactly for graphs with a vertex whose row sums to zero, e.g. an isolated vertex *)
Theorem C128_zero_row :
  forall graph alpha eps, 2 <= length graph ->
  ((exists r, r < length graph /\ (qsum (nth r graph []) == 0)%Q) <-> hysteresisgcolor graph alpha eps = Raise ZeroDivisionError).
Proof.
  intros graph alpha eps Hn. unfold hysteresisgcolor.
  assert (A : forall r, hyst_row graph alpha eps r = Raise ZeroDivisionError <-> (qsum (nth r graph []) == 0)%Q).
  { intros r. unfold hyst_row. destruct (Nat.ltb_spec 1 (length graph)) as [_|]; [|lia]. cbn [andb].
    destruct (Qeq_bool (sumQ (nth r graph [])) 0) eqn:E.
    - apply Qeq_bool_iff in E. rewrite sumQ_qsum in E. tauto.
    - split; [discriminate|]. intros H. rewrite <- sumQ_qsum in H. apply Qeq_bool_iff in H. congruence. }
  split.
  - intros (r & Hr & E). rewrite (collect_rows_raise _ ZeroDivisionError); [reflexivity| |].
    + intros r' x. unfold hyst_row. destruct ((1 <? length graph) && Qeq_bool (sumQ (nth r' graph [])) 0); [|discriminate]. intros H. injection H. auto.
    + exists r. split; [apply in_seq; lia|]. apply A. exact E.
  - intros H. destruct (existsb (fun r => Qeq_bool (qsum (nth r graph [])) 0) (seq 0 (length graph))) eqn:E.
    + apply existsb_exists in E as (r & Hr & E). apply in_seq in Hr. exists r. split; [lia|]. now apply Qeq_bool_iff.
    + exfalso. destruct (collect_rows_ok (hyst_row graph alpha eps) (seq 0 (length graph))) as (ws & Ew & _).
      * intros r Hr. destruct (hyst_row graph alpha eps r) as [w|e] eqn:Er; [eauto|]. exfalso.
        assert (e = ZeroDivisionError).
        { unfold hyst_row in Er. destruct ((1 <? length graph) && Qeq_bool (sumQ (nth r graph [])) 0); [|discriminate]. injection Er. auto. }
        subst e. apply A in Er. apply Qeq_bool_iff in Er.
        assert (existsb (fun r => Qeq_bool (qsum (nth r graph [])) 0) (seq 0 (length graph)) = true) by (apply existsb_exists; eauto). congruence.
      * rewrite Ew in H. discriminate.
Qed.
Print Assumptions C128_zero_row.

Theorem C128_isolated_vertex_refuted :
  exists graph, square_graph graph /\ (forall alpha eps, hysteresisgcolor graph alpha eps = Raise ZeroDivisionError) /\
    exists net, syncgcolor graph = Ok net.
Proof.
  exists [[0; 1; 0]; [1; 0; 0]; [0; 0; 0]]%Q. split; [repeat constructor|]. split.
  - intros. apply C128_zero_row; [simpl; lia|]. exists 2. split; [simpl; lia|reflexivity].
  - eexists. vm_compute. reflexivity.
Qed.
Print Assumptions C128_isolated_vertex_refuted.

Example C128_meets_hypotheses :
  let graph := [[0; 1; 1]; [1; 0; 0]; [1; 0; 0]]%Q in
  square_graph graph /\ exists states w, hysteresisgcolor graph 2 1 = Ok (states, w) /\
    map (map Qred) w = [[-3; -1; -1]; [-2; -3; 0]; [-2; 0; -3]]%Q /\ map Qred states = [1; 1 # 3; - (1 # 3)]%Q.
Proof. cbv zeta. split; [repeat constructor|]. do 2 eexists. split; [vm_compute; reflexivity|]. split; vm_compute; reflexivity. Qed.

(** C129: a static simulation of [steps] steps makes exactly that many steps of equal length up to [time]; it records the
    initial state and all others, or the last one only. *)
Definition static_result {state} (next : Q -> state -> state) (output : state -> list Q) (steps : nat) (time : Q) (collect : bool)
    (s : state) (r : res (state * (list (list Q) * list Q))) : Prop :=
  let step := (time / inject_Z (Z.of_nat steps))%Q in
  exists times, length times = steps /\ (forall k, k < steps -> (nth k times 0 == inject_Z (Z.of_nat (S k)) * step)%Q) /\
    (nth (steps - 1) times 0 == time)%Q /\
    let states := trajectory next s times in
    r = Ok (last states s, if collect then (output s :: map output states, 0%Q :: times) else ([output (last states s)], [time])).

Lemma static_times steps time : 1 <= steps -> (0 < time)%Q ->
  let step := (time / inject_Z (Z.of_nat steps))%Q in
  let times := map (fun k => (step + inject_Z (Z.of_nat k) * step)%Q) (seq 0 steps) in
  length times = steps /\ (forall k, k < steps -> (nth k times 0 == inject_Z (Z.of_nat (S k)) * step)%Q) /\ (nth (steps - 1) times 0 == time)%Q.
Proof.
  intros Hs Ht step times.
  assert (N : forall k, k < steps -> (nth k times 0 == inject_Z (Z.of_nat (S k)) * step)%Q).
  { intros k Hk. unfold times. rewrite (nth_indep _ 0%Q (step + inject_Z (Z.of_nat 0) * step)%Q) by (rewrite map_length, seq_length; auto).
    rewrite (map_nth (fun k => (step + inject_Z (Z.of_nat k) * step)%Q)), seq_nth, Nat.add_0_l by auto.
    rewrite Nat2Z.inj_succ, <- Z.add_1_r, inject_Z_plus. change (inject_Z 1) with 1%Q. ring. }
  split; [unfold times; now rewrite map_length, seq_length|]. split; [exact N|]. rewrite N by lia. replace (S (steps - 1)) with steps by lia.
  unfold step. field. intros E. change 0%Q with (inject_Z 0) in E. apply (proj1 (inject_Z_injective _ _)) in E. lia.
Qed.

Theorem C129_sync_static :
  forall (state : Type) (next : Q -> state -> state) output steps time collect s, 1 <= steps -> (0 < time)%Q ->
  static_result next output steps time collect s (sync_simulate_static next output steps time collect s).
Proof.
  intros state next output steps time collect s Hs Ht. destruct (static_times steps time Hs Ht) as (L & N & F).
  eexists. split; [exact L|]. split; [exact N|]. split; [exact F|]. cbv zeta. unfold sync_simulate_static.
  destruct (Nat.eqb_spec steps 0) as [|_]; [lia|]. cbv zeta. rewrite (arange_length _ time steps Ht Hs eq_refl).
  destruct collect; [rewrite static_loop_collect|rewrite static_loop_silent]; reflexivity.
Qed.
Print Assumptions C129_sync_static.

Theorem C129_hysteresis_static :
  forall (state : Type) (next : Q -> state -> state) output steps time s, 1 <= steps -> (0 < time)%Q ->
  static_result next output steps time true s (hyst_simulate_static next output steps time RK4 true s).
Proof.
  intros state next output steps time s Hs Ht. destruct (static_times steps time Hs Ht) as (L & N & F).
  eexists. split; [exact L|]. split; [exact N|]. split; [exact F|]. cbv zeta. unfold hyst_simulate_static.
  destruct (Nat.eqb_spec steps 0) as [|_]; [lia|]. cbv zeta. rewrite (arange_length _ time steps Ht Hs eq_refl).
  rewrite static_loop_collect; reflexivity.
Qed.
Print Assumptions C129_hysteresis_static.

(** C129: without collecting - the default of simulate_static - the hysteresis network never returns a result *)
Theorem C129_hysteresis_no_collect_refuted :
  exists (next : Q -> list Q -> list Q) s, forall steps time, 1 <= steps -> (0 < time)%Q ->
   (exists r, sync_simulate_static next (fun x => x) steps time false s = Ok r) /\
   hyst_simulate_static next (fun x => x) steps time RK4 false s = Raise AttributeError.
Proof.
  exists (fun _ x => x), [1%Q]. intros steps time Hs Ht. split.
  - destruct (C129_sync_static _ (fun _ x => x) (fun x => x) steps time false [1%Q] Hs Ht) as (times & _ & _ & _ & E). eexists. exact E.
  - unfold hyst_simulate_static. destruct (Nat.eqb_spec steps 0) as [|_]; [lia|]. cbv zeta. rewrite static_loop_silent. reflexivity.
Qed.
Print Assumptions C129_hysteresis_no_collect_refuted.

Example C129_meets_hypotheses :
  exists times, sync_simulate_static (fun t x => map (Qplus t) x) (fun x => map Qred x) 4 2 true [0%Q] =
    Ok times /\ map (map Qred) (fst (snd times)) = [[0]; [1 # 2]; [3 # 2]; [3]; [5]]%Q /\ map Qred (snd (snd times)) = [0; 1 # 2; 1; 3 # 2; 2]%Q.
Proof. eexists. split; [vm_compute; reflexivity|]. split; vm_compute; reflexivity. Qed.
