(** Proofs about the model of cluster/syncsom.py. *)
From Verif Require Import Base Kmeans_Model Kmeans_Proofs Small_Model Small_Proofs Topology_Model Topology_Proofs Ensembles_Model Ensembles_Proofs Cldist_Model Cldist_Proofs
  Som_Model Som_Proofs Syncnet_Model Syncnet_Proofs Syncsom_Model.

(** * Specification *)
(** a simulation keeps the number of oscillators and records at least one state *)
Definition sane_simulation (simulate : network -> list Q -> list (list Q)) : Prop :=
  forall net ph, length ph = n_osc net -> simulate net ph <> [] /\ forall st, In st (simulate net ph) -> length st = n_osc net.

(** some of the objects of [xs] and some of [ys] are not farther apart than the radius *)
Definition objects_meet (data : list point) (radius : Q) (xs ys : list nat) : Prop :=
  exists x y, In x xs /\ In y ys /\ (sqdist (nth x data []) (nth y data []) <= radius * radius)%Q.

(** * Proofs *)
Lemma map_nth_self {A} (d : A) (l : list A) : map (fun i => nth i l d) (seq 0 (length l)) = l.
Proof. induction l as [|x l IH]; auto. cbn [length seq map]. rewrite <- seq_shift, map_map. cbn [nth]. f_equal. exact IH. Qed.

Lemma flat_map_filter_nil {A B} (f : A -> list B) p l : (forall x, In x l -> p x = false -> f x = []) -> flat_map f (filter p l) = flat_map f l.
Proof.
  induction l as [|x l IH]; intros H; [reflexivity|]. cbn [filter flat_map]. destruct (p x) eqn:E; cbn [flat_map].
  - rewrite IH; auto. intros y Hy. apply H. now right.
  - rewrite IH, (H x) by (auto; now left || (intros y Hy; apply H; now right)). reflexivity.
Qed.

Lemma flat_map_nth (c : list (list nat)) : flat_map (fun i => nth i c []) (seq 0 (length c)) = concat c.
Proof. rewrite flat_map_concat_map. f_equal. apply map_nth_self. Qed.

Lemma nth_map_length (c : list (list nat)) i : nth i (map (@length nat) c) 0 = length (nth i c []).
Proof. exact (map_nth (@length nat) c [] i). Qed.

Lemma table_concat size n award captured : captured_once size n award captured ->
  flat_map (fun i => nth i captured []) (osc_table size award) = concat captured.
Proof.
  intros (H1 & _ & _ & H4). unfold osc_table. rewrite flat_map_filter_nil; [rewrite <- H1; apply flat_map_nth|].
  intros i _ Hi. apply Nat.ltb_ge in Hi. rewrite H4, nth_map_length in Hi.
  destruct (nth i captured []); auto. simpl in Hi. lia.
Qed.

Lemma in_table size n award captured i : captured_once size n award captured ->
  (In i (osc_table size award) <-> i < size /\ nth i captured [] <> []).
Proof.
  intros (H1 & _ & _ & H4). unfold osc_table. rewrite filter_In, in_seq, Nat.ltb_lt, H4, nth_map_length.
  destruct (nth i captured []); simpl; split; intros [A B]; split; auto; try lia; try discriminate. contradiction B; reflexivity.
Qed.

Lemma NoDup_table size award : NoDup (osc_table size award).
Proof. apply NoDup_filter, seq_NoDup. Qed.

Lemma flat_map_flat_map {A B C} (f : A -> list B) (g : B -> list C) l : flat_map g (flat_map f l) = flat_map (fun x => flat_map g (f x)) l.
Proof. induction l as [|x l IH]; [reflexivity|]. cbn [flat_map]. rewrite flat_map_app, IH. reflexivity. Qed.

Lemma concat_map_flat {A B} (f : A -> list B) (gs : list (list A)) : concat (map (flat_map f) gs) = flat_map f (concat gs).
Proof. induction gs as [|g gs IH]; [reflexivity|]. cbn [map concat]. rewrite flat_map_app, IH. reflexivity. Qed.

Lemma perm_flat_map {A B} (f : A -> list B) l l' : Permutation l l' -> Permutation (flat_map f l) (flat_map f l').
Proof. intros H. apply Permutation_flat_map. exact H. Qed.

Lemma flat_map_table {B} (f : nat -> list B) (table : list nat) :
  flat_map (fun k => f (nth k table 0)) (seq 0 (length table)) = flat_map f table.
Proof.
  rewrite !flat_map_concat_map. f_equal. rewrite <- (map_nth_self 0 table) at 2. rewrite map_map. reflexivity.
Qed.

Lemma object_connection data radius captured table a b :
  has_object_connection data (radius * radius) captured table a b = true <->
  objects_meet data radius (nth (nth a table 0) captured []) (nth (nth b table 0) captured []).
Proof.
  unfold has_object_connection, objects_meet. rewrite existsb_exists. split.
  - intros (x & Hx & H). apply existsb_exists in H as (y & Hy & H). apply Qle_bool_iff in H. exists x, y. auto.
  - intros (x & y & Hx & Hy & H). exists x. split; auto. apply existsb_exists. exists y. split; auto. now apply Qle_bool_iff.
Qed.

Lemma objects_meet_sym data radius xs ys : objects_meet data radius xs ys -> objects_meet data radius ys xs.
Proof. intros (x & y & Hx & Hy & H). exists y, x. rewrite sqdist_sym. auto. Qed.

Section Syncsom.
Variable distance : point -> point -> Q.
Variable influence : Q -> Q -> Q.
Variables (som_radius som_rate : nat -> Q) (threshold : Q).
Variable simulate : network -> list Q -> list (list Q).
Variable initial_phases : nat -> list Q.
Variable period : Q.
Hypothesis Hsim : sane_simulation simulate.
Hypothesis Hph : forall m, length (initial_phases m) = m.

Lemma sync_layer_ok data radius captured table weights : weights <> [] -> length weights = length table ->
  exists net, create_sync_layer distance data (radius * radius) captured table weights = Ok net /\ n_osc net = length weights /\
  forall a b, a < length weights -> b < length weights ->
   (has_connection net a b = true <-> a <> b /\ ((pair_distance distance weights a b <= 0)%Q \/
      objects_meet data radius (nth (nth a table 0) captured []) (nth (nth b table 0) captured []))).
Proof.
  intros Hw Hl. unfold create_sync_layer. rewrite syncnet_unfold by exact Hw.
  destruct (fresh_ok weights RMatrix) as (net0 & E0 & H0 & F0). rewrite E0. cbn [bind].
  destruct (create_connections_net distance weights false 0 net0 H0) as (net1 & w & E1 & H1 & C1 & _). rewrite E1. cbn [bind fst].
  destruct H1 as (T1 & N1 & W1).
  set (p := fun ab : nat * nat => has_object_connection data (radius * radius) captured table (fst ab) (snd ab)).
  destruct (set_connections_spec (length weights) (filter p (pairs (length weights))) net1 T1 N1 W1) as (net2 & E2 & [N2 _] & C2).
  { intros i j Hij. apply filter_In in Hij as [Hij _]. apply in_pairs in Hij. lia. }
  exists net2. split; [exact E2|]. split; [exact N2|]. intros a b Ha Hb. rewrite C2, (C1 a b Ha Hb), F0, !filter_In, !in_pairs.
  unfold p. cbn [fst snd]. rewrite !object_connection. split.
  - intros [[H|[H1 H2]]|[[H1 H2]|[H1 H2]]]; [discriminate|auto|split; [lia|auto]|split; [lia|right; apply objects_meet_sym; auto]].
  - intros [Hne [H|H]]; [left; right; auto|]. right. destruct (Nat.lt_ge_cases a b); [left; split; auto; lia|].
    right. split; [lia|]. apply objects_meet_sym. auto.
Qed.

Lemma process_spec rows cols data radius s : 0 < rows * cols -> data <> [] ->
  length (s_award s) = rows * cols -> length (s_captured s) = rows * cols ->
  exists y, syncsom_process distance influence som_radius som_rate threshold simulate initial_phases rows cols data radius s = Ok y /\
   stats (rows * cols) (length data) (y_som y) /\ y_table y = osc_table (rows * cols) (s_award (y_som y)) /\ y_table y <> [] /\
   (let weights := map (fun i => nth i (s_weights (y_som y)) []) (y_table y) in
    n_osc (y_net y) = length (y_table y) /\
    forall a b, a < length (y_table y) -> b < length (y_table y) ->
    (has_connection (y_net y) a b = true <-> a <> b /\ ((pair_distance distance weights a b <= 0)%Q \/
      objects_meet data radius (nth (nth a (y_table y) 0) (s_captured (y_som y)) []) (nth (nth b (y_table y) 0) (s_captured (y_som y)) [])))) /\
   y_out y <> [] /\ forall st, In st (y_out y) -> length st = length (y_table y).
Proof.
  intros H1 H2 H3 H4. unfold syncsom_process.
  destruct (train_spec rows cols SGridFour influence som_radius som_rate threshold UniformGrid data 100 false s H1 H2 ltac:(lia) H3 H4) as (e & s' & E & _ & _ & G).
  rewrite E. cbn [bind snd]. set (table := osc_table (rows * cols) (s_award s')).
  assert (Ht : table <> []).
  { intros Ht. destruct G as (_ & G & _). pose proof (table_concat _ _ _ _ G) as Hc. fold table in Hc. rewrite Ht in Hc. cbn [flat_map] in Hc.
    destruct G as (_ & P & _). unfold partitions in P. rewrite <- Hc in P. apply Permutation_length in P. rewrite seq_length in P.
    destruct data; [contradiction H2; reflexivity|]. simpl in P. lia. }
  set (weights := map (fun i => nth i (s_weights s') []) table).
  assert (Lw : length weights = length table) by apply map_length.
  assert (Hw : weights <> []) by (unfold weights; destruct table; [contradiction Ht; reflexivity|discriminate]).
  destruct (sync_layer_ok data radius (s_captured s') table weights Hw Lw) as (net & En & Nn & Cn). rewrite En. cbn [bind].
  eexists. split; [reflexivity|]. cbn [y_som y_table y_net y_out]. split; [exact G|]. split; [reflexivity|]. split; [exact Ht|].
  split.
  - cbv zeta. fold weights. rewrite <- Lw. split; [exact Nn|]. exact Cn.
  - destruct (Hsim net (initial_phases (length weights))) as [S1 S2]; [now rewrite Hph|]. split; [exact S1|]. intros st Hst. rewrite <- Lw, <- Nn. auto.
Qed.

Lemma ensembles_ok (out : list (list Q)) m eps : 0 < m -> out <> [] -> (forall st, In st out -> length st = m) ->
  exists gs, sync_ensembles period out eps None None = Ok gs /\ partitions m gs /\ no_empty gs.
Proof.
  intros Hm Ho Hl. destruct m as [|m]; [lia|].
  destruct (nth_error out (length out - 1)) as [st|] eqn:E.
  - destruct (sync_ensembles_spec period eps out None st m E Hl) as (cl & Ec & P & N & _). exists cl. auto.
  - exfalso. apply nth_error_None in E. destruct out; [contradiction Ho; reflexivity|]. simpl in E. lia.
Qed.

(** a group of oscillators decoded to objects *)
Lemma clusters_spec y n size eps : captured_once size n (s_award (y_som y)) (s_captured (y_som y)) ->
  y_table y = osc_table size (s_award (y_som y)) -> y_table y <> [] ->
  y_out y <> [] -> (forall st, In st (y_out y) -> length st = length (y_table y)) ->
  exists gs, get_clusters period y eps = Ok gs /\ partitions n gs /\ no_empty gs /\
    forall i, i < size -> nth i (s_captured (y_som y)) [] <> [] -> exists g, In g gs /\ incl (nth i (s_captured (y_som y)) []) g.
Proof.
  intros Hc Ht Hne Ho Hl. unfold get_clusters.
  destruct (ensembles_ok (y_out y) (length (y_table y)) eps) as (gs & E & P & N); auto.
  { destruct (y_table y); [contradiction Hne; reflexivity|simpl; lia]. }
  rewrite E. cbn [bind]. eexists. split; [reflexivity|].
  set (F := fun k => nth (nth k (y_table y) 0) (s_captured (y_som y)) []).
  split; [|split].
  - unfold partitions in *. rewrite concat_map_flat. rewrite (perm_flat_map F _ _ P). unfold F.
    rewrite (flat_map_table (fun i => nth i (s_captured (y_som y)) [])). rewrite Ht, (table_concat size n _ _ Hc). apply Hc.
  - unfold no_empty in *. rewrite Forall_forall in *. intros g Hg. apply in_map_iff in Hg as (g0 & <- & Hg0).
    destruct g0 as [|k g0]; [now apply N in Hg0|]. cbn [flat_map].
    assert (Hk : k < length (y_table y)).
    { assert (In k (concat gs)) by (apply in_concat; exists (k :: g0); split; [auto|now left]).
      apply (Permutation_in _ P) in H. apply in_seq in H. lia. }
    assert (In (nth k (y_table y) 0) (y_table y)) by (apply nth_In; auto). rewrite Ht in H at 2. apply (in_table _ _ _ _ _ Hc) in H as [_ H].
    unfold F. destruct (nth (nth k (y_table y) 0) (s_captured (y_som y)) []); [contradiction H; reflexivity|discriminate].
  - intros i Hi Hn. assert (Hin : In i (y_table y)) by (rewrite Ht; apply (in_table _ _ _ _ _ Hc); auto).
    apply (In_nth _ _ 0) in Hin as (k & Hk & Ek).
    assert (In k (concat gs)) by (apply (Permutation_in _ (Permutation_sym P)), in_seq; lia).
    apply in_concat in H as (g & Hg & Hkg). exists (flat_map F g). split; [apply in_map; auto|].
    intros x Hx. apply in_flat_map. exists k. split; auto. unfold F. rewrite Ek. auto.
Qed.

Lemma som_clusters_spec y n size : captured_once size n (s_award (y_som y)) (s_captured (y_som y)) ->
  y_table y = osc_table size (s_award (y_som y)) -> y_table y <> [] ->
  y_out y <> [] -> (forall st, In st (y_out y) -> length st = length (y_table y)) ->
  exists ns, get_som_clusters period y = Ok ns /\ no_empty ns /\ NoDup (concat ns) /\
    (forall i, In i (concat ns) <-> i < size /\ nth i (s_captured (y_som y)) [] <> []) /\
    get_clusters period y (1 # 100) = Ok (map (flat_map (fun i => nth i (s_captured (y_som y)) [])) ns).
Proof.
  intros Hc Ht Hne Ho Hl. unfold get_som_clusters, get_clusters.
  destruct (ensembles_ok (y_out y) (length (y_table y)) (1 # 100)) as (gs & E & P & N); auto.
  { destruct (y_table y); [contradiction Hne; reflexivity|simpl; lia]. }
  rewrite E. cbn [bind]. eexists. split; [reflexivity|].
  assert (Pt : Permutation (concat (map (map (fun k => nth k (y_table y) 0)) gs)) (y_table y)).
  { rewrite <- concat_map. eapply perm_trans; [apply Permutation_map; exact P|]. rewrite map_nth_self. apply Permutation_refl. }
  split; [|split; [|split]].
  - unfold no_empty in *. rewrite Forall_forall in *. intros g Hg. apply in_map_iff in Hg as (g0 & <- & Hg0).
    destruct g0; [now apply N in Hg0|discriminate].
  - apply (Permutation_NoDup (Permutation_sym Pt)). rewrite Ht. apply NoDup_table.
  - intros i. rewrite <- (in_table _ _ _ _ i Hc), <- Ht. split; apply Permutation_in; [exact Pt|now apply Permutation_sym].
  - f_equal. rewrite map_map. apply map_ext. intros g. clear. induction g as [|k g IH]; [reflexivity|]. cbn [map flat_map]. now rewrite IH.
Qed.
End Syncsom.
