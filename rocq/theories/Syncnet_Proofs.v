(** Specification and proofs for Syncnet_Model.v *)
From Verif Require Import Base Kmeans_Model Kmeans_Proofs Topology_Model Topology_Proofs Ensembles_Model Ensembles_Proofs Cldist_Model Cldist_Proofs Syncnet_Model.

(** ** Specification *)
(** the connections of a network of [n] oscillators are those between different points within [radius] *)
Definition connects_within (dist : nat -> nat -> Q) (n : nat) (radius : Q) (net : network) : Prop :=
  n_osc net = n /\
  forall i j, i < n -> j < n ->
    (has_connection net i j = true <-> i <> j /\ (dist i j <= radius)%Q) /\
    (In j (get_neighbors net i) <-> has_connection net i j = true).

(** ** Proofs *)
Lemma in_pairs n i j : In (i, j) (pairs n) <-> i < j < n.
Proof.
  unfold pairs. rewrite in_flat_map. split.
  - intros [x [Hx Hj]]. apply in_map_iff in Hj as [y [E Hy]]. injection E as -> ->. apply in_seq in Hx, Hy. lia.
  - intros H. exists i. split; [apply in_seq; lia|]. apply in_map_iff. exists j. split; auto. apply in_seq. lia.
Qed.

Lemma NoDup_pairs n : NoDup (pairs n).
Proof.
  unfold pairs. assert (G : forall l, NoDup l -> NoDup (flat_map (fun i => map (fun j => (i, j)) (seq (S i) (n - S i))) l)).
  { induction l as [|x t IH]; intros H; simpl; [constructor|]. inversion_clear H as [|? ? Hx Ht].
    assert (A : forall (a b : list (nat * nat)), NoDup a -> NoDup b -> (forall p, In p a -> ~ In p b) -> NoDup (a ++ b)).
    { clear. induction a as [|p a IH]; intros b Ha Hb H; simpl; auto. inversion_clear Ha. constructor.
      - rewrite in_app_iff. intros [?|?]; [auto|]. apply (H p); simpl; auto.
      - apply IH; auto. intros q Hq. apply H. simpl. auto. }
    apply A; [|apply IH; auto|].
    - apply FinFun.Injective_map_NoDup; [intros a b E; congruence|apply seq_NoDup].
    - intros p Hp Hq. apply in_map_iff in Hp as [y [<- Hy]]. apply in_flat_map in Hq as [z [Hz Hq]].
      apply in_map_iff in Hq as [w [E Hw]]. injection E as -> ->. contradiction. }
  apply G, seq_NoDup.
Qed.

Lemma syncnet_unfold distance l radius r enable : l <> [] -> syncnet distance l (Some radius) r enable =
  do net <- network_init (length l) CDynamic r None; create_connections distance l enable net radius.
Proof. intros Hl; destruct l; [contradiction Hl; reflexivity|reflexivity]. Qed.

Section Syncnet.
Variable distance : point -> point -> Q.
Variable locs : list point.
Let n := length locs.
Let dd (i j : nat) : Q := distance (nth i locs []) (nth j locs []).

Definition within (radius : Q) (ij : nat * nat) : bool := Qle_bool (dd (fst ij) (snd ij)) radius.

Definition w_step (m : list (list Q)) (ij : nat * nat) := let '(i, j) := ij in set2 (set2 m i j (dd i j)) j i (dd i j).
Definition max_step (m : Q) (ij : nat * nat) := if Qltb m (dd (fst ij) (snd ij)) then dd (fst ij) (snd ij) else m.
Definition min_step (m : option Q) (ij : nat * nat) :=
  match m with None => Some (dd (fst ij) (snd ij)) | Some m => Some (if Qltb (dd (fst ij) (snd ij)) m then dd (fst ij) (snd ij) else m) end.

Lemma conn_loop_spec enable radius : forall l s,
  conn_loop distance locs enable radius l s =
  do net <- set_connections (c_net s) (filter (within radius) l);
  Ok (if enable then mkC (fold_left w_step l (c_weight s)) (fold_left max_step l (c_max s)) (fold_left min_step l (c_min s)) net
      else mkC (c_weight s) (c_max s) (c_min s) net).
Proof.
  induction l as [|[i j] t IH]; intros s.
  - simpl. destruct enable, s; reflexivity.
  - cbn [conn_loop filter fold_left]. unfold within at 1. cbn [fst snd]. unfold conn_step. fold (dd i j).
    destruct (Qle_bool (dd i j) radius); cbn [set_connections].
    + destruct enable; cbn [c_net c_weight c_max c_min].
      * destruct (set_connection (c_net s) i j) as [net|e]; cbn [bind]; [|reflexivity]. rewrite IH. reflexivity.
      * destruct (set_connection (c_net s) i j) as [net|e]; cbn [bind]; [|reflexivity]. rewrite IH. reflexivity.
    + cbn [bind]. rewrite IH. destruct enable; reflexivity.
Qed.

Lemma pair_distance_dd i j : pair_distance distance locs i j = if j <? i then dd j i else if i <? j then dd i j else 0%Q.
Proof. reflexivity. Qed.

Lemma in_close radius i j : In (i, j) (filter (within radius) (pairs n)) <-> i < j < n /\ (pair_distance distance locs i j <= radius)%Q.
Proof.
  rewrite filter_In, in_pairs. unfold within. cbn [fst snd]. rewrite Qle_bool_iff, pair_distance_dd.
  split; intros [H1 H2]; (split; [exact H1|]).
  - destruct (Nat.ltb_spec j i); [lia|]. destruct (Nat.ltb_spec i j); [auto|lia].
  - destruct (Nat.ltb_spec j i); [lia|]. destruct (Nat.ltb_spec i j); [auto|lia].
Qed.

Lemma pair_distance_sym i j : pair_distance distance locs i j = pair_distance distance locs j i.
Proof. unfold pair_distance. destruct (Nat.ltb_spec i j), (Nat.ltb_spec j i); auto. lia. Qed.

Lemma close_either radius i j : i < n -> j < n ->
  (In (i, j) (filter (within radius) (pairs n)) \/ In (j, i) (filter (within radius) (pairs n)) <->
   i <> j /\ (pair_distance distance locs i j <= radius)%Q).
Proof.
  intros Hi Hj. rewrite !in_close, (pair_distance_sym j i). split.
  - intros [[H1 H2]|[H1 H2]]; split; auto; lia.
  - intros [H1 H2]. destruct (Nat.lt_ge_cases i j); [left|right]; split; auto; lia.
Qed.

(** a dynamic network of [n] oscillators whose connections are within [radius] *)
Definition dyn_ok (net : network) : Prop := n_type net = CDynamic /\ n_osc net = n /\ wf n (n_conn net).

Lemma set_connections_type : forall l net net', n_type net = CDynamic -> set_connections net l = Ok net' -> n_type net' = CDynamic.
Proof.
  induction l as [|[i j] t IH]; intros net net' Ht E; cbn [set_connections] in E; [apply Ok_inj in E; subst; auto|].
  destruct (set_connection net i j) as [m|e] eqn:Em; cbn [bind] in E; [|discriminate]. apply (IH m net'); auto.
  unfold set_connection in Em. rewrite Ht in Em. apply Ok_inj in Em. subst m. reflexivity.
Qed.

Lemma set_close radius net : dyn_ok net -> exists net', set_connections net (filter (within radius) (pairs n)) = Ok net' /\ dyn_ok net' /\
  forall i j, i < n -> j < n ->
   (has_connection net' i j = true <-> has_connection net i j = true \/ (i <> j /\ (pair_distance distance locs i j <= radius)%Q)).
Proof.
  intros (Ht & Hn & Hw).
  destruct (set_connections_spec n (filter (within radius) (pairs n)) net Ht Hn Hw) as (net' & E & [Hn' Hw'] & H).
  - intros i j Hij. apply in_close in Hij. lia.
  - exists net'. split; auto. split; [split; [eapply set_connections_type; eauto|auto]|].
    intros i j Hi Hj. rewrite H, (close_either radius i j Hi Hj). reflexivity.
Qed.

Lemma create_connections_net enable radius net : dyn_ok net -> exists net' w, create_connections distance locs enable net radius = Ok (net', w) /\
  dyn_ok net' /\
  (forall i j, i < n -> j < n ->
   (has_connection net' i j = true <-> has_connection net i j = true \/ (i <> j /\ (pair_distance distance locs i j <= radius)%Q))) /\
  (enable = false -> w = None).
Proof.
  intros H. destruct (set_close radius net H) as (net' & E & H' & Hc). unfold create_connections.
  rewrite conn_loop_spec. cbn [c_net c_weight c_max c_min]. fold n. rewrite E. cbn [bind].
  destruct enable; cbn [c_net c_weight c_max c_min].
  - destruct (match fold_left min_step (pairs n) None with Some _ => _ | None => _ end) as [m s]. do 2 eexists. split; [reflexivity|]. split; [exact H'|]. split; [exact Hc|discriminate].
  - do 2 eexists. split; [reflexivity|]. split; [exact H'|]. split; [exact Hc|auto].
Qed.

Lemma fresh_ok r : exists net, network_init n CDynamic r None = Ok net /\ dyn_ok net /\ forall i j, has_connection net i j = false.
Proof.
  eexists. split; [reflexivity|]. split.
  - split; [reflexivity|]. split; [reflexivity|]. apply (no_conn_wf r n).
  - intros i j. exact (none_hasc CDynamic r n 0 i j (or_intror eq_refl)).
Qed.

Lemma dyn_connects net radius : dyn_ok net ->
  (forall i j, i < n -> j < n -> (has_connection net i j = true <-> i <> j /\ (pair_distance distance locs i j <= radius)%Q)) ->
  connects_within (pair_distance distance locs) n radius net.
Proof.
  intros (Ht & Hn & Hw) H. split; auto. intros i j Hi Hj. split; [apply H; auto|]. apply neighbors_has; rewrite ?Hn; auto.
Qed.

Theorem syncnet_connects radius r enable : locs <> [] -> exists net w, syncnet distance locs (Some radius) r enable = Ok (net, w) /\
  connects_within (pair_distance distance locs) n radius net.
Proof.
  intros Hne. destruct (fresh_ok r) as (net & E & H & Hf).
  rewrite syncnet_unfold by exact Hne. fold n. rewrite E. cbn [bind]. destruct (create_connections_net enable radius net H) as (net' & w & E' & H' & Hc & _).
  exists net', w. split; [exact E'|]. apply dyn_connects; auto. intros i j Hi Hj. rewrite (Hc i j Hi Hj), Hf. intuition discriminate.
Qed.

(** *** no neighbour twice *)
Definition nodup_conns (c : conns) : Prop := match c with CMatrix _ => True | CList l => forall i, NoDup (nth i l []) end.

Lemma create_nodup c a b : nodup_conns c -> hasc c a b = false -> nodup_conns (create_connection c a b).
Proof.
  destruct c as [m|l]; simpl; auto. intros H Hf i. rewrite upd_nth.
  destruct (Nat.eqb_spec a i) as [<-|_]; cbn [andb]; [|apply H]. destruct (a <? length l); [|apply H].
  assert (Hni : ~ In b (nth a l [])).
  { intros Hin. assert (existsb (fun k => k =? b) (nth a l []) = true); [|congruence]. apply existsb_exists. exists b. split; auto. apply Nat.eqb_refl. }
  apply (Permutation_NoDup (Permutation_cons_append (nth a l []) b)). constructor; auto.
Qed.

Lemma set_nodup : forall l net net', n_type net = CDynamic -> wf n (n_conn net) -> nodup_conns (n_conn net) -> NoDup l ->
  (forall i j, In (i, j) l -> i < j < n /\ has_connection net i j = false /\ has_connection net j i = false) ->
  set_connections net l = Ok net' -> nodup_conns (n_conn net').
Proof.
  induction l as [|[a b] t IH]; intros net net' Ht Hw Hn Hnd Hl E; cbn [set_connections] in E; [apply Ok_inj in E; subst; auto|].
  unfold set_connection in E. rewrite Ht in E. cbn [bind] in E. inversion_clear Hnd as [|? ? Hni Hnd'].
  destruct (Hl a b) as (Hab & F1 & F2); [simpl; auto|].
  assert (W1 : wf n (create_connection (n_conn net) a b)) by (apply create_wf; auto; lia).
  assert (W2 : wf n (create_connection (create_connection (n_conn net) a b) b a)) by (apply create_wf; auto; lia).
  assert (HH : forall i j, hasc (create_connection (create_connection (n_conn net) a b) b a) i j = true ->
     hasc (n_conn net) i j = true \/ (i = a /\ j = b) \/ (i = b /\ j = a)).
  { intros i j H. rewrite (create_hasc n) in H by (auto; lia). rewrite (create_hasc n) in H by (auto; lia).
    apply orb_true_iff in H as [H|H]; [apply orb_true_iff in H as [H|H]; [auto|]|];
      apply andb_true_iff in H as [H1 H2]; apply Nat.eqb_eq in H1, H2; subst; auto. }
  eapply IH; [| | | | |exact E]; cbn [n_type n_conn]; auto.
  - apply create_nodup; [apply create_nodup; auto|].
    rewrite (create_hasc n) by (auto; lia). replace (a =? b) with false by (symmetry; apply Nat.eqb_neq; lia).
    cbn [andb]. rewrite orb_false_r. exact F2.
  - intros i j Hij. destruct (Hl i j) as (Hlt & G1 & G2); [simpl; auto|]. split; auto.
    assert (Ne : ~ (i = a /\ j = b)) by (intros [-> ->]; contradiction).
    unfold has_connection in *. cbn [n_conn].
    assert (K : forall x y, (match n_conn net with CMatrix m => nth y (nth x m []) false | CList l => existsb (fun k => k =? y) (nth x l []) end) = hasc (n_conn net) x y) by (intros; destruct (n_conn net); reflexivity).
    rewrite K in G1, G2.
    split.
    + match goal with |- ?t = false => change t with (hasc (create_connection (create_connection (n_conn net) a b) b a) i j) end.
      destruct (hasc (create_connection (create_connection (n_conn net) a b) b a) i j) eqn:E1; auto. apply HH in E1 as [E1|[E1|E1]]; [congruence|tauto|lia].
    + match goal with |- ?t = false => change t with (hasc (create_connection (create_connection (n_conn net) a b) b a) j i) end.
      destruct (hasc (create_connection (create_connection (n_conn net) a b) b a) j i) eqn:E1; auto. apply HH in E1 as [E1|[E1|E1]]; [congruence|lia|destruct E1; subst; tauto].
Qed.

Lemma fresh_create r radius enable net w : network_init n CDynamic r None = Ok net -> create_connections distance locs enable net radius = Ok w ->
  nodup_conns (n_conn (fst w)).
Proof.
  intros E Ec. destruct (fresh_ok r) as (net0 & E0 & (Ht & Hn & Hw) & Hf). rewrite E in E0. apply Ok_inj in E0. subst net0.
  unfold create_connections in Ec. rewrite conn_loop_spec in Ec. cbn [c_net] in Ec. fold n in Ec.
  destruct (set_connections net (filter (within radius) (pairs n))) as [net'|e] eqn:Es; cbn [bind] in Ec; [|discriminate].
  assert (N : nodup_conns (n_conn net')).
  { eapply (set_nodup _ net); [exact Ht|exact Hw| | | |exact Es].
    - apply Ok_inj in E. subst net. destruct r; simpl; auto. intros i. 
      destruct (nth_in_or_default i (repeat (@nil nat) n) []) as [Hin|Hd]; [apply repeat_spec in Hin; rewrite Hin|rewrite Hd]; constructor.
    - apply NoDup_filter, NoDup_pairs.
    - intros i j Hij. apply in_close in Hij. split; [lia|]. split; apply Hf. }
  destruct enable; cbn [c_net c_min c_max c_weight] in Ec.
  - destruct (match fold_left min_step (pairs n) None with Some _ => _ | None => _ end) as [m s]. apply Ok_inj in Ec. subst w. exact N.
  - apply Ok_inj in Ec. subst w. exact N.
Qed.

Lemma neighbors_nodup net i : nodup_conns (n_conn net) -> NoDup (get_neighbors net i).
Proof. unfold get_neighbors. destruct (n_conn net) as [m|l]; simpl; intros H; [apply NoDup_filter, seq_NoDup|apply H]. Qed.

(** *** weights *)
Definition square (m : list (list Q)) : Prop := length m = n /\ forall a, a < n -> length (nth a m []) = n.

Lemma set2_square m i j v : square m -> square (set2 m i j v).
Proof.
  intros [H1 H2]. split; [unfold set2; now rewrite upd_length|]. intros a Ha. unfold set2. rewrite upd_nth.
  destruct (Nat.eqb_spec i a) as [<-|_]; cbn [andb]; auto. destruct (i <? length m); auto. rewrite upd_length. auto.
Qed.

Lemma get2_set2 m i j v a b : square m -> i < n -> j < n -> get2 (set2 m i j v) a b = if (a =? i) && (b =? j) then v else get2 m a b.
Proof.
  intros [H1 H2] Hi Hj. unfold get2, set2. rewrite upd_nth. rewrite (Nat.eqb_sym i a).
  destruct (Nat.eqb_spec a i) as [->|_]; cbn [andb]; auto. replace (i <? length m) with true by (symmetry; apply Nat.ltb_lt; lia).
  rewrite upd_nth, H2 by auto. rewrite (Nat.eqb_sym j b). destruct (b =? j); cbn [andb]; auto.
  replace (j <? n) with true by (symmetry; apply Nat.ltb_lt; lia). reflexivity.
Qed.

(** writing [f (m[i][j]) i j] to both sides of every pair of a list of pairs *)
Definition sym_step (f : Q -> nat -> nat -> Q) (m : list (list Q)) (ij : nat * nat) : list (list Q) :=
  let '(i, j) := ij in set2 (set2 m i j (f (get2 m i j) i j)) j i (f (get2 m i j) i j).

Lemma sym_fold f : forall l m, square m -> NoDup l -> (forall i j, In (i, j) l -> i < j < n) ->
  square (fold_left (sym_step f) l m) /\
  (forall i j, In (i, j) l -> get2 (fold_left (sym_step f) l m) i j = f (get2 m i j) i j /\ get2 (fold_left (sym_step f) l m) j i = f (get2 m i j) i j) /\
  (forall i j, ~ In (i, j) l -> ~ In (j, i) l -> get2 (fold_left (sym_step f) l m) i j = get2 m i j).
Proof.
  induction l as [|[a b] t IH]; intros m Hs Hnd Hl; cbn [fold_left].
  - split; auto. split; [intros i j []|auto].
  - destruct (Hl a b) as [Hab Hb]; [simpl; auto|]. inversion_clear Hnd as [|? ? Hni Hnd'].
    set (m1 := sym_step f m (a, b)).
    assert (S1 : square m1) by (apply set2_square, set2_square; auto).
    assert (G : forall x y, get2 m1 x y = if ((x =? a) && (y =? b)) || ((x =? b) && (y =? a)) then f (get2 m a b) a b else get2 m x y).
    { intros x y. unfold m1, sym_step. rewrite get2_set2 by (try apply set2_square; auto; lia). rewrite get2_set2 by (auto; lia).
      destruct ((x =? b) && (y =? a)), ((x =? a) && (y =? b)); reflexivity. }
    destruct (IH m1 S1 Hnd') as (A & B & C); [intros; apply Hl; simpl; auto|]. split; [exact A|]. split.
    + intros i j [E|Hin].
      * injection E as <- <-. assert (Nba : ~ In (b, a) t) by (intros H; specialize (Hl b a ltac:(simpl; auto)); lia).
        rewrite !C by auto. rewrite !G, !Nat.eqb_refl. cbn [andb orb]. rewrite orb_true_r. auto.
      * destruct (B i j Hin) as [B1 B2]. rewrite B1, B2. rewrite G.
        assert (Hij : i < j < n) by (apply Hl; simpl; auto).
        destruct (Nat.eqb_spec i a) as [->|]; cbn [andb orb].
        -- destruct (Nat.eqb_spec j b) as [->|]; [contradiction|]. cbn [orb]. destruct (Nat.eqb_spec a b); [lia|]. cbn [andb]. auto.
        -- destruct (Nat.eqb_spec i b) as [->|]; cbn [andb]; auto. destruct (Nat.eqb_spec j a); [lia|auto].
    + intros i j N1 N2. rewrite C by (intros H; first [apply N1; right; exact H|apply N2; right; exact H]). rewrite G.
      destruct (Nat.eqb_spec i a) as [->|]; cbn [andb orb].
      * destruct (Nat.eqb_spec j b) as [->|]; [contradiction N1; simpl; auto|]. cbn [orb].
        destruct (Nat.eqb_spec a b); [lia|]. auto.
      * destruct (Nat.eqb_spec i b) as [->|]; cbn [andb]; auto. destruct (Nat.eqb_spec j a) as [->|]; [contradiction N2; simpl; auto|auto].
Qed.

Lemma max_fold l : forall m, let r := fold_left max_step l m in
  (m <= r)%Q /\ (forall p, In p l -> (dd (fst p) (snd p) <= r)%Q) /\ (r = m \/ exists p, In p l /\ r = dd (fst p) (snd p)).
Proof.
  induction l as [|p t IH]; intros m; cbn [fold_left].
  - cbv zeta. split; [apply Qle_refl|]. split; [intros q []|auto].
  - destruct (IH (max_step m p)) as (A & B & C). cbv zeta.
    assert (M : (m <= max_step m p)%Q /\ (dd (fst p) (snd p) <= max_step m p)%Q).
    { unfold max_step. destruct (Qltb m (dd (fst p) (snd p))) eqn:E.
      - apply Qltb_true in E. split; [apply Qlt_le_weak; auto|apply Qle_refl].
      - apply Qltb_false in E. split; [apply Qle_refl|auto]. }
    split; [eapply Qle_trans; [apply M|exact A]|]. split.
    + intros q [<-|Hq]; [eapply Qle_trans; [apply M|exact A]|auto].
    + destruct C as [C|[q [Hq Eq]]]; [|right; exists q; simpl; auto]. rewrite C. unfold max_step.
      destruct (Qltb m (dd (fst p) (snd p))); [right; exists p; simpl; auto|auto].
Qed.

Lemma min_fold l : forall m, exists r, fold_left min_step l (Some m) = Some r /\
  (r <= m)%Q /\ (forall p, In p l -> (r <= dd (fst p) (snd p))%Q) /\ (r = m \/ exists p, In p l /\ r = dd (fst p) (snd p)).
Proof.
  induction l as [|p t IH]; intros m; cbn [fold_left].
  - exists m. split; auto. split; [apply Qle_refl|]. split; [intros q []|auto].
  - cbn [min_step]. destruct (IH (if Qltb (dd (fst p) (snd p)) m then dd (fst p) (snd p) else m)) as (r & E & A & B & C).
    exists r. split; [exact E|].
    assert (M : ((if Qltb (dd (fst p) (snd p)) m then dd (fst p) (snd p) else m) <= m)%Q /\ ((if Qltb (dd (fst p) (snd p)) m then dd (fst p) (snd p) else m) <= dd (fst p) (snd p))%Q).
    { destruct (Qltb (dd (fst p) (snd p)) m) eqn:E1.
      - apply Qltb_true in E1. split; [apply Qlt_le_weak; auto|apply Qle_refl].
      - apply Qltb_false in E1. split; [apply Qle_refl|auto]. }
    split; [eapply Qle_trans; [exact A|apply M]|]. split.
    + intros q [<-|Hq]; [eapply Qle_trans; [exact A|apply M]|auto].
    + destruct C as [C|[q [Hq Eq]]]; [|right; exists q; simpl; auto]. rewrite C.
      destruct (Qltb (dd (fst p) (snd p)) m); [right; exists p; simpl; auto|auto].
Qed.

Hypothesis nonneg : forall p q, (0 <= distance p q)%Q.

(** the weights: scaled to [0, 1] between the smallest and the largest distance, or the distances themselves if these are equal *)
Theorem weights_spec net radius net' w : 2 <= n -> create_connections distance locs true net radius = Ok (net', w) ->
  exists W lo hi, w = Some W /\
    (forall i j, i < n -> j < n -> i <> j -> (lo <= pair_distance distance locs i j <= hi)%Q) /\
    (exists i j, i < n /\ j < n /\ i <> j /\ (pair_distance distance locs i j == lo)%Q) /\
    (exists i j, i < n /\ j < n /\ i <> j /\ (pair_distance distance locs i j == hi)%Q) /\
    (forall i, i < n -> get2 W i i = 0%Q) /\
    (forall i j, i < n -> j < n -> get2 W i j = get2 W j i) /\
    forall i j, i < n -> j < n -> i <> j ->
      ((lo < hi)%Q -> (get2 W i j == (pair_distance distance locs i j - lo) / (hi - lo))%Q) /\
      ((lo == hi)%Q -> (get2 W i j == pair_distance distance locs i j)%Q).
Proof.
  intros Hn E. unfold create_connections in E. rewrite conn_loop_spec in E. cbn [c_net c_weight c_max c_min] in E. fold n in E.
  destruct (set_connections net (filter (within radius) (pairs n))) as [net1|e]; cbn [bind] in E; [|discriminate].
  cbn [c_net c_weight c_max c_min] in E.
  assert (P01 : In (0, 1) (pairs n)) by (apply in_pairs; lia).
  set (hi := fold_left max_step (pairs n) 0%Q) in E.
  assert (Hlo : exists lo, fold_left min_step (pairs n) None = Some lo /\ (forall p, In p (pairs n) -> (lo <= dd (fst p) (snd p))%Q) /\
     exists p, In p (pairs n) /\ lo = dd (fst p) (snd p)).
  { destruct (pairs n) as [|p t]; [contradiction|]. cbn [fold_left min_step]. destruct (min_fold t (dd (fst p) (snd p))) as (r & Er & A & B & C).
    exists r. split; auto. split; [intros q [<-|Hq]; auto|]. destruct C as [C|[q [Hq Eq]]]; [exists p|exists q]; simpl; auto. }
  destruct Hlo as (lo & El & L1 & L2). rewrite El in E.
  destruct (max_fold (pairs n) 0%Q) as (M0 & M1 & M2). fold hi in M0, M1, M2.
  assert (M3 : exists p, In p (pairs n) /\ (hi == dd (fst p) (snd p))%Q).
  { destruct M2 as [M2|[p [Hp Ep]]]; [|exists p; rewrite Ep; split; auto; reflexivity]. exists (0, 1). split; auto. pose proof (M1 _ P01) as H. cbn [fst snd] in *.
    rewrite M2 in *. pose proof (nonneg (nth 0 locs []) (nth 1 locs [])). unfold dd in *. lra. }
  assert (PD : forall i j, i < n -> j < n -> i <> j -> exists p, In p (pairs n) /\ pair_distance distance locs i j = dd (fst p) (snd p) /\ (p = (i, j) \/ p = (j, i))).
  { intros i j Hi Hj Hij. destruct (Nat.lt_ge_cases i j) as [H|H].
    - exists (i, j). split; [apply in_pairs; lia|]. split; [|auto]. rewrite pair_distance_dd. destruct (Nat.ltb_spec j i); [lia|]. destruct (Nat.ltb_spec i j); [auto|lia].
    - exists (j, i). split; [apply in_pairs; lia|]. split; [|auto]. rewrite pair_distance_dd. destruct (Nat.ltb_spec j i); [auto|lia]. }
  assert (PP : forall p, In p (pairs n) -> fst p < n /\ snd p < n /\ fst p <> snd p /\ pair_distance distance locs (fst p) (snd p) = dd (fst p) (snd p)).
  { intros [i j] Hp. apply in_pairs in Hp. cbn [fst snd]. repeat split; try lia. rewrite pair_distance_dd. destruct (Nat.ltb_spec j i); [lia|]. destruct (Nat.ltb_spec i j); [auto|lia]. }
  set (ms := if negb (Qeq_bool hi lo) then ((hi - lo)%Q, lo) else (1%Q, 0%Q)) in E. destruct ms as [mul sub] eqn:Ems.
  apply Ok_inj in E. injection E as <- <-.
  set (W0 := fold_left w_step (pairs n) (repeat (repeat 0%Q n) n)).
  assert (Sq : square (repeat (repeat 0%Q n) n)).
  { split; [apply repeat_length|]. intros a Ha. rewrite (nth_indep _ [] (repeat 0%Q n)) by (rewrite repeat_length; auto). rewrite nth_repeat. apply repeat_length. }
  assert (Hp2 : forall i j, In (i, j) (pairs n) -> i < j < n) by (intros i j H; apply in_pairs in H; lia).
  assert (Z0 : forall i j, get2 (repeat (repeat 0%Q n) n) i j = 0%Q).
  { intros i j. unfold get2. destruct (nth_in_or_default i (repeat (repeat 0%Q n) n) []) as [H|H]; [apply repeat_spec in H; rewrite H|rewrite H; destruct j; reflexivity].
    destruct (nth_in_or_default j (repeat 0%Q n) 0%Q) as [H'|H']; [apply repeat_spec in H'|]; auto. }
  assert (F0 : W0 = fold_left (sym_step (fun _ i j => dd i j)) (pairs n) (repeat (repeat 0%Q n) n)) by reflexivity.
  destruct (sym_fold (fun _ i j => dd i j) (pairs n) _ Sq (NoDup_pairs n) Hp2) as (S1 & A1 & B1). rewrite <- F0 in S1, A1, B1.
  set (W := fold_left (weight_step sub mul) (pairs n) W0).
  assert (F1 : W = fold_left (sym_step (fun v _ _ => ((v - sub) / mul)%Q)) (pairs n) W0) by reflexivity.
  destruct (sym_fold (fun v _ _ => ((v - sub) / mul)%Q) (pairs n) W0 S1 (NoDup_pairs n) Hp2) as (S2 & A2 & B2). rewrite <- F1 in S2, A2, B2.
  assert (Val : forall p, In p (pairs n) -> get2 W (fst p) (snd p) = ((dd (fst p) (snd p) - sub) / mul)%Q /\ get2 W (snd p) (fst p) = ((dd (fst p) (snd p) - sub) / mul)%Q).
  { intros [i j] Hp. cbn [fst snd]. destruct (A2 i j Hp) as [-> ->]. destruct (A1 i j Hp) as [-> _]. auto. }
  exists W, lo, hi. split; [reflexivity|]. split; [|split; [|split; [|split; [|split]]]].
  - intros i j Hi Hj Hij. destruct (PD i j Hi Hj Hij) as (p & Hp & -> & _). split; auto.
  - destruct L2 as [p [Hp ->]]. destruct (PP p Hp) as (H1 & H2 & H3 & H4). exists (fst p), (snd p). rewrite H4. repeat split; auto; reflexivity.
  - destruct M3 as [p [Hp Ep]]. destruct (PP p Hp) as (H1 & H2 & H3 & H4). exists (fst p), (snd p). rewrite H4. repeat split; auto. now symmetry.
  - intros i Hi. assert (Nii : ~ In (i, i) (pairs n)) by (rewrite in_pairs; lia). rewrite B2, B1, Z0 by auto. reflexivity.
  - intros i j Hi Hj. destruct (Nat.eq_dec i j) as [->|Hij]; auto. destruct (PD i j Hi Hj Hij) as (p & Hp & _ & [-> | ->]); destruct (Val _ Hp) as [V1 V2]; cbn [fst snd] in *; congruence.
  - intros i j Hi Hj Hij. destruct (PD i j Hi Hj Hij) as (p & Hp & Ed & Ep). rewrite Ed.
    assert (V : get2 W i j = ((dd (fst p) (snd p) - sub) / mul)%Q) by (destruct (Val _ Hp) as [V1 V2]; destruct Ep as [-> | ->]; cbn [fst snd] in *; auto).
    rewrite V. unfold ms in Ems. destruct (Qeq_bool hi lo) eqn:Eq; cbn [negb] in Ems; injection Ems as <- <-.
    + apply Qeq_bool_iff in Eq. split; intros H; [lra|]. field.
    + apply Qeq_bool_neq in Eq. split; intros H; [reflexivity|]. exfalso. apply Eq. now symmetry.
Qed.
End Syncnet.

(** *** hsyncnet *)
Section Hsync.
Variable distance : point -> point -> Q.
Variable locs : list point.
Variable simulate : network -> list Q -> list (list Q).
Variable period : Q.
Let n := length locs.
Hypothesis nonneg : forall p q, (0 <= distance p q)%Q.
Hypothesis sim_ok : forall net phases, length phases = n -> simulate net phases <> [] /\ forall st, In st (simulate net phases) -> length st = n.
Hypothesis two : 2 <= n.

Notation within_radius := (connects_within (pair_distance distance locs) n).

Lemma last_state_in out : out <> [] -> In (last_state out) out.
Proof. intros H. unfold last_state. apply nth_In. destruct out; [congruence|simpl; lia]. Qed.

Lemma ensembles_last out : out <> [] -> (forall st, In st out -> length st = n) ->
  sync_ensembles period out (1 # 20) None None = sync_loop period (last_state out) (1 # 20) None [[0]] (seq 1 (n - 1)).
Proof.
  intros Hne Hl. unfold sync_ensembles. destruct out as [|first t] eqn:E; [congruence|]. rewrite <- E.
  replace (length first) with n by (symmetry; apply Hl; simpl; auto).
  replace (length out - 1 <? length out) with true by (symmetry; apply Nat.ltb_lt; rewrite E; simpl; lia).
  fold (last_state out). destruct n as [|m] eqn:En; [lia|]. rewrite <- En. reflexivity.
Qed.

Lemma ensembles_ok out : out <> [] -> (forall st, In st out -> length st = n) ->
  exists gs, sync_ensembles period out (1 # 20) None None = Ok gs /\ partitions n gs.
Proof.
  intros Hne Hl. destruct n as [|m] eqn:En; [lia|].
  destruct (sync_ensembles_spec period (1 # 20) out None (last_state out) m) as (gs & E & P & _); [|exact Hl|exists gs; auto].
  unfold last_state. apply nth_error_nth'. destruct out; [congruence|simpl; lia].
Qed.

Definition dyn_inv (collect : bool) (dyn : list (list Q) * list nat) (count : nat) : Prop :=
  (forall st, In st (fst dyn) -> length st = n) /\ snd dyn = seq 0 (length (fst dyn)) /\
  length (fst dyn) = (if collect then match count with 0 => 0 | _ => S count end else 0).

Definition radius_inv (neighbors : nat) (radius : Q) : Prop :=
  1 <= neighbors /\ (0 <= radius)%Q /\ (neighbors < n -> average_neighbor_distance distance locs neighbors = Ok radius).

Lemma calculate_radius_spec p neighbors step radius : (0 <= p)%Q -> radius_inv neighbors radius ->
  exists radius', calculate_radius distance locs p (neighbors + step) radius = Ok radius' /\ (radius <= radius')%Q /\ radius_inv (neighbors + step) radius'.
Proof.
  intros Hp (H1 & H2 & H3). unfold calculate_radius. fold n. destruct (Nat.leb_spec n (neighbors + step)) as [Hge|Hlt].
  - eexists. split; [reflexivity|]. assert (0 <= radius * p)%Q by (apply Qmult_le_0_compat; auto). split; [lra|]. split; [lia|]. split; [lra|lia].
  - destruct (average_total distance locs (neighbors + step) ltac:(lia) Hlt) as (v & E & _). exists v. split; auto. split.
    + apply (neighbor_monotone_le distance locs neighbors (neighbors + step)); [lia|apply H3; lia|exact E].
    + split; [lia|]. split; [eapply neighbor_nonneg; eauto|auto].
Qed.

(** what the whole run guarantees, given the reversed trace so far *)
Definition run_spec (collect : bool) (number : nat) (trace : list hiter) (r : hresult) : Prop :=
  exists iters fin, h_trace r = rev trace ++ iters ++ [fin] /\
    StronglySorted (fun a b => (it_radius a <= it_radius b)%Q) (h_trace r) /\
    Forall (fun e => within_radius (it_radius e) (it_net e)) (iters ++ [fin]) /\
    Forall (fun e => number < length (it_clusters e)) iters /\
    length (it_clusters fin) <= number /\ partitions n (it_clusters fin) /\
    sync_ensembles period (dyn_phase r) (1 # 20) None None = Ok (it_clusters fin) /\
    length (dyn_phase r) = (if collect then S (length (h_trace r)) else 1) /\
    dyn_time r = seq 0 (length (dyn_phase r)).

Lemma sorted_add (l : list hiter) x : StronglySorted (fun a b => (it_radius a <= it_radius b)%Q) l -> (forall a, In a l -> (it_radius a <= it_radius x)%Q) ->
  StronglySorted (fun a b => (it_radius a <= it_radius b)%Q) (l ++ [x]).
Proof.
  intros H1 H2. apply sorted_join; auto; [repeat constructor|]. intros a b Ha [<-|[]]. auto.
Qed.

Lemma store_ok dyn out : (forall st, In st (fst dyn) -> length st = n) -> snd dyn = seq 0 (length (fst dyn)) -> out <> [] -> (forall st, In st out -> length st = n) ->
  let d := store_dynamic dyn out false in
  (forall st, In st (fst d) -> length st = n) /\ snd d = seq 0 (length (fst d)) /\ length (fst d) = S (length (fst dyn)) /\ last_state (fst d) = last_state out.
Proof.
  intros H1 H2 H3 H4. cbv zeta. unfold store_dynamic. cbn [fst snd]. split; [|split; [|split]].
  - intros st H. apply in_app_iff in H as [H|[<-|[]]]; auto. apply H4, last_state_in. auto.
  - rewrite H2, seq_length, app_length. cbn [length]. rewrite Nat.add_1_r, seq_S. reflexivity.
  - rewrite app_length. cbn [length]. lia.
  - unfold last_state at 1. rewrite app_length. cbn [length]. rewrite app_nth2 by lia. replace (length (fst dyn) + 1 - 1 - length (fst dyn)) with 0 by lia. reflexivity.
Qed.

Lemma store_begin out : out <> [] -> (forall st, In st out -> length st = n) ->
  let d := store_dynamic ([], []) out true in
  (forall st, In st (fst d) -> length st = n) /\ snd d = seq 0 (length (fst d)) /\ length (fst d) = 1.
Proof.
  intros H3 H4. cbv zeta. unfold store_dynamic. cbn [fst snd app length seq]. split; [|auto].
  intros st [<-|[]]. apply H4. destruct out; [congruence|simpl; auto].
Qed.

Lemma hloop_spec collect p number step : (0 <= p)%Q -> forall fuel net phases neighbors radius dyn trace,
  dyn_ok locs net -> length phases = n ->
  (forall i j, i < n -> j < n -> has_connection net i j = true -> i <> j /\ (pair_distance distance locs i j <= radius)%Q) ->
  radius_inv neighbors radius -> dyn_inv collect dyn (length trace) ->
  StronglySorted (fun a b => (it_radius a <= it_radius b)%Q) (rev trace) -> (forall a, In a trace -> (it_radius a <= radius)%Q) ->
  match hloop distance locs simulate period fuel collect p number step net phases neighbors radius dyn trace with
  | Ok r => run_spec collect number trace r
  | Raise e => e = OutOfFuel
  end.
Proof.
  intros Hp. induction fuel as [|fuel IH]; intros net phases neighbors radius dyn trace Hnet Hph Hcon Hrad Hdyn Hsort Hle; cbn [hloop]; [reflexivity|].
  destruct (create_connections_net distance locs false radius net Hnet) as (net1 & w & E1 & Hnet1 & Hc1 & _). rewrite E1. cbn [bind fst].
  destruct (sim_ok net1 phases Hph) as [So Sl]. set (out := simulate net1 phases) in *.
  destruct (ensembles_ok out So Sl) as (gs & Eg & Pg). rewrite Eg. cbn [bind].
  destruct (calculate_radius_spec p neighbors step radius Hp Hrad) as (radius1 & Er & Hr1 & Hrad1). rewrite Er. cbn [bind].
  set (it := mkIter radius net1 gs).
  assert (Hw : within_radius radius net1).
  { apply dyn_connects; auto. intros i j Hi Hj. rewrite (Hc1 i j Hi Hj). split; [|auto]. intros [H|H]; auto. }
  assert (Hsort1 : StronglySorted (fun a b => (it_radius a <= it_radius b)%Q) (rev (it :: trace))).
  { cbn [rev]. apply sorted_add; auto. intros a Ha. apply in_rev in Ha. apply Hle. auto. }
  destruct Hdyn as (D1 & D2 & D3).
  set (dyn1 := if collect then store_dynamic (match fst dyn with [] => store_dynamic dyn out true | _ => dyn end) out false else dyn).
  assert (Hd1 : dyn_inv collect dyn1 (S (length trace)) /\ (collect = true -> last_state (fst dyn1) = last_state out)).
  { unfold dyn1. destruct collect.
    - destruct trace as [|x tr]; cbn [length] in D3.
      + assert (E0 : dyn = ([], [])).
        { destruct dyn as [df ds]. cbn [fst snd] in *. destruct df; [|discriminate]. cbn in D2. rewrite D2. reflexivity. }
        subst dyn. cbn [fst]. destruct (store_begin out So Sl) as (B1 & B2 & B3).
        destruct (store_ok (store_dynamic ([], []) out true) out B1 B2 So Sl) as (G1 & G2 & G3 & G4). split; [|auto]. split; [exact G1|]. split; [exact G2|].
        rewrite G3, B3. reflexivity.
      + destruct (fst dyn) as [|f0 ft] eqn:Ef; [discriminate|]. rewrite <- Ef in *.
        destruct (store_ok dyn out D1 D2 So Sl) as (G1 & G2 & G3 & G4). split; [|auto]. split; [exact G1|]. split; [exact G2|]. rewrite G3, D3. reflexivity.
    - split; [|discriminate]. split; [exact D1|]. split; [exact D2|exact D3]. }
  destruct Hd1 as [Hd1 Hlast].
  destruct (Nat.ltb_spec number (length gs)) as [Hlt|Hge].
  - specialize (IH net1 (last_state out) (neighbors + step) radius1 dyn1 (it :: trace) Hnet1).
    match type of IH with ?A -> _ => assert (Ha : A) by (apply Sl, last_state_in; auto) end. specialize (IH Ha).
    match type of IH with ?A -> _ => assert (Hb : A) end.
    { intros i j Hi Hj H. apply (proj1 (proj2 Hw i j Hi Hj)) in H. destruct H as [H1 H2]. split; auto. eapply Qle_trans; eauto. }
    specialize (IH Hb Hrad1 Hd1 Hsort1).
    match type of IH with ?A -> _ => assert (Hcc : A) end.
    { intros a [<-|Ha']; [exact Hr1|]. eapply Qle_trans; [apply Hle; auto|exact Hr1]. }
    specialize (IH Hcc). destruct (hloop _ _ _ _ _ _ _ _ _ _ _ _ _ _ _) as [r|e]; [|exact IH].
    destruct IH as (iters & fin & R1 & R2 & R3 & R4 & R5). exists (it :: iters), fin.
    split; [rewrite R1; cbn [rev]; rewrite <- app_assoc; reflexivity|]. split; [exact R2|]. split; [|split; [|exact R5]].
    + cbn [app]. constructor; auto.
    + constructor; auto.
  - destruct Hd1 as (G1 & G2 & G3). exists [], it. cbn [app].
    set (dyn2 := if collect then dyn1 else store_dynamic dyn1 out false).
    assert (Hd2 : (forall st, In st (fst dyn2) -> length st = n) /\ snd dyn2 = seq 0 (length (fst dyn2)) /\
      length (fst dyn2) = (if collect then S (S (length trace)) else 1) /\ last_state (fst dyn2) = last_state out).
    { unfold dyn2. destruct collect; [split; [exact G1|]; split; [exact G2|]; split; [exact G3|auto]|].
      destruct (store_ok dyn1 out G1 G2 So Sl) as (K1 & K2 & K3 & K4). split; [exact K1|]. split; [exact K2|]. split; [rewrite K3, G3; reflexivity|exact K4]. }
    destruct Hd2 as (K1 & K2 & K3 & K4). cbn [h_trace dyn_phase dyn_time].
    split; [reflexivity|]. split; [exact Hsort1|]. split; [constructor; [exact Hw|constructor]|]. split; [constructor|]. split; [exact Hge|]. split; [exact Pg|].
    split; [|split; [|exact K2]].
    + assert (N2 : fst dyn2 <> []) by (intros H; rewrite H in K3; destruct collect; discriminate).
      rewrite (ensembles_last _ N2 K1), K4. rewrite <- (ensembles_last _ So Sl). exact Eg.
    + rewrite K3. destruct collect; auto. rewrite rev_length. reflexivity.
Qed.
End Hsync.
