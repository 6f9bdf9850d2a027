(** Agglomerative clustering: specification and proofs. *)
From Verif Require Import Base Kmeans_Model Kmeans_Proofs Bsas_Proofs Aggl_Model.

(** * Specification *)
(** the value of a link between two clusters of points, independent of the model *)
Definition link_value (data : list point) (l : link) (c1 c2 : list nat) (v : Q) : Prop :=
  let pt i := nth i data [] in
  match l with
  | SingleLink => (exists a b, In a c1 /\ In b c2 /\ (v == sqdist (pt a) (pt b))%Q) /\
                  forall a b, In a c1 -> In b c2 -> (v <= sqdist (pt a) (pt b))%Q
  | CompleteLink => (exists a b, In a c1 /\ In b c2 /\ (v == sqdist (pt a) (pt b))%Q) /\
                    forall a b, In a c1 -> In b c2 -> (sqdist (pt a) (pt b) <= v)%Q
  | AverageLink => (inject_Z (Z.of_nat (length c1 + length c2)) * v == qsum (map (fun ab => sqdist (pt (fst ab)) (pt (snd ab))) (list_prod c1 c2)))%Q
  | CentroidLink => exists m1 m2, is_mean (dimension data) (map pt c1) m1 /\ is_mean (dimension data) (map pt c2) m2 /\ (v == sqdist m1 m2)%Q
  end.

(** one merge of the two clusters at positions i < j, whose link is a smallest one *)
Definition best_merge (data : list point) (l : link) (cl cl' : list (list nat)) : Prop :=
  exists i j before mid after ci cj v,
    cl = before ++ ci :: mid ++ cj :: after /\ i = length before /\ j = length before + 1 + length mid /\
    cl' = before ++ (ci ++ cj) :: mid ++ after /\
    link_value data l ci cj v /\
    forall a b w, a < b -> b < length cl -> link_value data l (nth a cl []) (nth b cl []) w -> (v <= w)%Q.

Inductive dendrogram (data : list point) (l : link) : list (list nat) -> list (list nat) -> Prop :=
| dend_here cl : dendrogram data l cl cl
| dend_merge cl cl' cl'' : dendrogram data l cl cl' -> best_merge data l cl' cl'' -> dendrogram data l cl cl''.

(** chain of hops *)
Inductive chain (D : nat -> nat -> Q) (bound : Q) (allowed : nat -> Prop) : nat -> nat -> Prop :=
| chain_refl x : chain D bound allowed x x
| chain_hop x y z : chain D bound allowed x y -> allowed z -> (D y z <= bound)%Q -> chain D bound allowed x z.

(** * Proofs *)
Lemma pairs_in k i j : In (i, j) (pairs k) <-> i < j /\ j < k.
Proof.
  unfold pairs. rewrite in_flat_map. split.
  - intros [a [Ha H]]. apply in_map_iff in H as [b [E Hb]]. injection E as <- <-. apply in_seq in Ha, Hb. lia.
  - intros [H1 H2]. exists i. split; [apply in_seq; lia|]. apply in_map, in_seq. lia.
Qed.

Lemma split_two {A} (l : list A) i j d : i < j -> j < length l ->
  exists before mid after, l = before ++ nth i l d :: mid ++ nth j l d :: after /\ i = length before /\ j = length before + 1 + length mid.
Proof.
  revert i j. induction l as [|x t IH]; intros i j Hij Hj; [simpl in Hj; lia|]. destruct i as [|i].
  - destruct j as [|j]; [lia|]. simpl in Hj. destruct (nth_split t d (n := j) ltac:(lia)) as (l1 & l2 & E & El).
    exists [], l1, l2. simpl. split; [|split; auto; lia]. f_equal. exact E.
  - destruct j as [|j]; [lia|]. simpl in Hj. destruct (IH i j ltac:(lia) ltac:(lia)) as (b & m & a & E & E1 & E2).
    exists (x :: b), m, a. simpl. split; [f_equal; exact E|]. lia.
Qed.

Lemma pop_split {A} (l1 : list A) x l2 : pop (l1 ++ x :: l2) (length l1) = l1 ++ l2.
Proof. induction l1; simpl; auto. now f_equal. Qed.

Lemma upd_mid {A} (l1 : list A) x l2 v : upd (l1 ++ x :: l2) (length l1) v = l1 ++ v :: l2.
Proof. induction l1; simpl; auto. now f_equal. Qed.

Lemma merged_list {A} (l : list A) i j (v : A) d before mid after : l = before ++ nth i l d :: mid ++ nth j l d :: after -> i = length before -> j = length before + 1 + length mid ->
  pop (upd l i v) j = before ++ v :: mid ++ after.
Proof.
  intros E Ei Ej. rewrite E, Ei, upd_mid. replace (before ++ v :: mid ++ nth j l d :: after) with ((before ++ v :: mid) ++ nth j l d :: after) by (rewrite <- app_assoc; reflexivity).
  replace j with (length (before ++ v :: mid)) at 2 by (rewrite app_length; simpl; lia). rewrite pop_split. rewrite <- app_assoc. reflexivity.
Qed.

Lemma pop_length {A} (l : list A) j : j < length l -> S (length (pop l j)) = length l.
Proof. revert j. induction l as [|x t IH]; intros [|j] H; simpl in *; try lia. rewrite IH; lia. Qed.

Lemma pop_nth {A} (l : list A) j k d : nth k (pop l j) d = if k <? j then nth k l d else nth (S k) l d.
Proof.
  revert j k. induction l as [|x t IH]; intros j k.
  - simpl. destruct k, (_ <? j); destruct j; auto.
  - destruct j as [|j]; [simpl; destruct k; auto|]. destruct k as [|k]; [reflexivity|]. cbn [pop nth]. rewrite IH.
    change (S k <? S j) with (k <? j). destruct (k <? j); auto.
Qed.

Lemma peq_of_coord (a b : point) : length a = length b -> (forall d, d < length a -> (coord a d == coord b d)%Q) -> peq a b.
Proof.
  unfold peq. revert b. induction a as [|x a IH]; intros [|y b] Hl H; simpl in Hl; try lia; constructor.
  - apply (H 0). simpl. lia.
  - apply IH; [lia|]. intros d Hd. apply (H (S d)). simpl. lia.
Qed.

Section Proofs.
Variable data : list point.
Variable similarity : link.

Lemma distances_in c1 c2 d : In d (distances data c1 c2) <-> exists a b, In a c1 /\ In b c2 /\ d = dist data a b.
Proof.
  unfold distances. rewrite in_flat_map. split.
  - intros [a [Ha H]]. apply in_map_iff in H as [b [<- Hb]]. eauto.
  - intros (a & b & Ha & Hb & ->). exists a. split; auto. apply in_map. auto.
Qed.

Lemma distances_prod c1 c2 : distances data c1 c2 = map (fun ab => dist data (fst ab) (snd ab)) (list_prod c1 c2).
Proof. unfold distances. induction c1 as [|a t IH]; simpl; auto. rewrite IH, map_app, map_map. reflexivity. Qed.

Lemma fold_max l : forall m, let r := fold_left (fun m (d : Q) => if Qltb m d then d else m) l m in
  (m <= r)%Q /\ (forall d, In d l -> (d <= r)%Q) /\ (r = m \/ In r l).
Proof.
  induction l as [|x t IH]; intros m; cbn [fold_left].
  - cbn zeta. split; [apply Qle_refl|]. split; [intros d []|auto].
  - destruct (IH (if Qltb m x then x else m)) as (H1 & H2 & H3). cbn zeta in *. destruct (Qltb m x) eqn:E.
    + apply Qltb_true in E. split; [lra|]. split; [intros d [<-|Hd]; auto|]. destruct H3 as [->|]; simpl; auto.
    + apply Qltb_false in E. split; [lra|]. split; [intros d [<-|Hd]; auto; lra|]. destruct H3 as [->|]; simpl; auto.
Qed.

(** every link but the centroid one: the value of the model is the link value *)
Definition value2 (c1 c2 : list nat) : Q :=
  match similarity with
  | SingleLink => match nearest_distance data c1 c2 with Some d => d | None => 0%Q end
  | CompleteLink => farthest_distance data c1 c2
  | AverageLink => average_distance data c1 c2
  | CentroidLink => 0%Q
  end.

Lemma value2_spec c1 c2 : similarity <> CentroidLink -> c1 <> [] -> c2 <> [] -> link_value data similarity c1 c2 (value2 c1 c2).
Proof.
  intros Hs H1 H2. unfold value2. destruct similarity; try congruence.
  - unfold nearest_distance. destruct (min_by (fun d => d) (distances data c1 c2)) as [d|] eqn:E.
    + apply min_by_spec in E as [Hin Hmin]. apply distances_in in Hin as (a & b & Ha & Hb & ->). split.
      * exists a, b. split; auto. split; auto. apply Qeq_refl.
      * intros a' b' Ha' Hb'. apply (Hmin (dist data a' b')). apply distances_in. eauto.
    + exfalso. apply min_by_none in E. destruct c1 as [|a c1], c2 as [|b c2]; try congruence. discriminate.
  - destruct (fold_max (distances data c1 c2) 0%Q) as (F1 & F2 & F3). fold (farthest_distance data c1 c2) in *. split.
    + destruct F3 as [E|Hin].
      * destruct c1 as [|a c1], c2 as [|b c2]; try congruence. exists a, b. split; [left; auto|]. split; [left; auto|].
        assert (Hd : (dist data a b <= farthest_distance data (a :: c1) (b :: c2))%Q) by (apply F2, distances_in; exists a, b; simpl; auto).
        assert (Hp : (0 <= dist data a b)%Q) by apply sqdist_nonneg. fold (dist data a b). rewrite E in *. lra.
      * apply distances_in in Hin as (a & b & Ha & Hb & Eab). exists a, b. split; auto. split; auto. rewrite Eab. apply Qeq_refl.
    + intros a b Ha Hb. apply (F2 (dist data a b)), distances_in. eauto.
  - unfold link_value, average_distance. rewrite sumQ_qsum, distances_prod.
    assert (Hn : ~ (inject_Z (Z.of_nat (length c1 + length c2)) == 0)%Q).
    { destruct c1; [congruence|]. unfold Qeq. simpl. lia. }
    unfold dist. field. exact Hn.
Qed.

Lemma link_value_unique l c1 c2 v w : c1 <> [] -> c2 <> [] -> link_value data l c1 c2 v -> link_value data l c1 c2 w -> (v == w)%Q.
Proof.
  intros N1 N2. destruct l; cbn [link_value].
  - intros [(a & b & Ha & Hb & E) H] [(a' & b' & Ha' & Hb' & E') H']. specialize (H a' b' Ha' Hb'). specialize (H' a b Ha Hb). lra.
  - intros [(a & b & Ha & Hb & E) H] [(a' & b' & Ha' & Hb' & E') H']. specialize (H a' b' Ha' Hb'). specialize (H' a b Ha Hb). lra.
  - intros H H'. assert (Hn : ~ (inject_Z (Z.of_nat (length c1 + length c2)) == 0)%Q) by (destruct c1; [congruence|]; unfold Qeq; simpl; lia).
    rewrite <- H' in H. apply Qmult_inj_l with (inject_Z (Z.of_nat (length c1 + length c2))); auto.
  - intros (m1 & m2 & M1 & M2 & E) (m1' & m2' & M1' & M2' & E'). rewrite E, E'.
    assert (P : forall c m m', c <> [] -> is_mean (dimension data) (map (fun i => nth i data []) c) m -> is_mean (dimension data) (map (fun i => nth i data []) c) m' -> peq m m').
    { intros c m m' Hc [L1 Q1] [L2 Q2]. apply peq_of_coord; [lia|]. intros d Hd. rewrite L1 in Hd. specialize (Q1 d Hd). specialize (Q2 d Hd). rewrite <- Q2 in Q1.
      apply Qmult_inj_l in Q1; auto. destruct c; [congruence|]. unfold Qeq. simpl. lia. }
    rewrite (sqdist_peq_l m1 m1' m2) by eauto. rewrite (sqdist_sym m1' m2), (sqdist_sym m1' m2'). apply sqdist_peq_l. eauto.
Qed.

Definition sinv (s : ast) : Prop :=
  partitions (length data) (clusters s) /\ no_empty (clusters s) /\
  (similarity = CentroidLink -> length (centers s) = length (clusters s) /\
     forall k, k < length (clusters s) -> is_mean (dimension data) (map (fun i => nth i data []) (nth k (clusters s) [])) (nth k (centers s) [])).

Lemma pair_value_spec s i j : sinv s -> i < j -> j < length (clusters s) ->
  link_value data similarity (nth i (clusters s) []) (nth j (clusters s) []) (pair_value data similarity s (i, j)).
Proof.
  intros (H1 & H2 & H3) Hij Hj. unfold pair_value.
  pose proof (no_empty_nth _ i H2 ltac:(lia)) as Ni. pose proof (no_empty_nth _ j H2 Hj) as Nj.
  destruct similarity eqn:E.
  1-3: rewrite <- E; pose proof (value2_spec (nth i (clusters s) []) (nth j (clusters s) []) ltac:(congruence) Ni Nj) as V; unfold value2 in V; rewrite E in V |- *; exact V.
  destruct (H3 eq_refl) as [L M]. exists (nth i (centers s) []), (nth j (centers s) []). split; [apply M; lia|]. split; [apply M; auto|]. apply Qeq_refl.
Qed.

Lemma nth_app_mid {A} (l1 : list A) x l2 d : nth (length l1) (l1 ++ x :: l2) d = x.
Proof. rewrite app_nth2, Nat.sub_diag by lia. reflexivity. Qed.

Lemma merge_step_spec s : uniform (dimension data) data -> sinv s -> 2 <= length (clusters s) ->
  exists s', merge_step data similarity s = Ok s' /\ sinv s' /\ best_merge data similarity (clusters s) (clusters s') /\ S (length (clusters s')) = length (clusters s).
Proof.
  intros Hdim HI Hk. pose proof HI as (H1 & H2 & H3). unfold merge_step.
  assert (Ek : match similarity with CentroidLink => length (centers s) | _ => length (clusters s) end = length (clusters s)).
  { destruct similarity; auto. apply H3; auto. }
  rewrite Ek. destruct (min_by (pair_value data similarity s) (pairs (length (clusters s)))) as [[i j]|] eqn:E.
  2:{ exfalso. apply min_by_none in E. assert (Hin : In (0, 1) (pairs (length (clusters s)))) by (apply pairs_in; lia). rewrite E in Hin. contradiction. }
  apply min_by_spec in E as [Hin Hmin]. apply pairs_in in Hin as [Hij Hj]. destruct (Nat.ltb_spec j (length (clusters s))); [|lia].
  destruct (split_two (clusters s) i j [] Hij Hj) as (before & mid & after & Ec & Ei & Ej).
  eexists. split; [reflexivity|]. cbn [clusters centers].
  pose proof (merged_list (clusters s) i j (nth i (clusters s) [] ++ nth j (clusters s) []) [] before mid after Ec Ei Ej) as Em.
  set (ci := nth i (clusters s) []) in *. set (cj := nth j (clusters s) []) in *.
  assert (Nci : ci <> []) by (apply no_empty_nth; auto; lia).
  assert (Hpart : partitions (length data) (before ++ (ci ++ cj) :: mid ++ after)).
  { unfold partitions in *. apply Permutation_trans with (concat (clusters s)); auto. rewrite Ec.
    rewrite !concat_app. simpl. rewrite !concat_app. simpl. apply Permutation_app_head. rewrite <- !app_assoc. apply Permutation_app_head.
    rewrite !app_assoc. apply Permutation_app_tail. apply Permutation_app_comm. }
  assert (Hne : no_empty (before ++ (ci ++ cj) :: mid ++ after)).
  { unfold no_empty in *. rewrite Ec in H2. apply Forall_app in H2 as [F1 F2]. inversion F2 as [|? ? F3 F4]; subst. apply Forall_app in F4 as [F5 F6]. inversion F6; subst.
    apply Forall_app. split; auto. constructor; [destruct ci; [congruence|discriminate]|]. apply Forall_app. auto. }
  split; [|split].
  - cbn [sinv clusters centers]. unfold sinv. cbn [clusters centers]. rewrite Em. split; auto. split; auto. intros Es. rewrite Es. destruct (H3 Es) as [L M].
    assert (Lp : S (length (pop (upd (centers s) i (calculate_center data (ci ++ cj))) j)) = length (centers s)).
    { rewrite pop_length; rewrite upd_length; auto. lia. }
    assert (Ll : S (length (before ++ (ci ++ cj) :: mid ++ after)) = length (clusters s)).
    { rewrite Ec. rewrite !app_length. simpl. rewrite !app_length. simpl. lia. }
    split; [lia|]. intros k Hkk. rewrite <- Em. rewrite !pop_nth.
    assert (Hmean : is_mean (dimension data) (map (fun i0 => nth i0 data []) (ci ++ cj)) (calculate_center data (ci ++ cj))).
    { unfold calculate_center. assert (Ed : length (nth (hd 0 (ci ++ cj)) data []) = dimension data).
      { apply Hdim, nth_In. assert (Hin : In (hd 0 (ci ++ cj)) (concat (clusters s))).
        { apply nth_in_concat with i. fold ci. destruct ci; [congruence|left; reflexivity]. }
        apply (Permutation_in _ H1), in_seq in Hin. lia. }
      rewrite Ed. apply mean_is_mean. destruct ci; [congruence|discriminate]. }
    destruct (Nat.ltb_spec k j); rewrite !upd_nth.
    + destruct (Nat.eqb_spec i k) as [->|]; cbn [andb]; [|apply M; lia].
      destruct (Nat.ltb_spec k (length (clusters s))); [|lia]. destruct (Nat.ltb_spec k (length (centers s))); [|lia]. exact Hmean.
    + destruct (Nat.eqb_spec i (S k)); [lia|]. cbn [andb]. apply M. lia.
  - rewrite Em. exists i, j, before, mid, after, ci, cj, (pair_value data similarity s (i, j)). split; auto. split; auto. split; auto. split; auto. split; [apply pair_value_spec; auto|].
    intros a b w Hab Hb Hw. pose proof (pair_value_spec s a b HI Hab Hb) as V.
    rewrite <- (link_value_unique similarity _ _ _ _ (no_empty_nth _ a H2 ltac:(lia)) (no_empty_nth _ b H2 Hb) V Hw).
    apply (Hmin (a, b)). apply pairs_in. auto.
  - rewrite Em. rewrite Ec. rewrite !app_length. simpl. rewrite !app_length. simpl. lia.
Qed.

Lemma merge_loop_spec fuel number : uniform (dimension data) data -> 1 <= number -> forall s, sinv s -> length (clusters s) <= fuel + number ->
  exists s', merge_loop data similarity fuel number s = Ok s' /\ sinv s' /\ dendrogram data similarity (clusters s) (clusters s') /\ length (clusters s') = Nat.min (length (clusters s)) number.
Proof.
  intros Hdim Hn. induction fuel as [|fuel IH]; intros s HI Hl; cbn [merge_loop].
  - destruct (Nat.ltb_spec number (length (clusters s))); [lia|]. exists s. split; auto. split; auto. split; [constructor|]. lia.
  - destruct (Nat.ltb_spec number (length (clusters s))).
    + destruct (merge_step_spec s Hdim HI ltac:(lia)) as (s1 & E1 & I1 & B1 & L1). rewrite E1. cbn [bind].
      destruct (IH s1 I1 ltac:(lia)) as (s' & E & I & D & L). exists s'. split; auto. split; auto. split; [|lia].
      clear - B1 D. induction D as [|cl cl' cl'' D IH B]; [apply dend_merge with (clusters s); [constructor|auto]|]. apply dend_merge with cl'; auto.
    + exists s. split; auto. split; auto. split; [constructor|]. lia.
Qed.

Definition singles (n : nat) : list (list nat) := map (fun i => [i]) (seq 0 n).

Lemma singles_sinv cs : (similarity = CentroidLink -> cs = data) -> uniform (dimension data) data -> sinv (mkA (singles (length data)) cs).
Proof.
  intros Hc Hdim. unfold sinv. cbn [clusters centers]. split; [|split].
  - unfold partitions, singles. assert (E : forall l : list nat, concat (map (fun i => [i]) l) = l) by (induction l; simpl; f_equal; auto). rewrite E. apply Permutation_refl.
  - unfold no_empty, singles. rewrite Forall_forall. intros g Hg. apply in_map_iff in Hg as [i [<- _]]. discriminate.
  - intros Es. rewrite (Hc Es). unfold singles. rewrite map_length, seq_length. split; auto. intros k Hk. rewrite nth_map_seq0 by auto.
    split; [apply Hdim, nth_In; auto|]. intros d Hd. simpl. ring.
Qed.

Theorem agglomerative_spec number : data <> [] -> uniform (dimension data) data -> 1 <= number ->
  exists s, agglomerative data similarity number = Ok s /\ partitions (length data) (clusters s) /\ no_empty (clusters s) /\
    length (clusters s) = Nat.min (length data) number /\ dendrogram data similarity (singles (length data)) (clusters s).
Proof.
  intros Hd Hdim Hn. unfold agglomerative, new. destruct (Nat.eqb_spec number 0); [lia|].
  set (cs := match similarity with CentroidLink => data | _ => [] end).
  destruct (merge_loop_spec (length data) number Hdim Hn (mkA (singles (length data)) cs)) as (s & E & (I1 & I2 & _) & D & L).
  - apply singles_sinv; auto. intros Es. unfold cs. rewrite Es. reflexivity.
  - cbn [clusters]. unfold singles. rewrite map_length, seq_length. lia.
  - exists s. split; [destruct data; [congruence|]; exact E|]. split; auto. split; auto. split; auto. rewrite L. cbn [clusters]. unfold singles. rewrite map_length, seq_length. auto.
Qed.
End Proofs.

(** * Single link *)
Section Single.
Variable data : list point.
Notation D := (fun a b => sqdist (nth a data []) (nth b data [])).

(** with one threshold: clusters are chained below it, different clusters are apart above it *)
Definition separated (T : Q) (cl : list (list nat)) : Prop :=
  (forall c x y, In c cl -> In x c -> In y c -> chain D T (fun z => In z c) x y) /\
  (forall a b x y, a < b -> b < length cl -> In x (nth a cl []) -> In y (nth b cl []) -> (T <= D x y)%Q).

Lemma chain_trans T P x y z : chain D T P x y -> chain D T P y z -> chain D T P x z.
Proof. intros H1 H2. induction H2 as [|x0 y0 z0 H2 IH Ha Hd]; [exact H1|]. exact (chain_hop _ _ _ _ y0 _ (IH H1) Ha Hd). Qed.

Lemma chain_weaken T T' (P P' : nat -> Prop) x y : (T <= T')%Q -> (forall z, P z -> P' z) -> chain D T P x y -> chain D T' P' x y.
Proof. intros HT HP H. induction H as [|x0 y0 z0 H2 IH Ha Hd]; [constructor|]. exact (chain_hop _ _ _ _ y0 _ IH (HP _ Ha) (Qle_trans _ _ _ Hd HT)). Qed.

Lemma nth_two {A} (before : list A) x mid y after k d :
  nth k (before ++ x :: mid ++ y :: after) d =
  if k <? length before then nth k before d else if k =? length before then x
  else if k <? length before + 1 + length mid then nth (k - length before - 1) mid d
  else if k =? length before + 1 + length mid then y else nth (k - length before - length mid - 2) after d.
Proof.
  destruct (Nat.ltb_spec k (length before)); [apply app_nth1; auto|]. rewrite app_nth2 by auto.
  destruct (Nat.eqb_spec k (length before)) as [->|]; [rewrite Nat.sub_diag; reflexivity|].
  destruct (k - length before) as [|m] eqn:Em; [lia|]. cbn [nth].
  destruct (Nat.ltb_spec k (length before + 1 + length mid)); [rewrite app_nth1 by lia; f_equal; lia|]. rewrite app_nth2 by lia.
  destruct (Nat.eqb_spec k (length before + 1 + length mid)); [replace (m - length mid) with 0 by lia; reflexivity|].
  destruct (m - length mid) as [|q] eqn:Eq; [lia|]. cbn [nth]. f_equal. lia.
Qed.

Lemma best_merge_separated T cl cl' : no_empty cl -> separated T cl -> best_merge data SingleLink cl cl' -> exists T', separated T' cl'.
Proof.
  intros Hne [Hc Hs] (i & j & before & mid & after & ci & cj & v & Ec & Ei & Ej & Ec' & Hv & Hmin).
  exists v. destruct Hv as [(a & b & Ha & Hb & Ev) Hle].
  assert (Hlen : length cl = length before + length mid + length after + 2) by (rewrite Ec, !app_length; simpl; rewrite !app_length; simpl; lia).
  assert (Ni : nth i cl [] = ci). { rewrite Ec, Ei. apply nth_app_mid. }
  assert (Nj : nth j cl [] = cj). { rewrite Ec, Ej, nth_two. destruct (Nat.ltb_spec (length before + 1 + length mid) (length before)); [lia|].
    destruct (Nat.eqb_spec (length before + 1 + length mid) (length before)); [lia|]. rewrite Nat.ltb_irrefl, Nat.eqb_refl. reflexivity. }
  assert (HTv : (T <= v)%Q). { rewrite Ev. apply (Hs i j); try lia; [rewrite Ni|rewrite Nj]; auto. }
  assert (Hin_i : In ci cl) by (rewrite <- Ni; apply nth_In; lia). assert (Hin_j : In cj cl) by (rewrite <- Nj; apply nth_In; lia).
  split.
  - intros c x y Hin Hx Hy. rewrite Ec' in Hin. apply in_app_iff in Hin as [Hin|[E|Hin]].
    + apply chain_weaken with T (fun z => In z c); auto. apply Hc; auto. rewrite Ec. apply in_app_iff. auto.
    + subst c. apply in_app_iff in Hx, Hy.
      assert (Wi : forall z, In z ci -> In z (ci ++ cj)) by (intros; apply in_app_iff; auto).
      assert (Wj : forall z, In z cj -> In z (ci ++ cj)) by (intros; apply in_app_iff; auto).
      assert (Ci : forall x y, In x ci -> In y ci -> chain D v (fun z => In z (ci ++ cj)) x y) by (intros; eapply chain_weaken; [exact HTv| |apply (Hc ci); auto]; auto).
      assert (Cj : forall x y, In x cj -> In y cj -> chain D v (fun z => In z (ci ++ cj)) x y) by (intros; eapply chain_weaken; [exact HTv| |apply (Hc cj); auto]; auto).
      assert (Hab : chain D v (fun z => In z (ci ++ cj)) a b) by (eapply chain_hop; [constructor|auto|]; rewrite Ev; apply Qle_refl).
      assert (Hba : chain D v (fun z => In z (ci ++ cj)) b a) by (eapply chain_hop; [constructor|auto|]; rewrite Ev, sqdist_sym; apply Qle_refl).
      destruct Hx as [Hx|Hx], Hy as [Hy|Hy]; auto.
      * apply chain_trans with a; auto. apply chain_trans with b; auto.
      * apply chain_trans with b; auto. apply chain_trans with a; auto.
    + apply chain_weaken with T (fun z => In z c); auto. apply Hc; auto. rewrite Ec. apply in_app_iff. right. right. apply in_app_iff in Hin. apply in_app_iff. destruct Hin; auto. right. right. auto.
  - (* any two points of different clusters of cl are at least v apart *)
    assert (Hall : forall a b x y, a < b -> b < length cl -> In x (nth a cl []) -> In y (nth b cl []) -> (v <= D x y)%Q).
    { intros p q x y Hpq Hq Hx Hy.
      assert (HP : nth p cl [] <> []) by (apply no_empty_nth; auto; lia). assert (HQ : nth q cl [] <> []) by (apply no_empty_nth; auto).
      pose proof (value2_spec data SingleLink (nth p cl []) (nth q cl []) ltac:(discriminate) HP HQ) as V.
      pose proof (Hmin p q _ Hpq Hq V) as Hm. destruct V as [_ V]. specialize (V x y Hx Hy). eapply Qle_trans; [exact Hm|exact V]. }
    (* a cluster of cl' consists of clusters of cl *)
    assert (Hwhere : forall k x, k < length cl' -> In x (nth k cl' []) -> exists m, m < length cl /\ In x (nth m cl []) /\
       (if m <? j then (if m =? i then k = length before else k = m) else if m =? j then k = length before else k = m - 1)).
    { intros k x Hk Hx. rewrite Ec' in Hx, Hk. rewrite app_length in Hk. simpl in Hk. rewrite app_length in Hk.
      destruct (Nat.lt_trichotomy k (length before)) as [Hlt|[Heq|Hgt]].
      - rewrite app_nth1 in Hx by auto. exists k. split; [lia|]. split; [rewrite Ec, app_nth1; auto|]. destruct (Nat.ltb_spec k j); [|lia]. destruct (Nat.eqb_spec k i); lia.
      - subst k. rewrite nth_app_mid in Hx. apply in_app_iff in Hx as [Hx|Hx].
        + exists i. split; [lia|]. split; [rewrite Ni; auto|]. destruct (Nat.ltb_spec i j); [|lia]. rewrite Nat.eqb_refl. auto.
        + exists j. split; [lia|]. split; [rewrite Nj; auto|]. rewrite Nat.ltb_irrefl, Nat.eqb_refl. auto.
      - rewrite app_nth2 in Hx by lia. destruct (k - length before) as [|m] eqn:Em; [lia|]. cbn [nth] in Hx.
        destruct (Nat.lt_ge_cases m (length mid)).
        + rewrite app_nth1 in Hx by auto. exists k. split; [lia|]. split.
          * rewrite Ec, nth_two. destruct (Nat.ltb_spec k (length before)); [lia|]. destruct (Nat.eqb_spec k (length before)); [lia|]. destruct (Nat.ltb_spec k (length before + 1 + length mid)); [|lia].
            replace (k - length before - 1) with m by lia. auto.
          * destruct (Nat.ltb_spec k j); [|lia]. destruct (Nat.eqb_spec k i); lia.
        + rewrite app_nth2 in Hx by auto. exists (S k). split; [lia|]. split.
          * rewrite Ec, nth_two. destruct (Nat.ltb_spec (S k) (length before)); [lia|]. destruct (Nat.eqb_spec (S k) (length before)); [lia|]. destruct (Nat.ltb_spec (S k) (length before + 1 + length mid)); [lia|].
            destruct (Nat.eqb_spec (S k) (length before + 1 + length mid)); [lia|]. replace (S k - length before - length mid - 2) with (m - length mid) by lia. auto.
          * destruct (Nat.ltb_spec (S k) j); [lia|]. destruct (Nat.eqb_spec (S k) j); lia. }
    intros p q x y Hpq Hq Hx Hy. destruct (Hwhere p x ltac:(lia) Hx) as (m1 & L1 & I1 & W1). destruct (Hwhere q y Hq Hy) as (m2 & L2 & I2 & W2).
    destruct (Nat.lt_trichotomy m1 m2) as [Hlt|[Heq|Hgt]].
    + apply (Hall m1 m2); auto.
    + exfalso. subst m2. destruct (m1 <? j), (m1 =? i), (m1 =? j); lia.
    + rewrite sqdist_sym. apply (Hall m2 m1); auto.
Qed.

Lemma best_merge_no_empty l cl cl' : no_empty cl -> best_merge data l cl cl' -> no_empty cl'.
Proof.
  intros Hne (i & j & before & mid & after & ci & cj & v & Ec & Ei & Ej & Ec' & _). unfold no_empty in *. rewrite Ec in Hne. rewrite Ec'.
  apply Forall_app in Hne as [F1 F2]. inversion F2 as [|? ? F3 F4]; subst. apply Forall_app in F4 as [F5 F6]. inversion F6; subst.
  apply Forall_app. split; auto. constructor; [destruct ci; [congruence|discriminate]|]. apply Forall_app. auto.
Qed.

Lemma dendrogram_separated cl cl' : dendrogram data SingleLink cl cl' -> no_empty cl -> (exists T, separated T cl) -> no_empty cl' /\ exists T, separated T cl'.
Proof.
  intros H. induction H as [cl|cl cl1 cl2 H IH B]; intros Hn HT; auto. destruct (IH Hn HT) as [N1 [T1 S1]].
  split; [eapply best_merge_no_empty; eauto|]. eapply best_merge_separated; eauto.
Qed.

Lemma singles_separated n : separated 0 (singles n).
Proof.
  unfold singles. split.
  - intros c x y Hc Hx Hy. apply in_map_iff in Hc as [i [<- _]]. destruct Hx as [<-|[]], Hy as [<-|[]]. constructor.
  - intros. apply sqdist_nonneg.
Qed.
End Single.
