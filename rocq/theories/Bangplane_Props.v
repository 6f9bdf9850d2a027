(** C78 in one and two dimensions: neighbouring blocks above both thresholds are in one cluster. *)
From Coq Require Import Relations.
From Verif Require Import Base Small_Model Small_Proofs Bang_Model Bang_Proofs Bang_Props.
From Coq Require Import Lia Lqa.
Open Scope nat_scope.

(** no coordinate is the same for all points *)
Definition spread (data : list point) (D : nat) : Prop :=
  forall i, i < D -> exists p q, In p data /\ In q data /\ (coord p i < coord q i)%Q.

(** * Allocation *)
Section Allocation.
Variable order : list nat -> list nat.
Hypothesis Horder : forall l, Permutation (order l) l.
Variable data : list point.
Variable dthr : Q.
Variable athr : nat.
Variable lb : list block.
Notation n := (length lb).
Notation mark s k := (nth k (marks s) None).
Notation full k := (is_sparse data dthr athr (nth k lb b0) = false).
Definition nb (k j : nat) : bool := is_neighbor (nth k lb b0) (nth j lb b0).
(** blocks above both thresholds have at most eight neighbours *)
Hypothesis Hfew : forall k u, k < n -> full k -> NoDup u -> (forall j, In j u -> j < n) -> ~ In k u -> length (filter (nb k) u) <= 8.

Lemma take_all k ks : forall found, length found + length (filter (nb k) ks) <= 8 -> length found < 8 ->
  take_neighbors lb k ks found = found ++ filter (nb k) ks.
Proof.
  induction ks as [|j t IH]; intros found H Hlt; cbn [take_neighbors filter] in *; [rewrite app_nil_r; reflexivity|].
  fold (nb k j). destruct (nb k j) eqn:E; cbn [length] in H; [|apply IH; lia].
  destruct (Nat.eqb_spec (length (found ++ [j])) 8) as [E8|E8]; rewrite app_length in E8; cbn in E8.
  - assert (X : filter (nb k) t = []) by (destruct (filter (nb k) t); [reflexivity|cbn in H; lia]). rewrite X. reflexivity.
  - rewrite IH by (rewrite app_length; cbn; lia). rewrite <- app_assoc. reflexivity.
Qed.

Lemma neighbors_all k u : k < n -> full k -> NoDup u -> (forall j, In j u -> j < n) -> ~ In k u ->
  forall j, In j u -> nb k j = true -> ~ In j (snd (find_block_neighbors order lb k u)).
Proof.
  intros Hk Hf Hu Hn Hku j Hj Hb Hc. unfold find_block_neighbors in Hc. cbn [snd] in Hc. apply remove_all_in in Hc as [_ Hc]. apply Hc.
  assert (P : Permutation (order u) u) by apply Horder.
  rewrite take_all.
  - cbn [app]. apply filter_In. split; [|exact Hb]. eapply Permutation_in; [symmetry; exact P|exact Hj].
  - cbn [length]. apply Hfew; auto; [eapply Permutation_NoDup; [symmetry; exact P|exact Hu]| |].
    + intros x Hx. apply Hn. eapply Permutation_in; [exact P|exact Hx].
    + intro Hx. apply Hku. eapply Permutation_in; [exact P|exact Hx].
  - cbn. lia.
Qed.

(** neighbours of blocks that were expanded are not unhandled any more *)
Definition closed (s : ast) (u : list nat) : Prop := forall k j, full k -> mark s k <> None -> In j u -> nb k j = false.
(** the cluster a block is in or will be in *)
Definition will (c : nat) (q : list nat) (s : ast) (k : nat) (a : nat) : Prop := mark s k = Some a \/ In k q /\ a = c.
Definition together (c : nat) (q : list nat) (s : ast) : Prop := forall k k' a a', full k -> full k' -> nb k k' = true -> nb k' k = true ->
  will c q s k a -> will c q s k' a' -> a = a'.
Definition sound (q : list nat) (s : ast) : Prop :=
  length (marks s) = n /\ NoDup (q ++ unhandled s) /\ forall k, In k (q ++ unhandled s) -> k < n /\ mark s k = None.

Lemma mark_upd s j c k : length (marks s) = n -> j < n -> nth k (upd (marks s) j (Some c)) None = if j =? k then Some c else mark s k.
Proof. intros L H. rewrite upd_nth, L. apply Nat.ltb_lt in H. rewrite H, andb_true_r. reflexivity. Qed.

(** one block [j] of cluster [c] is expanded *)
Lemma step_kept c j q s nbs unh dg : sound (j :: q) s -> closed s (unhandled s) -> together c (j :: q) s ->
  find_block_neighbors order lb j (unhandled s) = (nbs, unh) ->
  let s' := mkA (upd (marks s) j (Some c)) unh dg in
  sound (q ++ nbs) s' /\ closed s' unh /\ together c (q ++ nbs) s'.
Proof.
  intros (L & N & H) Cl T E s'. destruct (H j (or_introl eq_refl)) as (Hj & Mj).
  cbn [app] in N. inversion N as [|? ? Njq N']; subst. pose proof N' as N2. apply NoDup_app_inv in N2 as (Nq & Nu & Nx).
  pose proof (neighbors_spec order Horder lb j (unhandled s) Nu) as (P & Npu & Fn). rewrite E in P, Npu, Fn. cbn [fst snd] in *.
  assert (Hin : forall x, In x (unhandled s) <-> In x nbs \/ In x unh).
  { intros x. rewrite <- in_app_iff. split; intros Hx; [eapply Permutation_in; [exact P|auto]|eapply Permutation_in; [symmetry; exact P|auto]]. }
  assert (Hju : ~ In j (unhandled s)) by (intro X; apply Njq; apply in_app_iff; auto).
  assert (Mk : forall k, mark s' k = if j =? k then Some c else mark s k) by (intro k; apply mark_upd; auto).
  split; [|split].
  - split; [cbn [marks s']; rewrite upd_length; exact L|]. cbn [unhandled s']. split.
    + rewrite <- app_assoc. apply NoDup_app_intro; auto. intros x Hx Hc. apply in_app_iff in Hc. apply (Nx x); [auto|]. apply Hin. exact Hc.
    + intros k Hk. rewrite <- app_assoc, in_app_iff, in_app_iff, <- Hin in Hk. assert (Hk' : In k (q ++ unhandled s)) by (apply in_app_iff; exact Hk).
      destruct (H k (or_intror Hk')) as (A & B). split; [exact A|]. rewrite Mk. destruct (Nat.eqb_spec j k) as [<-|]; [contradiction|exact B].
  - intros k x Fk Mkk Hx. rewrite Mk in Mkk. assert (Hx' : In x (unhandled s)) by (apply Hin; auto). destruct (Nat.eqb_spec j k) as [<-|Hne].
    + destruct (nb j x) eqn:En; [|reflexivity]. exfalso. refine (neighbors_all j (unhandled s) Hj Fk Nu _ Hju x Hx' En _).
      * intros y Hy. apply (H y). right. apply in_app_iff. auto.
      * rewrite E. exact Hx.
    + apply (Cl k x Fk Mkk Hx').
  - (* the state before, with the new neighbours *)
    assert (W : forall k a, will c (q ++ nbs) s' k a -> will c (j :: q) s k a \/ In k nbs /\ a = c).
    { intros k a [X|[X ->]].
      - rewrite Mk in X. destruct (Nat.eqb_spec j k) as [<-|]; [injection X as <-; left; right; split; [left; reflexivity|reflexivity]|left; left; exact X].
      - apply in_app_iff in X as [X|X]; [left; right; split; [right; exact X|reflexivity]|right; auto]. }
    assert (One : forall k k' a', full k -> full k' -> nb k k' = true -> nb k' k = true -> In k nbs -> will c (j :: q) s k' a' -> a' = c).
    { intros k k' a' Fk Fk' B1 B2 Hk [X|[X ->]]; [|reflexivity]. exfalso. assert (Y : nb k' k = false); [|congruence].
      apply (Cl k' k Fk'); [congruence|]. apply Hin. auto. }
    intros k k' a a' Fk Fk' B1 B2 W1 W2. apply W in W1. apply W in W2. destruct W1 as [W1|[W1 ->]], W2 as [W2|[W2 ->]].
    + exact (T k k' a a' Fk Fk' B1 B2 W1 W2).
    + exact (One k' k a Fk' Fk B2 B1 W2 W1).
    + symmetry. exact (One k k' a' Fk Fk' B1 B2 W1 W2).
    + reflexivity.
Qed.

Lemma expand_kept c fuel : forall q s s', sound q s -> closed s (unhandled s) -> together c q s -> expand order data lb fuel c q s = Ok s' ->
  sound [] s' /\ closed s' (unhandled s') /\ together c [] s'.
Proof.
  induction fuel as [|f IH]; intros q s s' S0 Cl T; destruct q as [|j q]; cbn [expand]; intro E; try discriminate; try (apply Ok_inj in E; subst s'; auto).
  destruct (find_block_neighbors order lb j (unhandled s)) as [nbs unh] eqn:En. destruct (update_dendrogram data lb (dendrogram s) c nbs) as [dg|]; cbn [bind] in E; [|discriminate].
  destruct (step_kept c j q s nbs unh dg S0 Cl T En) as (S1 & C1 & T1). eapply IH; [exact S1|exact C1|exact T1|exact E].
Qed.

Definition opened (o : option nat) : list nat := match o with Some k => [k] | None => [] end.

Lemma center_opened mk ks : forall u o u', NoDup u -> find_center data dthr lb mk ks u = Ok (o, u') -> Permutation u (opened o ++ u').
Proof.
  induction ks as [|k t IH]; intros u o u' Hu E; cbn [find_center] in E.
  - apply Ok_inj in E. injection E as <- <-. reflexivity.
  - destruct (Qle_bool _ _); [apply Ok_inj in E; injection E as <- <-; reflexivity|]. destruct (nth k mk None); [apply (IH _ _ _ Hu E)|].
    destruct (existsb (Nat.eqb k) u) eqn:Ex; [|discriminate]. apply Ok_inj in E. injection E as <- <-. cbn [opened app]. apply existsb_exists in Ex as (x & Hx & Ek). apply Nat.eqb_eq in Ek. subst x.
    apply NoDup_Permutation; [exact Hu|constructor; [apply remove_In|apply remove_nodup; exact Hu]|]. intro x. split.
    + intro H. destruct (Nat.eq_dec k x) as [<-|]; [left; reflexivity|right; apply in_in_remove; auto].
    + intros [<-|H]; [exact Hx|apply in_remove in H; tauto].
Qed.

(** between two clusters: [o] is the block the next cluster starts with *)
Definition rest (o : option nat) (s : ast) : Prop := sound (opened o) s /\ closed s (opened o ++ unhandled s) /\ together 0 [] s.

Lemma together_none c c' s : together c [] s -> together c' [] s.
Proof. intros T k k' a a' Fk Fk' B1 B2 [W1|[[] _]] [W2|[[] _]]. apply (T k k' a a'); auto; left; auto. Qed.

Lemma center_rest c s o s' : sound [] s -> closed s (unhandled s) -> together c [] s -> find_block_center data dthr lb s = Ok (o, s') -> rest o s'.
Proof.
  intros (L & N & H) Cl T. unfold find_block_center. destruct (find_center data dthr lb (marks s) (rev (seq 0 n)) (unhandled s)) as [[o' u']|] eqn:E; cbn [bind fst snd]; [|discriminate].
  intro X. apply Ok_inj in X. injection X as <- <-. cbn [app] in *. pose proof (center_opened _ _ _ _ _ N E) as P.
  split; [|split].
  - split; [exact L|]. cbn [unhandled marks]. split; [eapply Permutation_NoDup; [exact P|exact N]|]. intros k Hk. apply (H k). eapply Permutation_in; [symmetry; exact P|exact Hk].
  - intros k j Fk Mk Hj. cbn [unhandled] in Hj. apply (Cl k j Fk Mk). eapply Permutation_in; [symmetry; exact P|exact Hj].
  - apply (together_none c 0 (mkA (marks s) u' (dendrogram s))). exact T.
Qed.

Lemma allocate_kept fuel : forall o c s c' s', rest o s -> allocate order data dthr athr lb fuel o c s = Ok (c', s') -> together 0 [] s'.
Proof.
  induction fuel as [|f IH]; intros o c s c' s' (S0 & Cl & T); destruct o as [r|]; cbn [allocate]; try (intro E; apply Ok_inj in E; injection E as _ <-; exact T).
  - destruct (is_sparse data dthr athr (nth r lb b0)); [intro E; apply Ok_inj in E; injection E as _ <-; exact T|discriminate].
  - destruct (is_sparse data dthr athr (nth r lb b0)) eqn:Fr; [intro E; apply Ok_inj in E; injection E as _ <-; exact T|].
    unfold expand_cluster_block. destruct (update_dendrogram data lb (dendrogram s) c [r]) as [dg|]; cbn [bind]; [|discriminate].
    destruct (find_block_neighbors order lb r (unhandled s)) as [nbs unh] eqn:En. destruct (update_dendrogram data lb dg c nbs) as [dg'|]; cbn [bind]; [|discriminate].
    assert (T1 : together c [r] s).
    { intros k k' a a' Fk Fk' B1 B2 W1 W2.
      assert (No : forall x y b, full x -> nb x y = true -> mark s x = Some b -> y <> r).
      { intros x y b Fx Bxy Mx ->. assert (Y : nb x r = false) by (apply (Cl x r Fx); [congruence|left; reflexivity]). congruence. }
      destruct W1 as [W1|[[<-|[]] ->]], W2 as [W2|[[<-|[]] ->]].
      - apply (T k k' a a'); auto; left; auto.
      - exfalso. apply (No k r a); auto.
      - exfalso. apply (No k' r a'); auto.
      - reflexivity. }
    assert (Cl1 : closed s (unhandled s)) by (intros k j Fk Mk Hj; apply (Cl k j Fk Mk); right; exact Hj).
    destruct (step_kept c r [] s nbs unh dg' S0 Cl1 T1 En) as (S1 & C1 & T2). cbn [app] in S1, T2.
    destruct (expand order data lb n c nbs (mkA (upd (marks s) r (Some c)) unh dg')) as [s1|] eqn:Ee; cbn [bind]; [|discriminate].
    destruct (expand_kept c n _ _ _ S1 C1 T2 Ee) as (S2 & C2 & T3).
    destruct (find_block_center data dthr lb s1) as [[o' s2]|] eqn:Ec; cbn [bind fst snd]; [|discriminate]. apply IH. eapply center_rest; eauto.
Qed.
End Allocation.

(** * The blocks lie on a grid *)
Lemma filter_true {A} (f : A -> bool) l : (forall x, In x l -> f x = true) -> filter f l = l.
Proof. induction l as [|x t IH]; intro H; cbn [filter]; [reflexivity|]. rewrite (H x (or_introl eq_refl)). f_equal. apply IH. intros y Hy. apply H. right. exact Hy. Qed.

Section Grid.
Variable data : list point.
Variable D levels : nat.
Variable dthr : Q.
Variable athr : nat.
Hypothesis Hdim : forall p, In p data -> length p = D.
Hypothesis HD : 1 <= D.
Variables lo s0 : point.
Hypothesis Ls0 : length s0 = D.
Notation lsides := (level_sides D s0).

Definition on_grid (s : list Q) (b : block) : Prop := forall i, i < D -> exists z : Z, (coord (bmax b) i == coord lo i + inject_Z z * coord s i)%Q.
Definition placed (l : nat) (b : block) : Prop := wf D b /\ has_sides D b (lsides l) /\ on_grid (lsides l) b.

Lemma finer l b : on_grid (lsides l) b -> on_grid (lsides (S l)) b.
Proof.
  intros G i Hi. destruct (G i Hi) as (z & E). cbn [level_sides]. pose proof (Nat.mod_upper_bound (S l) D ltac:(lia)) as Hm.
  rewrite coord_upd by (rewrite level_sides_length; lia). destruct (Nat.eqb_spec (S l mod D) i) as [->|]; [|exists z; exact E].
  exists (2 * z)%Z. rewrite E, inject_Z_mult. change (inject_Z 2) with 2%Q. field.
Qed.
Lemma finer_many l b k : on_grid (lsides l) b -> on_grid (lsides (k + l)) b.
Proof. intro G. induction k as [|k IH]; [exact G|]. cbn [Nat.add]. apply finer. exact IH. Qed.

Lemma split_placed l b : placed l b -> placed (S l) (fst (split b (S l mod D))) /\ placed (S l) (snd (split b (S l mod D))).
Proof.
  intros (W & Hs & G). pose proof (Nat.mod_upper_bound (S l) D ltac:(lia)) as Hm. set (d := S l mod D) in *.
  destruct (split_wf D d Hm b W) as (W1 & W2).
  assert (Hs' : forall i, i < D -> ((if d =? i then side b i / 2 else side b i) == coord (lsides (S l)) i)%Q).
  { intros i Hi. cbn [level_sides]. fold d. rewrite coord_upd by (rewrite level_sides_length; lia). destruct (Nat.eqb_spec d i) as [->|]; [rewrite (Hs i Hi)|apply Hs; auto]. reflexivity. }
  split; (split; [assumption|]); (split; [intros i Hi; rewrite <- Hs' by auto; apply (split_side D d Hm b i W)|]).
  - intros i Hi. unfold split. cbn [fst bmax]. destruct W as (L1 & L2 & W). rewrite coord_upd by lia. destruct (Nat.eqb_spec d i) as [->|Hne].
    + destruct (G i Hi) as (z & E). exists (2 * z - 1)%Z. pose proof (Hs' i Hi) as Hh. rewrite Nat.eqb_refl in Hh. rewrite <- Hh. pose proof (Hs i Hi) as Hside. unfold side in Hside |- *.
      unfold Z.sub. rewrite inject_Z_plus, inject_Z_mult. change (inject_Z 2) with 2%Q. change (inject_Z (- (1))) with (- (1))%Q. rewrite <- Hside in E.
      set (x := coord (bmax b) i) in *. set (y := coord (bmin b) i) in *. set (w := inject_Z z) in *. set (a := coord lo i) in *.
      assert (X : (x / 2 + y / 2 == a + (2 * w - 1) * ((x - y) / 2))%Q); [|unfold Qdiv in *; rewrite Qmult_plus_distr_l; unfold Qminus in X; exact X].
      setoid_replace (a + (2 * w - 1) * ((x - y) / 2))%Q with ((a + w * (x - y)) - (x - y) / 2)%Q by field. rewrite <- E. field.
    + destruct (finer l b G i Hi) as (z & E). exists z. exact E.
  - unfold split. cbn [snd]. intros i Hi. cbn [bmax]. apply (finer l b G i Hi).
Qed.

Lemma split_blocks_placed l prev : forall lf cur (Q : block -> Prop), Forall Q lf -> Forall (placed (S l)) cur -> Forall (placed l) prev ->
  (forall b, placed l b -> is_sparse data dthr athr b = true -> Q b) ->
  let r := split_blocks data dthr athr (S l mod D) prev lf cur in Forall Q (fst r) /\ Forall (placed (S l)) (snd r).
Proof.
  induction prev as [|b t IH]; intros lf cur Q Fl Fc Fp HQ; cbn [split_blocks]; [auto|]. inversion Fp as [|? ? Pb Ft]; subst.
  destruct (is_sparse data dthr athr b) eqn:Es.
  - apply IH; auto. apply Forall_app. split; auto.
  - apply IH; auto. destruct (split_placed l b Pb) as (P1 & P2). apply Forall_app. split; auto.
Qed.

Definition leaf_placed (b : block) : Prop := exists l, l <= levels - 1 /\ placed l b /\ (is_sparse data dthr athr b = true \/ l = levels - 1).

Lemma build_levels_placed k : forall l prev dir, S l + k = levels -> 1 <= k -> Forall leaf_placed (leafs dir) -> Forall (placed l) prev ->
  Forall leaf_placed (leafs (build_levels data levels dthr athr D (seq (S l) k) prev dir)).
Proof.
  induction k as [|k IH]; intros l prev dir Hlk Hk Fl Fp; [lia|]. cbn [seq build_levels]. unfold build_level.
  assert (HQ : forall b, placed l b -> is_sparse data dthr athr b = true -> leaf_placed b) by (intros b Pb Sb; exists l; split; [lia|]; auto).
  pose proof (split_blocks_placed l prev (leafs dir) [] leaf_placed Fl (Forall_nil _) Fp HQ) as H.
  destruct (split_blocks data dthr athr (S l mod D) prev (leafs dir) []) as [lf cur]. cbn [fst snd] in H. destruct H as (A & B).
  destruct (Nat.eqb_spec (S l) (levels - 1)) as [E|E].
  - assert (k = 0) by lia. subst k. cbn [seq build_levels store_level leafs]. apply Forall_app. split; [exact A|]. eapply Forall_impl; [|exact B]. intros b Pb. exists (S l). split; [lia|]. split; [exact Pb|right; exact E].
  - apply IH; cbn [store_level leafs]; auto; lia.
Qed.

(** the size of the cells of the grid *)
Notation u := (lsides (levels - 1)).
Hypothesis Hpos : forall i, i < D -> (0 < coord s0 i)%Q.
Lemma sides_pos l i : i < D -> (0 < coord (lsides l) i)%Q.
Proof.
  revert i. induction l as [|l IH]; intros i Hi; cbn [level_sides]; [auto|]. pose proof (Nat.mod_upper_bound (S l) D ltac:(lia)) as Hm. rewrite coord_upd by (rewrite level_sides_length; lia).
  destruct (Nat.eqb_spec (S l mod D) i) as [->|]; [|auto]. apply Qlt_shift_div_l; [lra|]. specialize (IH i Hi). lra.
Qed.

Lemma leaf_grid b : leaf_placed b -> wf D b /\ on_grid u b /\ (forall i, i < D -> (0 < side b i)%Q) /\ (is_sparse data dthr athr b = false -> has_sides D b u).
Proof.
  intros (l & Hl & (W & Hs & G) & Hor). split; [exact W|]. split; [|split].
  - replace (levels - 1) with ((levels - 1 - l) + l) by lia. apply finer_many. exact G.
  - intros i Hi. rewrite (Hs i Hi). apply sides_pos. exact Hi.
  - intro Es. destruct Hor as [Hor| ->]; [congruence|exact Hs].
Qed.

(** where a block is, seen from another, in cells of the grid *)
Definition code (k j : block) : list Q := map (fun i => Qred ((coord (bmax j) i - coord (bmax k) i) / coord u i)) (seq 0 D).

Lemma code_near k j : leaf_placed k -> leaf_placed j -> is_sparse data dthr athr k = false -> is_neighbor k j = true ->
  forall i, i < D -> In (Qred ((coord (bmax j) i - coord (bmax k) i) / coord u i)) [0; 1; -1]%Q.
Proof.
  intros Pk Pj Sk Hn i Hi. destruct (leaf_grid k Pk) as (Wk & Gk & _ & Sides). destruct (leaf_grid j Pj) as (Wj & Gj & _ & _). specialize (Sides Sk).
  pose proof (proj1 Wj) as Lj.
  assert (B : (Qabs (coord (bmax j) i - coord (bmax k) i) <= (coord (bmax k) i - coord (bmin k) i) * (10001 # 10000))%Q).
  { destruct levels as [|lv]; [|exact (neighbor_spec D (S lv) HD ltac:(lia) k j Lj Hn i Hi)]. exact (neighbor_spec D 1 HD ltac:(lia) k j Lj Hn i Hi). }
  pose proof (Sides i Hi) as Hs. unfold side in Hs. rewrite Hs in B. destruct (Gk i Hi) as (zk & Ek). destruct (Gj i Hi) as (zj & Ej). pose proof (sides_pos (levels - 1) i Hi) as Hu.
  set (w := coord u i) in *. set (z := (zj - zk)%Z).
  assert (E : (coord (bmax j) i - coord (bmax k) i == inject_Z z * w)%Q). { rewrite Ej, Ek. unfold z, Z.sub. rewrite inject_Z_plus, inject_Z_opp. ring. }
  assert (Er : ((coord (bmax j) i - coord (bmax k) i) / w == inject_Z z)%Q) by (rewrite E; field; lra).
  rewrite (Qred_complete _ _ Er). rewrite E in B. rewrite Qabs_Qmult in B. rewrite (Qabs_pos w) in B by lra. setoid_replace (w * (10001 # 10000))%Q with ((10001 # 10000) * w)%Q in B by ring.
  apply Qmult_le_r in B; [|exact Hu].
  assert (Hz : (z = 0 \/ z = 1 \/ z = -1)%Z).
  { change (Qabs (inject_Z z)) with (inject_Z (Z.abs z)) in B. unfold Qle in B. cbn [Qnum Qden inject_Z] in B. lia. }
  destruct Hz as [-> |[-> | ->]]; vm_compute; auto.
Qed.

Lemma code_coord k j i : i < D -> nth i (code k j) 0%Q = Qred ((coord (bmax j) i - coord (bmax k) i) / coord u i).
Proof. intro Hi. unfold code. rewrite (nth_indep _ 0%Q (Qred ((coord (bmax j) 0 - coord (bmax k) 0) / coord u 0))) by (rewrite map_length, seq_length; exact Hi). rewrite (map_nth (fun i => Qred ((coord (bmax j) i - coord (bmax k) i) / coord u i))), seq_nth by exact Hi. reflexivity. Qed.

(** two blocks that share only points of faces have different upper corners *)
Lemma corners_differ k j : leaf_placed k -> leaf_placed j -> meet D k j -> ~ (forall i, i < D -> (coord (bmax k) i == coord (bmax j) i)%Q).
Proof.
  intros Pk Pj M E. destruct (leaf_grid k Pk) as (Wk & _ & Sk & _). destruct (leaf_grid j Pj) as (Wj & _ & Sj & _).
  set (h := fun i => if Qle_bool (side k i) (side j i) then (side k i / 2)%Q else (side j i / 2)%Q).
  set (p := map (fun i => (coord (bmax k) i - h i)%Q) (seq 0 D)).
  assert (Lp : length p = D) by (unfold p; rewrite map_length, seq_length; reflexivity).
  assert (Cp : forall i, i < D -> coord p i = (coord (bmax k) i - h i)%Q).
  { intros i Hi. unfold p, coord at 1. rewrite (nth_indep _ 0%Q (coord (bmax k) 0%nat - h 0%nat)%Q) by (rewrite map_length, seq_length; exact Hi). rewrite (map_nth (fun i => (coord (bmax k) i - h i)%Q)), seq_nth by exact Hi. reflexivity. }
  assert (Hh : forall i, i < D -> (0 < h i)%Q /\ (h i <= side k i)%Q /\ (h i <= side j i)%Q).
  { intros i Hi. specialize (Sk i Hi). specialize (Sj i Hi). unfold h. destruct (Qle_bool (side k i) (side j i)) eqn:Eq.
    - apply Qle_bool_iff in Eq. assert (X : (side k i == side k i / 2 + side k i / 2)%Q) by field. set (a := (side k i / 2)%Q) in *. repeat split; lra.
    - apply Qle_bool_false in Eq. assert (X : (side j i == side j i / 2 + side j i / 2)%Q) by field. set (a := (side j i / 2)%Q) in *. repeat split; lra. }
  destruct (M p Lp) as (d & Hd & Hor).
  - intros i Hi. rewrite Lp in Hi. rewrite Cp by exact Hi. destruct (Hh i Hi) as (A & B & C). unfold side in B. split; lra.
  - intros i Hi. rewrite Lp in Hi. rewrite Cp by exact Hi. destruct (Hh i Hi) as (A & B & C). unfold side in C. specialize (E i Hi). split; lra.
  - rewrite Cp in Hor by exact Hd. destruct (Hh d Hd) as (A & _). specialize (E d Hd). destruct Hor as [[X _]|[_ X]]; lra.
Qed.

Lemma code_inj k j j' : leaf_placed j -> leaf_placed j' -> meet D j j' -> code k j = code k j' -> False.
Proof.
  intros Pj Pj' M E. apply (corners_differ j j' Pj Pj' M). intros i Hi. assert (X : nth i (code k j) 0%Q = nth i (code k j') 0%Q) by congruence. rewrite !code_coord in X by exact Hi.
  apply (f_equal (fun q => (q * coord u i)%Q)) in X. pose proof (sides_pos (levels - 1) i Hi) as Hu.
  assert (Y : ((coord (bmax j) i - coord (bmax k) i) / coord u i * coord u i == (coord (bmax j') i - coord (bmax k) i) / coord u i * coord u i)%Q) by (rewrite <- (Qred_correct (_ / _)), X, Qred_correct; reflexivity).
  set (w := coord u i) in *. setoid_replace ((coord (bmax j) i - coord (bmax k) i) / w * w)%Q with (coord (bmax j) i - coord (bmax k) i)%Q in Y by (field; lra).
  setoid_replace ((coord (bmax j') i - coord (bmax k) i) / w * w)%Q with (coord (bmax j') i - coord (bmax k) i)%Q in Y by (field; lra). lra.
Qed.

Lemma few_neighbours lb : D <= 2 -> Forall leaf_placed lb -> ForallOrdPairs (meet D) lb ->
  forall k us, k < length lb -> is_sparse data dthr athr (nth k lb b0) = false -> NoDup us -> (forall j, In j us -> j < length lb) -> ~ In k us ->
  length (filter (nb lb k) us) <= 8.
Proof.
  intros H2 Fp FO k us Hk Sk Nu Hu Hku. rewrite Forall_forall in Fp. assert (Pn : forall j, j < length lb -> leaf_placed (nth j lb b0)) by (intros j Hj; apply Fp, nth_In; exact Hj).
  set (kb := nth k lb b0) in *.
  assert (Hm : forall a b, a < length lb -> b < length lb -> a <> b -> code kb (nth a lb b0) <> code kb (nth b lb b0)).
  { intros a b Ha Hb Hab E. apply (code_inj kb (nth a lb b0) (nth b lb b0)); auto. apply (FOP_nth (meet D) (meet_sym D) b0 lb FO); auto. }
  set (sel := filter (nb lb k) us).
  assert (Hsel : forall j, In j sel -> j < length lb /\ j <> k /\ is_neighbor kb (nth j lb b0) = true).
  { intros j Hj. apply filter_In in Hj as (A & B). split; [auto|]. split; [intros ->; contradiction|exact B]. }
  assert (Nc : NoDup (map (fun j => code kb (nth j lb b0)) (k :: sel))).
  { assert (Nks : NoDup (k :: sel)). { constructor; [intro X; destruct (Hsel k X) as (_ & Y & _); auto|apply NoDup_filter; exact Nu]. }
    assert (Lks : forall j, In j (k :: sel) -> j < length lb) by (intros j [<-|Hj]; [exact Hk|apply Hsel; exact Hj]).
    clear - Nks Lks Hm. induction Nks as [|x l Hx Nl IH]; cbn [map]; [constructor|]. constructor; [|apply IH; intros j Hj; apply Lks; right; exact Hj].
    intro X. apply in_map_iff in X as (y & E & Hy). apply (Hm y x); [apply Lks; right; exact Hy|apply Lks; left; reflexivity|intros ->; contradiction|exact E]. }
  set (cells := match D with 1 => map (fun a => [a]) [0; 1; -1]%Q | _ => flat_map (fun a => map (fun b => [a; b]) [0; 1; -1]%Q) [0; 1; -1]%Q end).
  assert (Hc : incl (map (fun j => code kb (nth j lb b0)) (k :: sel)) cells).
  { intros x Hx. apply in_map_iff in Hx as (j & <- & Hj).
    assert (Hi : forall i, i < D -> In (Qred ((coord (bmax (nth j lb b0)) i - coord (bmax kb) i) / coord u i)) [0; 1; -1]%Q).
    { destruct Hj as [<-|Hj].
      - intros i Hi. fold kb. left. pose proof (sides_pos (levels - 1) i Hi) as Hw. symmetry. apply (Qred_complete _ 0%Q). setoid_replace (coord (bmax kb) i - coord (bmax kb) i)%Q with 0%Q by ring. field. lra.
      - destruct (Hsel j Hj) as (A & B & C). exact (code_near kb (nth j lb b0) (Pn k Hk) (Pn j A) Sk C). }
    unfold code, cells. destruct D as [|[|[|D']]]; [lia| | |lia].
    - cbn [seq map]. specialize (Hi 0 ltac:(lia)). destruct Hi as [<-|[<-|[<-|[]]]]; cbn; auto.
    - cbn [seq map]. pose proof (Hi 0 ltac:(lia)) as A. pose proof (Hi 1 ltac:(lia)) as B. destruct A as [<-|[<-|[<-|[]]]], B as [<-|[<-|[<-|[]]]]; cbn; auto 12. }
  pose proof (NoDup_incl_length Nc Hc) as Hlen. rewrite map_length in Hlen. cbn [length] in Hlen.
  assert (Lc : length cells <= 9) by (unfold cells; destruct D as [|[|D']]; cbn; lia). lia.
Qed.
End Grid.

(** C78 for points of one or two coordinates, none of which is the same for all points *)
Theorem C78_neighbours_partial (order : list nat -> list nat) data D levels dthr athr :
  (forall l, Permutation (order l) l) -> valid data D levels dthr -> D <= 2 -> spread data D ->
  exists b d, process order data levels dthr athr initial = Ok b /\ dir b = Some d /\
    forall k k', k < length (leafs d) -> k' < length (leafs d) ->
      (dthr < density data (nth k (leafs d) b0))%Q -> athr < amount data (nth k (leafs d) b0) ->
      (dthr < density data (nth k' (leafs d) b0))%Q -> athr < amount data (nth k' (leafs d) b0) ->
      adjacent D (nth k (leafs d) b0) (nth k' (leafs d) b0) -> adjacent D (nth k' (leafs d) b0) (nth k (leafs d) b0) ->
      exists j, nth k (leaf_marks b) None = Some j /\ nth k' (leaf_marks b) None = Some j.
Proof.
  intros Ho (Hd & HD & Hne & Hl & Ht) H2 Sp. destruct (bang_spec order Ho data D levels dthr athr Hd HD Hne Hl Ht) as (b & d & E & Ed & H). cbv zeta in H.
  destruct H as (_ & _ & H3 & _ & _ & _ & _ & _ & _ & _ & H11 & _ & H13). exists b, d. split; [exact E|]. split; [exact Ed|].
  unfold process in E. destruct (length data =? 0); [discriminate|]. destruct (levels <? 1); [discriminate|]. destruct (Qltb dthr 0); [discriminate|].
  destruct (create_directory_spec data D levels dthr athr Hd HD Hne Hl) as (d1 & _ & Ec & _ & _ & _ & FO & _).
  rewrite Ec in E. cbn [bind initial dendro noise] in E.
  destruct (find_block_center data dthr (leafs d1) (mkA (repeat None (length (leafs d1))) (filter (fun k => Qltb dthr (density data (nth k (leafs d1) b0))) (seq 0 (length (leafs d1)))) [])) as [[o s1]|] eqn:E1; cbn [bind fst snd] in E; [|discriminate].
  destruct (allocate order data dthr athr (leafs d1) (S (length (leafs d1))) o 0 s1) as [[c s2]|] eqn:E2; cbn [bind] in E; [|discriminate].
  destruct (store_results order data (leafs d1) c (marks s2) []) as [cl ns]. apply Ok_inj in E. subst b. cbn [dir leaf_marks] in *. injection Ed as ->.
  (* the grid *)
  destruct (data_corners_spec data None D Hne Hd ltac:(discriminate)) as (co & Eco & (L1 & L2 & Htt)).
  set (root := mkBlk (snd co) (fst co) 0 0). set (s0 := map (side root) (seq 0 D)).
  assert (Ls0 : length s0 = D) by (unfold s0; rewrite map_length, seq_length; auto).
  assert (Es0 : forall i, i < D -> coord s0 i = side root i).
  { intros i Hi. unfold s0, coord. rewrite (nth_indep _ 0%Q (side root 0)) by (rewrite map_length, seq_length; auto). rewrite map_nth, seq_nth; auto. }
  assert (Hpos : forall i, i < D -> (0 < coord s0 i)%Q).
  { intros i Hi. rewrite Es0 by exact Hi. destruct (Sp i Hi) as (p & q & Hp & Hq & Hlt). destruct (Htt i Hi) as (_ & _ & Hall). pose proof (Hall p Hp). pose proof (Hall q Hq). unfold side, root. cbn [bmax bmin]. lra. }
  assert (Wr : wf D root). { split; [auto|]. split; [auto|]. intros i Hi. apply (tight_le data i). apply Htt. auto. }
  assert (Pr : placed D (fst co) s0 0 root).
  { split; [exact Wr|]. split; [intros i Hi; cbn [level_sides]; rewrite Es0 by auto; reflexivity|]. intros i Hi. exists 1%Z. cbn [level_sides]. rewrite Es0 by auto. unfold side, root. cbn [bmax bmin]. change (inject_Z 1) with 1%Q. ring. }
  assert (Fp : Forall (leaf_placed data D levels dthr athr (fst co) s0) (leafs d)).
  { unfold create_directory in Ec. rewrite Eco in Ec. cbn [bind] in Ec. fold root in Ec.
    assert (Hdl : length (nth 0 data []) = D) by (apply Hd, nth_In; destruct data; [congruence|cbn; lia]). rewrite Hdl in Ec.
    destruct (Nat.eqb_spec levels 1) as [El|El].
    - apply Ok_inj in Ec. subst d. cbn [store_level leafs]. constructor; [|constructor]. exists 0. split; [lia|]. split; [exact Pr|]. right. lia.
    - destruct (Nat.eqb_spec D 0); [lia|]. apply Ok_inj in Ec. subst d. cbn [leafs]. eapply Permutation_Forall; [symmetry; apply sort_key_perm|].
      apply build_levels_placed; auto; [lia|lia|constructor]. }
  pose proof (few_neighbours data D levels dthr athr Hd HD (fst co) s0 Ls0 Hpos (leafs d) H2 Fp FO) as Few.
  (* allocation *)
  set (lb := leafs d) in *.
  assert (T : together data dthr athr lb 0 [] s2).
  { eapply (allocate_kept order Ho data dthr athr lb Few); [|exact E2]. eapply (center_rest data dthr athr lb 0); [| | |exact E1].
    - split; [apply repeat_length|]. cbn [app unhandled marks]. split; [apply NoDup_filter, seq_NoDup|]. intros k Hk. apply filter_In in Hk as (Hk & _). apply in_seq in Hk. split; [lia|apply nth_repeat].
    - intros k j _ Mk. cbn [marks] in Mk. rewrite nth_repeat in Mk. congruence.
    - intros k k' a a' _ _ _ _ [W|[[] _]]. cbn [marks] in W. rewrite nth_repeat in W. discriminate. }
  intros k k' Hk Hk' D1 A1 D2 A2 J1 J2.
  assert (F : forall x, (dthr < density data (nth x lb b0))%Q -> athr < amount data (nth x lb b0) -> is_sparse data dthr athr (nth x lb b0) = false).
  { intros x Dx Ax. unfold is_sparse. apply orb_false_iff. split; [|apply Nat.leb_gt; exact Ax]. destruct (Qle_bool _ _) eqn:Eq; [|reflexivity]. apply Qle_bool_iff in Eq. lra. }
  assert (N : forall b1 b2, wf D b2 -> adjacent D b1 b2 -> is_neighbor b1 b2 = true).
  { intros b1 b2 (Lb & _) J. unfold is_neighbor. rewrite Lb. apply Nat.eqb_eq. rewrite <- (seq_length D 0) at 2. f_equal. apply filter_true. intros i Hi. apply in_seq in Hi. apply Qle_bool_iff. specialize (J i ltac:(lia)). unfold side.
    eapply Qle_trans; [exact J|]. apply Qle_lteq. right. ring. }
  pose proof (F k D1 A1) as F1. pose proof (F k' D2 A2) as F2.
  destruct (nth k (marks s2) None) as [a|] eqn:M1; [|destruct (H3 k Hk F1 M1)]. destruct (nth k' (marks s2) None) as [a'|] eqn:M2; [|destruct (H3 k' Hk' F2 M2)].
  exists a. split; [reflexivity|]. f_equal. symmetry. apply (T k k' a a'); auto; [apply N; auto|apply N; auto|left; exact M1|left; exact M2].
Qed.
Print Assumptions C78_neighbours_partial.

(** four blocks above both thresholds: three in a row are one cluster, the fourth is far away *)
Definition w78_plane : list point := [[0; 0]; [1 # 2; 1 # 2]; [3 # 2; 1 # 2]; [3 # 2; 1 # 4]; [5 # 2; 1 # 2]; [9 # 4; 1 # 2]; [1 # 2; 3]; [1 # 4; 7 # 2]; [4; 4]]%Q.
Example C78_case_plane : valid w78_plane 2 5 0 /\ spread w78_plane 2 /\
  exists b d k k', process (fun l => l) w78_plane 5 0 1 initial = Ok b /\ dir b = Some d /\ k <> k' /\ k < length (leafs d) /\ k' < length (leafs d) /\
    (0 < density w78_plane (nth k (leafs d) b0))%Q /\ 1 < amount w78_plane (nth k (leafs d) b0) /\
    (0 < density w78_plane (nth k' (leafs d) b0))%Q /\ 1 < amount w78_plane (nth k' (leafs d) b0) /\
    adjacent 2 (nth k (leafs d) b0) (nth k' (leafs d) b0) /\ adjacent 2 (nth k' (leafs d) b0) (nth k (leafs d) b0) /\ length (clusters b) = 2.
Proof.
  split; [split; [|split; [lia|split; [discriminate|split; [lia|lra]]]]; intros p H; repeat (destruct H as [<-|H]; [reflexivity|]); destruct H|].
  split; [intros i Hi; exists [0; 0]%Q, [4; 4]%Q; split; [left; reflexivity|]; split; [cbn; auto 12|]; destruct i as [|[|i]]; [reflexivity|reflexivity|lia]|].
  eexists. eexists. exists 6, 7. split; [vm_compute; reflexivity|]. split; [reflexivity|]. split; [lia|]. split; [vm_compute; lia|]. split; [vm_compute; lia|].
  split; [vm_compute; reflexivity|]. split; [vm_compute; lia|]. split; [vm_compute; reflexivity|]. split; [vm_compute; lia|].
  split; [|split; [|reflexivity]]; intros i Hi; (destruct i as [|[|i]]; [| |lia]); vm_compute; discriminate.
Qed.
