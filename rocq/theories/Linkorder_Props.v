(** C263: single-link clusters do not depend on the order of the points when no two distances are the same. *)
From Verif Require Import Base Kmeans_Model Kmeans_Proofs Aggl_Model Aggl_Proofs Aggl_Props Reorder_Props.
Open Scope nat_scope.

(** ** specification *)
Definition together (groups : list (list nat)) (x y : nat) : Prop := exists c, In c groups /\ In x c /\ In y c.
Definition all_distances_differ (data : list point) : Prop :=
  forall i j k l, i < j -> j < length data -> k < l -> l < length data -> (sqdist (nth i data []) (nth j data []) == sqdist (nth k data []) (nth l data []))%Q -> i = k /\ j = l.

(** ** groups as labels *)
Fixpoint label (groups : list (list nat)) (x : nat) : nat :=
  match groups with [] => 0 | c :: t => if in_dec Nat.eq_dec x c then 0 else S (label t x) end.
Lemma label_in groups x : In x (concat groups) -> label groups x < length groups /\ In x (nth (label groups x) groups []).
Proof.
  induction groups as [|c t IH]; cbn [concat]; [intros []|]. intro H. apply in_app_iff in H. cbn [label length]. destruct (in_dec Nat.eq_dec x c) as [I|I]; [split; [lia|exact I]|].
  destruct IH as (A & B); [tauto|]. split; [lia|exact B].
Qed.
Lemma label_nth groups x k : NoDup (concat groups) -> k < length groups -> In x (nth k groups []) -> label groups x = k.
Proof.
  revert k. induction groups as [|c t IH]; cbn [concat length]; intros k N Hk I; [lia|]. apply NoDup_app_inv in N as (N1 & N2 & N3). cbn [label]. destruct k as [|k]; cbn [nth] in I.
  - destruct (in_dec Nat.eq_dec x c); [reflexivity|contradiction].
  - destruct (in_dec Nat.eq_dec x c) as [J|_].
    + exfalso. apply (N3 x J). apply in_concat. exists (nth k t []). split; [apply nth_In; lia|exact I].
    + f_equal. apply IH; auto. lia.
Qed.
Lemma together_label n groups x y : partitions n groups -> x < n -> y < n -> (together groups x y <-> label groups x = label groups y).
Proof.
  intros P Hx Hy. assert (N : NoDup (concat groups)) by (apply (Permutation_NoDup (Permutation_sym P)), seq_NoDup).
  assert (I : forall z, z < n -> In z (concat groups)) by (intros z Hz; apply (Permutation_in _ (Permutation_sym P)), in_seq; lia). split.
  - intros (c & Hc & H1 & H2). apply (In_nth _ _ []) in Hc as (k & Hk & <-). rewrite (label_nth groups x k), (label_nth groups y k); auto.
  - intro E. destruct (label_in groups x (I x Hx)) as (A & B). destruct (label_in groups y (I y Hy)) as (_ & C). exists (nth (label groups x) groups []). split; [now apply nth_In|]. split; [exact B|]. rewrite E. exact C.
Qed.
Lemma label_onto n groups k : partitions n groups -> no_empty groups -> k < length groups -> exists x, x < n /\ label groups x = k.
Proof.
  intros P E Hk. unfold no_empty in E. rewrite Forall_forall in E. pose proof (E _ (nth_In groups [] Hk)) as Ne. destruct (nth k groups []) as [|x t] eqn:Eg; [congruence|]. exists x. split.
  - assert (I : In x (concat groups)) by (apply in_concat; exists (nth k groups []); split; [now apply nth_In|rewrite Eg; now left]). apply (Permutation_in _ P), in_seq in I. lia.
  - apply label_nth; [apply (Permutation_NoDup (Permutation_sym P)), seq_NoDup|exact Hk|rewrite Eg; now left].
Qed.
(** a refinement with as many groups is the same division *)
Lemma refines_same n k (f g : nat -> nat) : (forall x, x < n -> f x < k) -> (forall x, x < n -> g x < k) -> (forall j, j < k -> exists x, x < n /\ f x = j) ->
  (forall x y, x < n -> y < n -> g x = g y -> f x = f y) -> forall x y, x < n -> y < n -> f x = f y -> g x = g y.
Proof.
  intros Hf Hg Of Hr x y Hx Hy E. set (h := fun l => f (hd 0 (filter (fun z => g z =? l) (seq 0 n)))).
  assert (Hh : forall z, z < n -> h (g z) = f z).
  { intros z Hz. unfold h. assert (I : In z (filter (fun w => g w =? g z) (seq 0 n))) by (apply filter_In; split; [apply in_seq; lia|apply Nat.eqb_refl]).
    destruct (filter (fun w => g w =? g z) (seq 0 n)) as [|w t] eqn:Ew; [destruct I|]. cbn [hd]. assert (J : In w (w :: t)) by now left. rewrite <- Ew in J. apply filter_In in J as (J1 & J2). apply in_seq in J1. apply Nat.eqb_eq in J2. apply Hr; auto. lia. }
  assert (N : NoDup (map h (seq 0 k))).
  { apply (NoDup_incl_NoDup (l := seq 0 k)); [apply seq_NoDup|rewrite map_length; lia|]. intros j Hj. apply in_seq in Hj. destruct (Of j ltac:(lia)) as (z & Hz & <-). rewrite <- (Hh z Hz). apply in_map, in_seq. split; [lia|]. now apply Hg. }
  rewrite <- (Hh x Hx), <- (Hh y Hy) in E. apply (proj1 (NoDup_nth (map h (seq 0 k)) 0) N); rewrite ?map_length, ?seq_length; [now apply Hg|now apply Hg|]. rewrite !nth_map_seq0 by (now apply Hg). exact E.
Qed.

Lemma exists_least {A} (key : A -> Q) l : l <> [] -> exists x, In x l /\ forall y, In y l -> (key x <= key y)%Q.
Proof.
  induction l as [|a t IH]; [congruence|]. intros _. destruct t as [|b t]; [exists a; split; [now left|]; intros y [<- | []]; apply Qle_refl|]. destruct IH as (m & Hm & L); [discriminate|].
  destruct (Qlt_le_dec (key a) (key m)) as [H|H].
  - exists a. split; [now left|]. intros y [<- | Hy]; [apply Qle_refl|]. apply Qle_trans with (key m); [now apply Qlt_le_weak|now apply L].
  - exists m. split; [now right|]. intros y [<- | Hy]; [exact H|now apply L].
Qed.

(** ** divisions whose groups are chained below every distance between groups *)
Section Unique.
Variables (n : nat) (D : nat -> nat -> Q).
Hypothesis D_sym : forall i j, (D i j == D j i)%Q.
Hypothesis D_differ : forall i j k l, i < j -> j < n -> k < l -> l < n -> (D i j == D k l)%Q -> i = k /\ j = l.

Definition gathered (groups : list (list nat)) : Prop := partitions n groups /\ no_empty groups /\
  forall c x y u v, In c groups -> In x c -> In y c -> u < n -> v < n -> ~ together groups u v -> chain D (D u v) (fun z => In z c) x y.

Lemma same_pair i j k l : i < n -> j < n -> k < n -> l < n -> i <> j -> k <> l -> (D i j == D k l)%Q -> i = k /\ j = l \/ i = l /\ j = k.
Proof.
  intros Hi Hj Hk Hl H1 H2 E. destruct (Nat.lt_ge_cases i j), (Nat.lt_ge_cases k l).
  - left. apply D_differ; auto.
  - right. apply D_differ; auto; [lia|]. now rewrite E, D_sym.
  - right. destruct (D_differ j i k l) as (-> & ->); auto; [lia|]. now rewrite D_sym.
  - left. destruct (D_differ j i l k) as (-> & ->); auto; try lia. now rewrite D_sym, E, D_sym.
Qed.

(** where a chain leaves a group *)
Lemma crossing groups c bound x y : partitions n groups -> (forall z, In z c -> z < n) -> In x c -> chain D bound (fun z => In z c) x y -> ~ together groups x y ->
  exists u v, In u c /\ In v c /\ (D u v <= bound)%Q /\ ~ together groups u v.
Proof.
  intros P Hc Hx H. assert (W : In y c /\ (~ together groups x y -> exists u v, In u c /\ In v c /\ (D u v <= bound)%Q /\ ~ together groups u v)); [|apply W].
  induction H as [x|x y z H IH Hz Hd].
  - split; [exact Hx|]. intro N. exfalso. apply N. apply (together_label n groups x x P); auto.
  - destruct (IH Hx) as (Hy & IH'). split; [exact Hz|]. intro N. destruct (Nat.eq_dec (label groups y) (label groups z)) as [E|E].
    + apply IH'. intro T. apply N. apply (together_label n groups x z P); auto. rewrite <- E. apply (together_label n groups x y P); auto.
    + exists y, z. split; [exact Hy|]. split; [exact Hz|]. split; [exact Hd|]. intro T. apply E. apply (together_label n groups y z P); auto.
Qed.

Lemma one_division P1 P2 : gathered P1 -> gathered P2 -> length P1 = length P2 -> forall x y, x < n -> y < n -> together P1 x y -> together P2 x y.
Proof.
  intros G1 G2 L x y Hx Hy T. destruct G1 as (A1 & B1 & C1), G2 as (A2 & B2 & C2).
  assert (In1 : forall c z, In c P1 -> In z c -> z < n) by (intros c z Hc Hz; assert (I : In z (concat P1)) by (apply in_concat; eauto); apply (Permutation_in _ A1), in_seq in I; lia).
  assert (In2 : forall c z, In c P2 -> In z c -> z < n) by (intros c z Hc Hz; assert (I : In z (concat P2)) by (apply in_concat; eauto); apply (Permutation_in _ A2), in_seq in I; lia).
  apply (together_label n P2 x y A2 Hx Hy). destruct (Nat.eq_dec (label P2 x) (label P2 y)) as [E|N]; [exact E|exfalso].
  (* P2 is no refinement of P1, or both would be the same *)
  assert (R : exists x' y', x' < n /\ y' < n /\ label P2 x' = label P2 y' /\ label P1 x' <> label P1 y').
  { destruct (existsb (fun a => existsb (fun b => (label P2 a =? label P2 b) && negb (label P1 a =? label P1 b)) (seq 0 n)) (seq 0 n)) eqn:Ex.
    - apply existsb_exists in Ex as (a & Ha & Eb). apply existsb_exists in Eb as (b & Hb & E). apply andb_true_iff in E as (E1 & E2). apply Nat.eqb_eq in E1. apply negb_true_iff, Nat.eqb_neq in E2. apply in_seq in Ha, Hb. exists a, b. repeat split; auto; lia.
    - exfalso. apply N. assert (I1 : forall z, z < n -> label P1 z < length P1) by (intros z Hz; apply label_in, (Permutation_in _ (Permutation_sym A1)), in_seq; lia).
      assert (I2 : forall z, z < n -> label P2 z < length P1) by (intros z Hz; rewrite L; apply label_in, (Permutation_in _ (Permutation_sym A2)), in_seq; lia).
      apply (refines_same n (length P1) (label P1) (label P2) I1 I2); auto.
      + intros j Hj. apply (label_onto n P1 j A1 B1 Hj).
      + intros a b Ha Hb E. destruct (Nat.eq_dec (label P1 a) (label P1 b)) as [e|ne]; [exact e|exfalso]. assert (Z : existsb (fun a => existsb (fun b => (label P2 a =? label P2 b) && negb (label P1 a =? label P1 b)) (seq 0 n)) (seq 0 n) = true).
        { apply existsb_exists. exists a. split; [apply in_seq; lia|]. apply existsb_exists. exists b. split; [apply in_seq; lia|]. rewrite (proj2 (Nat.eqb_eq _ _) E), (proj2 (Nat.eqb_neq _ _) ne). reflexivity. }
        congruence.
      + apply (together_label n P1 x y A1); auto. }
  destruct R as (x' & y' & Hx' & Hy' & S2 & N1).
  assert (T2 : together P2 x' y') by (apply (together_label n P2 x' y' A2); auto).
  assert (NT1 : ~ together P1 x' y') by (intro W; apply N1, (together_label n P1 x' y' A1); auto).
  assert (NT2 : ~ together P2 x y) by (intro W; apply N, (together_label n P2 x y A2); auto).
  destruct T as (c & Hc & Tx & Ty). destruct T2 as (c2 & Hc2 & Tx2 & Ty2).
  (* the closest points of different groups of P1 *)
  destruct (exists_least (fun ab => D (fst ab) (snd ab)) (filter (fun ab => negb (label P1 (fst ab) =? label P1 (snd ab))) (list_prod (seq 0 n) (seq 0 n)))) as ((a & b) & Hab & Least).
  { intro W. assert (I : In (x', y') []); [|destruct I]. rewrite <- W. apply filter_In. split; [apply in_prod; apply in_seq; lia|]. cbn [fst snd]. apply negb_true_iff, Nat.eqb_neq, N1. }
  apply filter_In in Hab as (Hab & Nab). apply in_prod_iff in Hab as (Ha & Hb). apply in_seq in Ha, Hb. cbn [fst snd] in Nab, Least. apply negb_true_iff, Nat.eqb_neq in Nab.
  assert (NTab : ~ together P1 a b) by (intro W; apply Nab, (together_label n P1 a b A1); auto; lia).
  destruct (crossing P2 c _ x y A2 (fun z => In1 c z Hc) Tx (C1 c x y a b Hc Tx Ty ltac:(lia) ltac:(lia) NTab) NT2) as (u & v & Hu & Hv & Duv & NTuv).
  pose proof (In1 c u Hc Hu) as Bu. pose proof (In1 c v Hc Hv) as Bv.
  destruct (crossing P1 c2 _ x' y' A1 (fun z => In2 c2 z Hc2) Tx2 (C2 c2 x' y' u v Hc2 Tx2 Ty2 Bu Bv NTuv) NT1) as (a' & b' & Ha' & Hb' & Dab' & NTab').
  pose proof (In2 c2 a' Hc2 Ha') as Ba'. pose proof (In2 c2 b' Hc2 Hb') as Bb'.
  assert (W : (D a b <= D a' b')%Q).
  { apply (Least (a', b')). apply filter_In. split; [apply in_prod; apply in_seq; lia|]. cbn [fst snd]. apply negb_true_iff, Nat.eqb_neq. intro E. apply NTab', (together_label n P1 a' b' A1); auto. }
  assert (E : (D u v == D a b)%Q) by (apply Qle_antisym; [exact Duv|]; eapply Qle_trans; [exact W|exact Dab']).
  assert (u <> v) by (intros ->; apply NTuv, (together_label n P2 v v A2); auto). assert (a <> b) by (intros ->; apply Nab; reflexivity).
  apply NTab. destruct (same_pair u v a b) as [(-> & ->)|(-> & ->)]; auto; try lia; exists c; auto.
Qed.
End Unique.

(** ** the order of the points *)
Lemma single_gathered data number s : data <> [] -> uniform (dimension data) data -> 1 <= number -> agglomerative data SingleLink number = Ok s ->
  gathered (length data) (fun i j => sqdist (nth i data []) (nth j data [])) (clusters s) /\ length (clusters s) = Nat.min (length data) number.
Proof.
  intros Hd Hu Hn E. destruct (C20_agglomerative_partition data SingleLink number Hd Hu Hn) as (s' & E' & P & N & L & _). assert (s' = s) as -> by congruence. split; [|exact L]. split; [exact P|]. split; [exact N|].
  intros c x y u v Hc Hx Hy Bu Bv NT. assert (I : forall z, z < length data -> In z (concat (clusters s))) by (intros z Hz; apply (Permutation_in _ (Permutation_sym P)), in_seq; lia).
  destruct (label_in _ u (I u Bu)) as (U1 & U2). destruct (label_in _ v (I v Bv)) as (V1 & V2).
  assert (Ne : label (clusters s) u <> label (clusters s) v) by (intro W; apply NT, (together_label (length data) (clusters s) u v P); auto).
  destruct (Nat.lt_ge_cases (label (clusters s) u) (label (clusters s) v)) as [Lt|Ge].
  - exact (C21_single_link data number s Hd Hu Hn E c x y Hc Hx Hy _ _ u v Lt V1 U2 V2).
  - assert (Lt : label (clusters s) v < label (clusters s) u) by lia.
    eapply chain_weaken; [|intros z Hz; exact Hz|exact (C21_single_link data number s Hd Hu Hn E c x y Hc Hx Hy _ _ v u Lt U1 V2 U2)]. rewrite sqdist_sym. apply Qle_refl.
Qed.

(** the result is the only division into as many groups with this property *)
Theorem C263_unique data number s groups : data <> [] -> uniform (dimension data) data -> 1 <= number -> all_distances_differ data -> agglomerative data SingleLink number = Ok s ->
  partitions (length data) groups -> no_empty groups -> length groups = Nat.min (length data) number ->
  (forall c x y u v, In c groups -> In x c -> In y c -> u < length data -> v < length data -> ~ together groups u v ->
     chain (fun i j => sqdist (nth i data []) (nth j data [])) (sqdist (nth u data []) (nth v data [])) (fun z => In z c) x y) ->
  forall x y, x < length data -> y < length data -> (together (clusters s) x y <-> together groups x y).
Proof.
  intros Hd Hu Hn Df E P N L C x y Hx Hy. destruct (single_gathered data number s Hd Hu Hn E) as (G & Ls).
  assert (Sym : forall i j, (sqdist (nth i data []) (nth j data []) == sqdist (nth j data []) (nth i data []))%Q) by (intros; apply sqdist_sym).
  assert (G' : gathered (length data) (fun i j => sqdist (nth i data []) (nth j data [])) groups) by (split; [exact P|]; split; [exact N|exact C]).
  split; eapply (one_division _ _ Sym Df); eauto; congruence.
Qed.
Print Assumptions C263_unique.

Theorem C263_order data number ord s s' : data <> [] -> uniform (dimension data) data -> 1 <= number -> all_distances_differ data -> Permutation ord (seq 0 (length data)) ->
  agglomerative data SingleLink number = Ok s -> agglomerative (pick data ord) SingleLink number = Ok s' ->
  length (clusters s') = length (clusters s) /\
  forall x y, x < length data -> y < length data -> (together (clusters s') x y <-> together (clusters s) (nth x ord 0) (nth y ord 0)).
Proof.
  intros Hd Hu Hn Df Ho E E'. assert (Lo : length ord = length data) by (rewrite (Permutation_length Ho); apply seq_length).
  assert (Ob : forall i, i < length data -> nth i ord 0 < length data). { intros i Hi. assert (I : In (nth i ord 0) ord) by (apply nth_In; lia). apply (Permutation_in _ Ho), in_seq in I. lia. }
  assert (Ld : length (pick data ord) = length data) by (unfold pick; now rewrite map_length).
  assert (Hd' : pick data ord <> []) by (intro W; rewrite W in Ld; destruct data; [congruence|discriminate]).
  assert (Nth : forall k, k < length data -> nth k (pick data ord) [] = nth (nth k ord 0) data []). { intros k Hk. unfold pick. rewrite (nth_indep _ [] (nth 0 data [])) by (rewrite map_length; lia). apply (map_nth (fun i => nth i data []) ord 0). }
  assert (Hpick : forall p, In p (pick data ord) -> In p data). { intros p Hp. unfold pick in Hp. apply in_map_iff in Hp as (i & <- & Hi). apply nth_In. apply (Permutation_in _ Ho), in_seq in Hi. lia. }
  assert (Hu' : uniform (dimension (pick data ord)) (pick data ord)).
  { intros p Hp. rewrite (Hu p (Hpick p Hp)). unfold dimension at 2. symmetry. apply Hu, Hpick, nth_In. destruct (pick data ord); [congruence|cbn; lia]. }
  destruct (single_gathered (pick data ord) number s' Hd' Hu' Hn E') as ((P' & N' & C') & L'). rewrite Ld in *.
  destruct (single_gathered data number s Hd Hu Hn E) as (_ & L). split; [congruence|].
  set (f := fun i => nth i ord 0) in *. set (groups := map (map f) (clusters s')).
  assert (Inj : forall i j, i < length data -> j < length data -> f i = f j -> i = j). { intros i j Hi Hj W. apply (proj1 (NoDup_nth ord 0)); rewrite ?Lo; auto. apply (Permutation_NoDup (Permutation_sym Ho)), seq_NoDup. }
  assert (Bc : forall c z, In c (clusters s') -> In z c -> z < length data). { intros c z Hc Hz. assert (I : In z (concat (clusters s'))) by (apply in_concat; eauto). apply (Permutation_in _ P'), in_seq in I. lia. }
  assert (T : forall x y, x < length data -> y < length data -> (together groups (f x) (f y) <-> together (clusters s') x y)).
  { intros x y Hx Hy. split.
    - intros (g & Hg & H1 & H2). apply in_map_iff in Hg as (c & <- & Hc). exists c. split; [exact Hc|]. apply in_map_iff in H1 as (a & Ea & Ha). apply in_map_iff in H2 as (b & Eb & Hb). apply Inj in Ea; [|eapply Bc; eauto|exact Hx]. apply Inj in Eb; [|eapply Bc; eauto|exact Hy]. subst. auto.
    - intros (c & Hc & H1 & H2). exists (map f c). split; [now apply in_map|]. split; now apply in_map. }
  assert (On : forall u, u < length data -> exists x, x < length data /\ f x = u). { intros u Bu. assert (I : In u ord) by (apply (Permutation_in _ (Permutation_sym Ho)), in_seq; lia). apply (In_nth _ _ 0) in I as (x & Hx & W). exists x. split; [lia|exact W]. }
  intros x y Hx Hy. rewrite <- T by assumption. symmetry. apply (C263_unique data number s groups); auto.
  - unfold partitions, groups. rewrite <- concat_map. eapply Permutation_trans; [apply Permutation_map, P'|]. assert (W : map f (seq 0 (length data)) = ord) by (rewrite <- Lo; apply positions). rewrite W. exact Ho.
  - unfold no_empty, groups in *. rewrite Forall_forall in *. intros g Hg. apply in_map_iff in Hg as (c & <- & Hc). specialize (N' c Hc). destruct c; [congruence|discriminate].
  - unfold groups. now rewrite map_length.
  - intros g a b u v Hg Ha Hb Bu Bv NT. apply in_map_iff in Hg as (c & <- & Hc). apply in_map_iff in Ha as (x0 & <- & Hx0). apply in_map_iff in Hb as (y0 & <- & Hy0). destruct (On u Bu) as (u0 & Bu0 & <-). destruct (On v Bv) as (v0 & Bv0 & <-).
    assert (NT' : ~ together (clusters s') u0 v0) by (intro W; apply NT, T; assumption). specialize (C' c x0 y0 u0 v0 Hc Hx0 Hy0 Bu0 Bv0 NT'). rewrite !Nth in C' by assumption. fold (f u0) (f v0) in C'.
    assert (G : In y0 c /\ chain (fun i j => sqdist (nth i data []) (nth j data [])) (sqdist (nth (f u0) data []) (nth (f v0) data [])) (fun z => In z (map f c)) (f x0) (f y0)); [|apply G]. clear Hy0.
    induction C' as [x0|x0 y0 z0 H IH Hz Hdz]; [split; [exact Hx0|constructor]|]. destruct (IH Hx0) as (Iy & G). split; [exact Hz|]. eapply chain_hop; [exact G|now apply in_map|]. rewrite !Nth in Hdz by (eapply Bc; eauto). exact Hdz.
  - now apply Ob.
  - now apply Ob.
Qed.
Print Assumptions C263_order.

(** with equal distances the order decides *)
Theorem C263_ties_refuted : exists data ord s s', Permutation ord (seq 0 (length data)) /\ agglomerative data SingleLink 2 = Ok s /\ agglomerative (pick data ord) SingleLink 2 = Ok s' /\
  exists x y, x < length data /\ y < length data /\ together (clusters s) (nth x ord 0) (nth y ord 0) /\ ~ together (clusters s') x y.
Proof.
  exists [[0%Q]; [1%Q]; [2%Q]], [2; 1; 0]. eexists. eexists. split; [apply Permutation_sym, (Permutation_rev [0; 1; 2])|]. split; [vm_compute; reflexivity|]. split; [vm_compute; reflexivity|].
  exists 1, 2. split; [cbn; lia|]. split; [cbn; lia|]. cbn. split; [exists [0; 1]; cbn; auto|]. intros (c & [<- | [<- | []]] & H1 & H2); cbn in *; lia.
Qed.
Print Assumptions C263_ties_refuted.

Example C263_example : let data2 := [[0]; [1]; [11]; [4]]%Q in let ord := [2; 0; 3; 1] in
  all_distances_differ data2 /\ Permutation ord (seq 0 4) /\ uniform (dimension data2) data2 /\
  (exists s, agglomerative data2 SingleLink 2 = Ok s /\ clusters s = [[0; 1; 3]; [2]]) /\ (exists s, agglomerative (pick data2 ord) SingleLink 2 = Ok s /\ together (clusters s) 1 2 /\ length (clusters s) = 2).
Proof.
  split; [|split; [|split; [|split]]].
  - intros [|[|[|[|i]]]] [|[|[|[|j]]]] [|[|[|[|k]]]] [|[|[|[|l]]]] H1 H2 H3 H4 E; cbn in H1, H2, H3, H4; try lia; try (split; reflexivity); exfalso; revert E; vm_compute; discriminate.
  - apply (Permutation_count_occ Nat.eq_dec). intro x. do 5 (destruct x; [reflexivity|]). reflexivity.
  - intros p Hp. cbn in Hp. intuition; subst; reflexivity.
  - eexists. split; vm_compute; reflexivity.
  - eexists. split; [vm_compute; reflexivity|]. cbn. split; [|reflexivity]. eexists. split; [right; left; reflexivity|]. cbn. auto.
Qed.
