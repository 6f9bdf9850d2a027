(** ROCK: specification and proofs. *)
From Verif Require Import Base Kmeans_Model Kmeans_Proofs Bsas_Proofs Aggl_Model Aggl_Proofs Rock_Model.
From Coq Require Import Reals Lra.

(** * Specification *)
(** number of pairs of different points of two clusters within eps *)
Definition links (data : list point) (eps : Q) (c1 c2 : list nat) (n : nat) : Prop :=
  exists l, NoDup l /\ length l = n /\
    forall a b, In (a, b) l <-> In a c1 /\ In b c2 /\ a <> b /\ (sqdist (nth a data []) (nth b data []) <= eps * eps)%Q.

(** the goodness of merging two clusters as the ROCK paper defines it *)
Definition goodness (data : list point) (eps : Q) (theta : R) (c1 c2 : list nat) (g : R) : Prop :=
  let f := (1 + 2 * ((1 - theta) / (1 + theta)))%R in
  let n1 := INR (length c1) in let n2 := INR (length c2) in
  exists n, links data eps c1 c2 n /\ (g * (Rpower (n1 + n2) f - Rpower n1 f - Rpower n2 f) = INR n)%R.

(** one merge of a pair of clusters with the greatest goodness, which is positive *)
Definition rock_merge (data : list point) (eps : Q) (theta : R) (cl cl' : list (list nat)) : Prop :=
  exists before mid after ci cj g,
    cl = before ++ ci :: mid ++ cj :: after /\ cl' = before ++ (ci ++ cj) :: mid ++ after /\
    (0 < g)%R /\ goodness data eps theta ci cj g /\
    forall a b w, a < b -> b < length cl -> goodness data eps theta (nth a cl []) (nth b cl []) w -> (w <= g)%R.

Inductive rock_run (data : list point) (eps : Q) (theta : R) : list (list nat) -> list (list nat) -> Prop :=
| run_here cl : rock_run data eps theta cl cl
| run_merge cl cl' cl'' : rock_run data eps theta cl cl' -> rock_merge data eps theta cl' cl'' -> rock_run data eps theta cl cl''.

(** * Proofs *)
Section Proofs.
Variable data : list point.
Variable eps : Q.
Variable threshold : R.
Hypothesis Ht0 : (0 <= threshold)%R.
Hypothesis Ht1 : (threshold < 1)%R.

Lemma degree_gt1 : (1 < degree_normalization threshold)%R.
Proof.
  unfold degree_normalization. assert (0 < (1 - threshold) / (1 + threshold))%R; [|lra]. apply Rdiv_lt_0_compat; lra.
Qed.

Lemma power_super a b f : (0 < a)%R -> (0 < b)%R -> (1 < f)%R -> (Rpower a f + Rpower b f < Rpower (a + b) f)%R.
Proof.
  intros Ha Hb Hf. replace f with (1 + (f - 1))%R by ring. rewrite !Rpower_plus, !Rpower_1 by lra.
  assert (H1 : (Rpower a (f - 1) < Rpower (a + b) (f - 1))%R) by (apply Rlt_Rpower_l; lra).
  assert (H2 : (Rpower b (f - 1) < Rpower (a + b) (f - 1))%R) by (apply Rlt_Rpower_l; lra).
  rewrite Rmult_plus_distr_r. apply Rplus_lt_compat; apply Rmult_lt_compat_l; auto.
Qed.

Lemma devider_pos n1 n2 : 1 <= n1 -> 1 <= n2 -> (0 < devider threshold n1 n2)%R.
Proof.
  intros H1 H2. unfold devider. rewrite plus_INR. apply le_INR in H1, H2. simpl in H1, H2.
  pose proof (power_super (INR n1) (INR n2) (degree_normalization threshold) ltac:(lra) ltac:(lra) degree_gt1). lra.
Qed.

Lemma NoDup_list_prod {A B} (l1 : list A) (l2 : list B) : NoDup l1 -> NoDup l2 -> NoDup (list_prod l1 l2).
Proof.
  intros H1 H2. induction H1 as [|a t Hn H1 IH]; simpl; [constructor|]. apply NoDup_app_intro; auto.
  - apply FinFun.Injective_map_NoDup; auto. intros x y E. congruence.
  - intros [p q] Hp Hq. apply in_map_iff in Hp as [b [E Hb]]. injection E as <- <-. apply in_prod_iff in Hq as [Hq _]. auto.
Qed.

Lemma links_spec c1 c2 : NoDup c1 -> NoDup c2 -> links data eps c1 c2 (calculate_links data eps c1 c2).
Proof.
  intros H1 H2. exists (filter (fun ab => adjacent data eps (fst ab) (snd ab)) (list_prod c1 c2)). split; [apply NoDup_filter, NoDup_list_prod; auto|]. split; [reflexivity|].
  intros a b. rewrite filter_In, in_prod_iff. unfold adjacent. cbn [fst snd]. rewrite andb_true_iff, negb_true_iff, Nat.eqb_neq, Qle_bool_iff. tauto.
Qed.

Lemma links_unique c1 c2 n m : links data eps c1 c2 n -> links data eps c1 c2 m -> n = m.
Proof.
  intros (l & N & E & H) (l' & N' & E' & H'). subst. apply Permutation_length, NoDup_Permutation; auto. intros [a b]. rewrite H, H'. tauto.
Qed.

Lemma goodness_spec c1 c2 : NoDup c1 -> NoDup c2 -> c1 <> [] -> c2 <> [] ->
  exists g, calculate_goodness data eps threshold c1 c2 = Ok g /\ goodness data eps threshold c1 c2 g /\
    ((0 < g)%R <-> 0 < calculate_links data eps c1 c2).
Proof.
  intros D1 D2 N1 N2. unfold calculate_goodness.
  assert (Hp : (0 < devider threshold (length c1) (length c2))%R) by (apply devider_pos; [destruct c1|destruct c2]; simpl; try congruence; lia).
  destruct (Req_EM_T _ 0) as [E|E]; [lra|]. eexists. split; [reflexivity|]. split.
  - exists (calculate_links data eps c1 c2). split; [apply links_spec; auto|]. rewrite <- plus_INR. fold (degree_normalization threshold). fold (devider threshold (length c1) (length c2)). field. auto.
  - split.
    + intros H. destruct (calculate_links data eps c1 c2); [simpl in H; unfold Rdiv in H; lra|lia].
    + intros H. apply Rdiv_lt_0_compat; auto. apply lt_0_INR. auto.
Qed.

Lemma goodness_unique c1 c2 g w : c1 <> [] -> c2 <> [] -> goodness data eps threshold c1 c2 g -> goodness data eps threshold c1 c2 w -> g = w.
Proof.
  intros N1 N2 (n & L & E) (m & L' & E'). pose proof (links_unique _ _ _ _ L L') as <-. rewrite <- E' in E. rewrite <- plus_INR in E.
  fold (degree_normalization threshold) in E. fold (devider threshold (length c1) (length c2)) in E.
  apply Rmult_eq_reg_r in E; auto. assert (0 < devider threshold (length c1) (length c2))%R; [|lra]. apply devider_pos; [destruct c1|destruct c2]; simpl; try congruence; lia.
Qed.

Definition rgood (cl : list (list nat)) : Prop := partitions (length data) cl /\ no_empty cl.

Lemma part_nodup cl k : rgood cl -> NoDup (nth k cl []).
Proof.
  intros [H1 _]. assert (Hn : NoDup (concat cl)) by (apply (Permutation_NoDup (Permutation_sym H1)), seq_NoDup).
  clear H1. revert k. induction cl as [|c t IH]; intros [|k]; simpl in *; try constructor.
  - apply NoDup_app_inv in Hn. tauto.
  - apply NoDup_app_inv in Hn. apply IH. tauto.
Qed.

Lemma find_loop_spec cl : rgood cl -> forall ps m b, (forall i j, In (i, j) ps -> i < j /\ j < length cl) -> (0 <= m)%R ->
  exists r, find_loop data eps threshold cl ps m b = Ok r /\
    ((r = b /\ forall i j g, In (i, j) ps -> goodness data eps threshold (nth i cl []) (nth j cl []) g -> (g <= m)%R) \/
     (exists i j g, r = Some (i, j) /\ In (i, j) ps /\ goodness data eps threshold (nth i cl []) (nth j cl []) g /\ (m < g)%R /\
        forall p q w, In (p, q) ps -> goodness data eps threshold (nth p cl []) (nth q cl []) w -> (w <= g)%R)).
Proof.
  intros HI. pose proof HI as [HP HN]. induction ps as [|[i j] ps IH]; intros m b Hps Hm; cbn [find_loop].
  - exists b. split; auto. left. split; auto. intros i j g [].
  - destruct (Hps i j ltac:(left; auto)) as [Hij Hj].
    pose proof (no_empty_nth _ i HN ltac:(lia)) as Ni. pose proof (no_empty_nth _ j HN Hj) as Nj.
    destruct (goodness_spec (nth i cl []) (nth j cl [])) as (g & Eg & Hg & _); auto using part_nodup. rewrite Eg. cbn [bind].
    destruct (Rlt_dec m g) as [Hlt|Hge].
    + destruct (IH g (Some (i, j)) ltac:(intros; apply Hps; right; auto) ltac:(lra)) as (r & Er & [[-> Hall]|(p & q & w & -> & Hin & Hw & Hlt' & Hall)]).
      * exists (Some (i, j)). split; auto. right. exists i, j, g. split; auto. split; [left; auto|]. split; auto. split; auto.
        intros p q w [E|Hin] Hw; [injection E as <- <-; rewrite (goodness_unique _ _ _ _ Ni Nj Hg Hw); apply Rle_refl|eauto].
      * exists (Some (p, q)). split; auto. right. exists p, q, w. split; auto. split; [right; auto|]. split; auto. split; [lra|].
        intros p' q' w' [E|Hin'] Hw'; [injection E as <- <-; rewrite (goodness_unique _ _ _ _ Ni Nj Hw' Hg); lra|eauto].
    + destruct (IH m b ltac:(intros; apply Hps; right; auto) Hm) as (r & Er & [[-> Hall]|(p & q & w & -> & Hin & Hw & Hlt' & Hall)]).
      * exists b. split; auto. left. split; auto. intros p q w [E|Hin] Hw; [injection E as <- <-; rewrite (goodness_unique _ _ _ _ Ni Nj Hw Hg); lra|eauto].
      * exists (Some (p, q)). split; auto. right. exists p, q, w. split; auto. split; [right; auto|]. split; auto. split; auto.
        intros p' q' w' [E|Hin'] Hw'; [injection E as <- <-; rewrite (goodness_unique _ _ _ _ Ni Nj Hw' Hg); lra|eauto].
Qed.

Lemma merged_good cl before mid after ci cj : rgood cl -> cl = before ++ ci :: mid ++ cj :: after -> rgood (before ++ (ci ++ cj) :: mid ++ after).
Proof.
  intros [H1 H2] Ec. split.
  - unfold partitions in *. apply Permutation_trans with (concat cl); auto. rewrite Ec.
    rewrite !concat_app. simpl. rewrite !concat_app. simpl. apply Permutation_app_head. rewrite <- !app_assoc. apply Permutation_app_head.
    rewrite !app_assoc. apply Permutation_app_tail. apply Permutation_app_comm.
  - unfold no_empty in *. rewrite Ec in H2. apply Forall_app in H2 as [F1 F2]. inversion F2 as [|? ? F3 F4]; subst. apply Forall_app in F4 as [F5 F6]. inversion F6; subst.
    apply Forall_app. split; auto. constructor; [destruct ci; [congruence|discriminate]|]. apply Forall_app. auto.
Qed.

Notation D := (fun a b => sqdist (nth a data []) (nth b data [])).

(** no two clusters of different position hold points within eps *)
Definition apart (cl : list (list nat)) : Prop :=
  forall a b x y, a < b -> b < length cl -> In x (nth a cl []) -> In y (nth b cl []) -> (eps * eps < D x y)%Q.

Lemma no_pair_apart cl : rgood cl ->
  (forall i j g, In (i, j) (pairs (length cl)) -> goodness data eps threshold (nth i cl []) (nth j cl []) g -> (g <= 0)%R) -> apart cl.
Proof.
  intros HI Hall a b x y Hab Hb Hx Hy. pose proof HI as [HP HN].
  destruct (goodness_spec (nth a cl []) (nth b cl [])) as (g & _ & Hg & Hpos); auto using part_nodup. 1,2: apply no_empty_nth; auto; lia.
  specialize (Hall a b g ltac:(apply pairs_in; auto) Hg). apply Qnot_le_lt. intros Hle.
  assert (Hlink : 0 < calculate_links data eps (nth a cl []) (nth b cl [])).
  { unfold calculate_links. destruct (filter _ _) eqn:E; [|simpl; lia]. exfalso.
    assert (Hin : In (x, y) []); [|contradiction]. rewrite <- E. apply filter_In. split; [apply in_prod; auto|]. cbn [fst snd]. unfold adjacent.
    rewrite andb_true_iff, negb_true_iff, Nat.eqb_neq, Qle_bool_iff. split; auto. intros ->.
    assert (Hn : NoDup (concat cl)) by (apply (Permutation_NoDup (Permutation_sym HP)), seq_NoDup).
    pose proof (concat_nodup_inj cl Hn a b y Hx Hy). lia. }
  apply Hpos in Hlink. lra.
Qed.

Lemma rock_loop_spec fuel number : 1 <= number -> forall cl, rgood cl -> length cl <= fuel + number ->
  exists cl', rock_loop data eps threshold fuel number cl = Ok cl' /\ rgood cl' /\ rock_run data eps threshold cl cl' /\
    Nat.min number (length cl) <= length cl' /\ (number < length cl' -> apart cl').
Proof.
  intros Hn. induction fuel as [|fuel IH]; intros cl HI Hl; cbn [rock_loop].
  - destruct (Nat.ltb_spec number (length cl)); [lia|]. exists cl. split; auto. split; auto. split; [constructor|]. split; lia.
  - destruct (Nat.ltb_spec number (length cl)).
    2:{ exists cl. split; auto. split; auto. split; [constructor|]. split; lia. }
    unfold find_pair_clusters. destruct (find_loop_spec cl HI (pairs (length cl)) 0%R None ltac:(intros i j Hin; apply pairs_in; auto) (Rle_refl _)) as (r & Er & Hr).
    rewrite Er. cbn [bind]. destruct Hr as [[-> Hall]|(i & j & g & -> & Hin & Hg & Hpos & Hall)].
    + exists cl. split; auto. split; auto. split; [constructor|]. split; [lia|]. intros _. apply no_pair_apart; auto.
    + apply pairs_in in Hin as [Hij Hj]. destruct (split_two cl i j [] Hij Hj) as (before & mid & after & Ec & Ei & Ej).
      rewrite (merged_list cl i j _ [] before mid after Ec Ei Ej).
      pose proof (merged_good cl before mid after _ _ HI Ec) as HI'.
      assert (Hlen : S (length (before ++ (nth i cl [] ++ nth j cl []) :: mid ++ after)) = length cl).
      { assert (Ecl : length cl = length before + length mid + length after + 2) by (rewrite Ec, !app_length; simpl; rewrite !app_length; simpl; lia).
        rewrite !app_length. simpl. rewrite !app_length. lia. }
      destruct (IH _ HI' ltac:(lia)) as (cl' & E & I' & R & L & A). exists cl'. split; auto. split; auto. split; [|split; [lia|auto]].
      assert (B : rock_merge data eps threshold cl (before ++ (nth i cl [] ++ nth j cl []) :: mid ++ after)).
      { exists before, mid, after, (nth i cl []), (nth j cl []), g. split; auto. split; auto. split; auto. split; auto.
        intros a b w Hab Hb Hw. apply (Hall a b); auto. apply pairs_in. auto. }
      clear - B R. induction R as [|c1 c2 c3 R IH B']; [apply run_merge with cl; [constructor|auto]|]. apply run_merge with c2; auto.
Qed.

(** clusters stay connected *)
Definition linked (cl : list (list nat)) : Prop :=
  forall c x y, In c cl -> In x c -> In y c -> chain D (eps * eps) (fun z => In z c) x y.

Lemma merge_linked cl cl' : rock_merge data eps threshold cl cl' -> no_empty cl -> linked cl -> linked cl'.
Proof.
  intros (before & mid & after & ci & cj & g & Ec & Ec' & Hg & Hgood & _) HN HL c x y Hin Hx Hy.
  assert (Hin_i : In ci cl) by (rewrite Ec; apply in_app_iff; right; left; auto).
  assert (Hin_j : In cj cl) by (rewrite Ec; apply in_app_iff; right; right; apply in_app_iff; right; left; auto).
  assert (Hlink : exists a b, In a ci /\ In b cj /\ (D a b <= eps * eps)%Q).
  { destruct Hgood as (n & (l & Nd & El & Hl) & E). destruct l as [|[a b] l].
    - simpl in El. subst n. simpl in E. exfalso.
      assert (Hd : (0 < devider threshold (length ci) (length cj))%R).
      { apply devider_pos; [apply (proj1 (Forall_forall _ _) HN) in Hin_i; destruct ci|apply (proj1 (Forall_forall _ _) HN) in Hin_j; destruct cj]; simpl; try congruence; lia. }
      unfold devider in Hd. rewrite plus_INR in Hd. unfold degree_normalization in Hd. pose proof (Rmult_lt_0_compat _ _ Hg Hd). lra.
    - exists a, b. destruct (proj1 (Hl a b) ltac:(left; auto)) as (H1 & H2 & _ & H3). auto. }
  rewrite Ec' in Hin. apply in_app_iff in Hin as [Hin|[E|Hin]].
  - apply HL; auto. rewrite Ec. apply in_app_iff. auto.
  - subst c. destruct Hlink as (a & b & Ha & Hb & Hle). apply in_app_iff in Hx, Hy.
    assert (Wi : forall z, In z ci -> In z (ci ++ cj)) by (intros; apply in_app_iff; auto).
    assert (Wj : forall z, In z cj -> In z (ci ++ cj)) by (intros; apply in_app_iff; auto).
    assert (Ci : forall x y, In x ci -> In y ci -> chain D (eps * eps) (fun z => In z (ci ++ cj)) x y) by (intros; eapply chain_weaken; [apply Qle_refl| |apply (HL ci); auto]; auto).
    assert (Cj : forall x y, In x cj -> In y cj -> chain D (eps * eps) (fun z => In z (ci ++ cj)) x y) by (intros; eapply chain_weaken; [apply Qle_refl| |apply (HL cj); auto]; auto).
    assert (Hab : chain D (eps * eps) (fun z => In z (ci ++ cj)) a b) by (eapply chain_hop; [constructor|auto|exact Hle]).
    assert (Hba : chain D (eps * eps) (fun z => In z (ci ++ cj)) b a) by (eapply chain_hop; [constructor|auto|rewrite sqdist_sym; exact Hle]).
    destruct Hx as [Hx|Hx], Hy as [Hy|Hy]; auto.
    + apply chain_trans with a; auto. apply chain_trans with b; auto.
    + apply chain_trans with b; auto. apply chain_trans with a; auto.
  - apply HL; auto. rewrite Ec. apply in_app_iff. right. right. apply in_app_iff in Hin. apply in_app_iff. destruct Hin; auto. right. right. auto.
Qed.

Lemma merge_good cl cl' : rock_merge data eps threshold cl cl' -> rgood cl -> rgood cl'.
Proof. intros (before & mid & after & ci & cj & g & Ec & -> & _) HI. eapply merged_good; eauto. Qed.

Lemma run_linked cl cl' : rock_run data eps threshold cl cl' -> rgood cl -> linked cl -> rgood cl' /\ linked cl'.
Proof.
  intros H. induction H as [cl|c1 c2 c3 H IH B]; intros HI HL; auto. destruct (IH HI HL) as [I2 L2].
  split; [eapply merge_good; eauto|]. eapply merge_linked; eauto. apply I2.
Qed.

Theorem rock_spec number : data <> [] -> (0 <= eps)%Q -> 1 <= number ->
  exists cl, rock data eps threshold number = Ok cl /\ partitions (length data) cl /\ no_empty cl /\
    Nat.min number (length data) <= length cl /\ linked cl /\ (number < length cl -> apart cl) /\
    rock_run data eps threshold (map (fun i => [i]) (seq 0 (length data))) cl.
Proof.
  intros Hd He Hn. unfold rock. destruct data as [|p t] eqn:Ed; [congruence|]. rewrite <- Ed in *. clear Ed.
  destruct (Qltb eps 0) eqn:E1; [apply Qltb_true in E1; apply Qlt_not_le in E1; contradiction|].
  destruct (Rlt_dec threshold 0); [lra|]. destruct (Rlt_dec 1 threshold); [lra|]. destruct (Nat.eqb_spec number 0); [lia|].
  assert (HI : rgood (singles (length data))).
  { split.
    - unfold partitions, singles. assert (E : forall l : list nat, concat (map (fun i => [i]) l) = l) by (induction l; simpl; f_equal; auto). rewrite E. apply Permutation_refl.
    - unfold no_empty, singles. rewrite Forall_forall. intros g Hg. apply in_map_iff in Hg as [i [<- _]]. discriminate. }
  destruct (rock_loop_spec (length data) number Hn (singles (length data)) HI) as (cl & E & _ & R & L & A).
  { unfold singles. rewrite map_length, seq_length. lia. }
  destruct (run_linked _ _ R HI) as [[P N] K].
  { intros c x y Hc Hx Hy. apply in_map_iff in Hc as [i [<- _]]. destruct Hx as [<-|[]], Hy as [<-|[]]. constructor. }
  exists cl. split; auto. split; auto. split; auto. split; [unfold singles in L; rewrite map_length, seq_length in L; auto|]. auto.
Qed.
End Proofs.
