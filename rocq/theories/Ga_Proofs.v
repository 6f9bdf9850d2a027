(** The genetic algorithm: specification and proofs. *)
From Coq Require Import Qround Qminmax.
From Verif Require Import Base Kmeans_Model Kmeans_Proofs Clarans_Proofs Init_Proofs Ga_Model.

(** * Specification *)

(** a chromosome gives each of the [n] points one of [k] clusters *)
Definition chromosome_ok (n k : nat) (c : list nat) : Prop := length c = n /\ Forall (fun g => g < k) c.

(** the points with label [j] *)
Definition labelled (c : list nat) (j : nat) : list nat := filter (fun i => nth i c 0 =? j) (seq 0 (length c)).

(** mean of coordinate [d] of the points with label [j] *)
Definition label_mean (data : list point) (c : list nat) (j d : nat) : Q :=
  (qsum (map (fun i => coord (nth i data []) d) (labelled c j)) / inject_Z (Z.of_nat (length (labelled c j))))%Q.

(** sum of the city block distances of the points to the means of their clusters *)
Definition label_cost (data : list point) (c : list nat) : Q :=
  qsum (map (fun i => qsum (map (fun d => Qabs (coord (nth i data []) d - label_mean data c (nth i c 0%nat) d))
                                (seq 0 (length (nth 0 data [])))))
            (seq 0 (length data))).

(** values that never grow *)
Fixpoint non_increasing (l : list Q) : Prop :=
  match l with
  | x :: ((y :: _) as t) => (y <= x)%Q /\ non_increasing t
  | _ => True
  end.

(** number of positions at which two lists differ *)
Definition differences (a b : list nat) : nat := length (filter (fun i => negb (nth i a 0 =? nth i b 0)) (seq 0 (length a))).

(** * Centres and fitness *)
Section Fitness.
Variable data : list point.
Variable k : nat.
Notation n := (length data).
Notation dim := (dimension data).

Definition labelled_in (c : list nat) (l : list nat) (j : nat) : list nat := filter (fun i => nth i c 0 =? j) l.

Lemma accumulate_fold c (l : list nat) : (forall i, In i l -> nth i c 0 < k) -> forall acc : list point * list nat,
  length (fst acc) = k -> length (snd acc) = k -> (forall j, j < k -> length (nth j (fst acc) []) = dim) ->
  let r := fold_left (accumulate data c) l acc in
  length (fst r) = k /\ length (snd r) = k /\
  forall j, j < k ->
    length (nth j (fst r) []) = dim /\
    nth j (snd r) 0 = nth j (snd acc) 0 + length (labelled_in c l j) /\
    forall d, d < dim -> (coord (nth j (fst r) []) d == coord (nth j (fst acc) []) d + qsum (map (fun i => coord (nth i data []) d) (labelled_in c l j)))%Q.
Proof.
  induction l as [|i l IH]; intros Hl acc H1 H2 H3; cbn [fold_left].
  - cbn zeta; unfold labelled_in. cbn [fst snd filter map qsum length]. split; [auto|]. split; [auto|]. intros j Hj. split; [auto|]. split; [rewrite Nat.add_0_r; reflexivity|]. intros d Hd. rewrite Qplus_0_r. reflexivity.
  - set (a := accumulate data c acc i). pose proof (Hl i (or_introl eq_refl)) as Hi.
    assert (A1 : length (fst a) = k) by (unfold a, accumulate; cbn [fst]; rewrite upd_length; auto).
    assert (A2 : length (snd a) = k) by (unfold a, accumulate; cbn [snd]; rewrite upd_length; auto).
    assert (A3 : forall j, j < k -> length (nth j (fst a) []) = dim).
    { intros j Hj. unfold a, accumulate; cbn [fst]. rewrite upd_nth. destruct (_ && _); auto. unfold add_to. now rewrite map_length, seq_length. }
    destruct (IH (fun x Hx => Hl x (or_intror Hx)) a A1 A2 A3) as (B1 & B2 & B3). split; [auto|]. split; [auto|].
    intros j Hj. destruct (B3 j Hj) as (C1 & C2 & C3). split; [auto|]. unfold labelled_in in *. cbn [filter].
    assert (E1 : nth j (snd a) 0 = nth j (snd acc) 0 + if nth i c 0 =? j then 1 else 0).
    { unfold a, accumulate; cbn [snd]. rewrite upd_nth. destruct (Nat.eqb_spec (nth i c 0) j) as [->|Hn]; cbn [andb]; [|lia].
      destruct (Nat.ltb_spec j (length (snd acc))); lia. }
    assert (E2 : forall d, d < dim -> (coord (nth j (fst a) []) d == coord (nth j (fst acc) []) d + if nth i c 0%nat =? j then coord (nth i data []) d else 0)%Q).
    { intros d Hd. unfold a, accumulate; cbn [fst]. rewrite upd_nth. destruct (Nat.eqb_spec (nth i c 0) j) as [->|Hn]; cbn [andb]; [|ring].
      destruct (Nat.ltb_spec j (length (fst acc))); [|lia]. unfold add_to, coord at 1. rewrite nth_map_seq0 by auto. reflexivity. }
    split.
    + rewrite C2, E1. destruct (nth i c 0 =? j); cbn [length]; lia.
    + intros d Hd. rewrite C3, E2 by auto. destruct (nth i c 0 =? j); cbn [map qsum]; ring.
Qed.

Lemma calc_centers_mean c j d : chromosome_ok n k c -> j < k -> d < dim -> labelled c j <> [] ->
  (coord (nth j (calc_centers data k c) []) d == label_mean data c j d)%Q.
Proof.
  intros (Hn & Hg) Hj Hd Hne. unfold calc_centers. rewrite nth_map_seq0 by auto.
  destruct (accumulate_fold c (seq 0 (length c))) with (acc := (repeat (repeat 0%Q dim) k, repeat 0 k)) as (H1 & H2 & H3).
  - intros i Hi. apply in_seq in Hi. rewrite Forall_forall in Hg. apply Hg, nth_In. lia.
  - apply repeat_length.
  - apply repeat_length.
  - intros i Hi. cbn [fst]. rewrite (nth_indep _ [] (repeat 0%Q dim)) by (rewrite repeat_length; auto). rewrite nth_repeat. apply repeat_length.
  - destruct (H3 j Hj) as (H4 & H5 & H6). cbn zeta. set (r := fold_left _ _ _) in *.
    cbn [fst snd] in H5, H6. rewrite nth_repeat in H5. change (labelled_in c (seq 0 (length c)) j) with (labelled c j) in *.
    assert (Hp : 0 < length (labelled c j)) by (destruct (labelled c j); [congruence|cbn; lia]).
    destruct (Nat.eqb_spec (nth j (snd r) 0) 0); [lia|].
    set (f := fun x => (x / inject_Z (Z.of_nat (nth j (snd r) 0%nat)))%Q).
    unfold coord at 1. rewrite (nth_indep _ 0%Q (f 0%Q)) by (rewrite map_length, H4; auto).
    rewrite (map_nth f). unfold f. change (nth d (nth j (fst r) []) 0%Q) with (coord (nth j (fst r) []) d). rewrite H6 by auto. unfold label_mean.
    rewrite H5. replace (0 + length (labelled c j)) with (length (labelled c j)) by lia.
    rewrite (nth_indep _ [] (repeat 0%Q dim)) by (rewrite repeat_length; auto). rewrite nth_repeat. unfold coord at 1. rewrite nth_repeat.
    unfold Qdiv. ring.
Qed.

Lemma fitness_cost c : chromosome_ok n k c -> (fitness data k c == label_cost data c)%Q.
Proof.
  intros Hc. unfold fitness, label_cost. rewrite sumQ_qsum, qsum_concat, map_map. apply qsum_ext. intros i Hi. apply in_seq in Hi.
  apply qsum_ext. intros d Hd. apply in_seq in Hd. destruct Hc as (Hn & Hg).
  assert (Hgi : nth i c 0 < k) by (rewrite Forall_forall in Hg; apply Hg, nth_In; lia).
  rewrite calc_centers_mean; [reflexivity|split; auto|auto|unfold dimension; lia|].
  intros E. assert (In i (labelled c (nth i c 0))) as Hin; [|rewrite E in Hin; destruct Hin].
  unfold labelled. apply filter_In. split; [apply in_seq; lia|apply Nat.eqb_refl].
Qed.

Lemma representation_ok c : chromosome_ok n k c ->
  exists cl, get_clusters_representation k c = Ok cl /\ length cl = k /\ partitions n cl /\ forall j, j < k -> nth j cl [] = labelled c j.
Proof.
  intros (Hn & Hg). unfold get_clusters_representation.
  destruct (existsb (fun g => k <=? g) c) eqn:E.
  - apply existsb_exists in E as (x & Hx & Hk). apply Nat.leb_le in Hk. rewrite Forall_forall in Hg. specialize (Hg x Hx). lia.
  - rewrite (push_groups (fun i => nth i c 0)). eexists. split; [reflexivity|]. unfold groups_of. split; [now rewrite map_length, seq_length|]. split.
    + unfold partitions. rewrite <- Hn. apply (filter_label_perm (fun i => nth i c 0)). intros i Hi. apply in_seq in Hi.
      rewrite Forall_forall in Hg. apply Hg, nth_In. lia.
    + intros j Hj. rewrite nth_map_seq0 by auto. reflexivity.
Qed.

Lemma get_best_spec cs : cs <> [] -> exists b, get_best data k cs = Ok b /\ In (fst b) cs /\ snd b = fitness data k (fst b) /\ forall c, In c cs -> (snd b <= fitness data k c)%Q.
Proof.
  intros Hne. unfold get_best. destruct cs as [|c0 ct] eqn:Ec; [congruence|]. rewrite <- Ec in *. clear Ec.
  destruct (argmin_spec (map (fitness data k) cs)) as [H1 H2]. { destruct cs; [congruence|discriminate]. }
  rewrite map_length in H1, H2. eexists. split; [reflexivity|]. cbn [fst snd]. split; [apply nth_In; auto|]. split.
  - rewrite (nth_indep _ 0%Q (fitness data k [])) by (rewrite map_length; auto). apply map_nth.
  - intros c Hc. destruct (In_nth _ _ [] Hc) as (i & Hi & <-). specialize (H2 i Hi).
    rewrite (nth_indep (map _ _) 0%Q (fitness data k [])) in H2 at 1 by (rewrite map_length; auto).
    rewrite (nth_indep (map _ _) 0%Q (fitness data k [])) by (rewrite map_length; auto).
    rewrite (nth_indep (map _ cs) 0%Q (fitness data k [])) in H2 by (rewrite map_length; auto). rewrite !map_nth in H2 |- *. rewrite !map_nth in H2. exact H2.
Qed.
End Fitness.

(** * Populations *)
Definition population_ok (n k m : nat) (cs : list (list nat)) : Prop := length cs = m /\ Forall (chromosome_ok n k) cs.

Lemma population_nth n k m cs i : population_ok n k m cs -> i < m -> chromosome_ok n k (nth i cs []).
Proof. intros (H1 & H2) Hi. rewrite Forall_forall in H2. apply H2, nth_In. lia. Qed.

Lemma population_upd n k m cs i c : population_ok n k m cs -> chromosome_ok n k c -> population_ok n k m (upd cs i c).
Proof.
  intros (H1 & H2) Hc. split; [rewrite upd_length; auto|]. apply Forall_forall. intros x Hx. apply upd_in in Hx as [->|Hx]; auto.
  rewrite Forall_forall in H2. auto.
Qed.

Lemma cross_ok n k m a b : chromosome_ok n k a -> chromosome_ok n k b ->
  chromosome_ok n k (fst (cross m a b)) /\ chromosome_ok n k (snd (cross m a b)).
Proof.
  intros (A1 & A2) (B1 & B2). rewrite Forall_forall in A2, B2. unfold cross; cbn [fst snd]. split; (split; [now rewrite map_length, seq_length|]);
    apply Forall_forall; intros x Hx; apply in_map_iff in Hx as (i & <- & Hi); apply in_seq in Hi;
    destruct (m i); first [apply A2, nth_In; lia|apply B2, nth_In; lia].
Qed.

Lemma gene_upd n k c i v : chromosome_ok n k c -> v < k -> chromosome_ok n k (upd c i v).
Proof. intros (H1 & H2) Hv. split; [rewrite upd_length; auto|]. apply Forall_forall. intros x Hx. apply upd_in in Hx as [->|Hx]; auto. rewrite Forall_forall in H2. auto. Qed.

(** * Lists *)
Lemma upd_self {A} (l : list A) i d : upd l i (nth i l d) = l.
Proof. revert i. induction l as [|x t IH]; intros [|i]; cbn; auto. f_equal. auto. Qed.

Lemma upd_perm {A} (l : list A) i v d : i < length l -> Permutation (nth i l d :: upd l i v) (v :: l).
Proof.
  revert i. induction l as [|x t IH]; intros [|i] H; cbn in *; try lia; [apply perm_swap|].
  specialize (IH i ltac:(lia)). rewrite perm_swap, IH. apply perm_swap.
Qed.

Lemma upd_swap_perm {A} (l : list A) p q d : p < length l -> q < length l -> p <> q ->
  Permutation (upd (upd l p (nth q l d)) q (nth p l d)) l.
Proof.
  intros Hp Hq Hne. pose proof (upd_perm (upd l p (nth q l d)) q (nth p l d) d) as H. rewrite upd_length in H. specialize (H Hq).
  rewrite upd_nth_neq in H by auto. pose proof (upd_perm l p (nth q l d) d Hp) as H'.
  apply (Permutation_cons_inv (a := nth q l d)). rewrite H. exact H'.
Qed.

Lemma upd2_perm {A} (l : list A) p q a b d (f : A -> nat) : p < length l -> q < length l -> p <> q ->
  (f a = f (nth p l d) /\ f b = f (nth q l d)) \/ (f a = f (nth q l d) /\ f b = f (nth p l d)) ->
  Permutation (map f (upd (upd l p a) q b)) (map f l).
Proof.
  intros Hp Hq Hne H. rewrite !Init_Proofs.map_upd.
  set (l' := map f l). assert (L : length l' = length l) by apply map_length.
  assert (Np : forall i, nth i l' (f d) = f (nth i l d)) by (intros; unfold l'; apply map_nth).
  destruct H as [[-> ->]|[-> ->]]; rewrite <- !Np.
  - rewrite !upd_self. auto.
  - apply upd_swap_perm; lia.
Qed.

Lemma differences_refl a : differences a a = 0.
Proof. unfold differences. induction (seq 0 (length a)) as [|i l IH]; cbn [filter]; auto. rewrite Nat.eqb_refl. cbn. auto. Qed.

Lemma differences_upd c c' i v : differences c (upd c' i v) <= differences c c' + 1.
Proof.
  unfold differences. assert (H : forall l, NoDup l -> length (filter (fun j => negb (nth j c 0 =? nth j (upd c' i v) 0)) l) <=
    length (filter (fun j => negb (nth j c 0 =? nth j c' 0)) l) + if existsb (Nat.eqb i) l then 1 else 0).
  { induction l as [|x l IH]; intros N; cbn [filter existsb]; [cbn; lia|]. inversion N; subst. specialize (IH H2).
    destruct (Nat.eqb_spec i x) as [->|Hn]; cbn [orb].
    - replace (existsb (Nat.eqb x) l) with false in IH; [destruct (negb _), (negb _); cbn [length]; lia|].
      symmetry. apply not_true_is_false. intros He. apply existsb_exists in He as (y & Hy & He). apply Nat.eqb_eq in He as ->. auto.
    - rewrite upd_nth_neq by auto. destruct (negb _); cbn [length]; lia. }
  specialize (H _ (seq_NoDup (length c) 0)). destruct (existsb _ _); lia.
Qed.

Lemma NoDup_app_intro_one (l : list nat) x : NoDup l -> ~ In x l -> NoDup (l ++ [x]).
Proof. intros N H. eapply Permutation_NoDup; [apply Permutation_cons_append|]. constructor; auto. Qed.

Lemma NoDup_map_seq (f : nat -> nat) a : (forall i j, i < a -> j < a -> f i = f j -> i = j) -> NoDup (map f (seq 0 a)).
Proof.
  induction a as [|a IH]; intros H; [constructor|]. rewrite seq_S, map_app. cbn [map]. apply NoDup_app_intro_one.
  - apply IH. intros i j Hi Hj. apply H; lia.
  - intros Hin. apply in_map_iff in Hin as (x & E & Hx). apply in_seq in Hx. apply H in E; lia.
Qed.

Section Run.
Variable data : list point.
Variable k : nat.
Variable m : nat.
Variable init : nat -> nat -> nat.
Variable pick : nat -> nat -> list Q -> nat.
Variable pairs : nat -> list nat.
Variable mask : nat -> nat -> nat -> bool.
Variable order : nat -> list nat.
Variable gene : nat -> nat -> nat -> nat.
Variable value : nat -> nat -> nat -> nat.
Variable genes : nat.
Variable coeff : Q.
Notation n := (length data).
Notation population_ok := (population_ok n k m).
Notation next := (next_population data k pick pairs mask order gene value genes coeff).

(** the populations of a run, the first one is number 0 *)
Inductive generation : nat -> list (list nat) -> Prop :=
| generation_first : generation 0 (init_population data k m init)
| generation_next g cs cs' : generation g cs -> next g cs = Ok cs' -> generation (S g) cs'.

Hypothesis Hk : 0 < k.
Hypothesis Hpick : forall g i f, length f = m -> 0 < m -> pick g i f < m.
Hypothesis Hpairs : forall g, Permutation (pairs g) (seq 0 m).
Hypothesis Horder : forall g, Permutation (order g) (seq 0 m).

Lemma init_ok : population_ok (init_population data k m init).
Proof.
  unfold init_population. split; [now rewrite map_length, seq_length|]. apply Forall_forall. intros c Hc. apply in_map_iff in Hc as (j & <- & _).
  split; [now rewrite map_length, seq_length|]. apply Forall_forall. intros x Hx. apply in_map_iff in Hx as (i & <- & _). apply Nat.mod_upper_bound. lia.
Qed.

Lemma select_ok g cs : population_ok cs -> population_ok (select_population data k pick g cs).
Proof.
  intros H. unfold select_population. pose proof H as (H1 & H2). split; [now rewrite map_length, seq_length|].
  apply Forall_forall. intros c Hc. apply in_map_iff in Hc as (j & <- & Hj). apply in_seq in Hj. apply (population_nth n k m); auto.
  apply Hpick; [rewrite map_length; auto|lia].
Qed.

Lemma pair_index g i : i < m -> nth i (pairs g) 0 < m.
Proof.
  intros Hi. pose proof (Hpairs g) as P. assert (In (nth i (pairs g) 0) (pairs g)) as Hin by (apply nth_In; rewrite (Permutation_length P), seq_length; auto).
  eapply Permutation_in in Hin; [|exact P]. apply in_seq in Hin. lia.
Qed.
Lemma order_index g i : i < m -> nth i (order g) 0 < m.
Proof.
  intros Hi. pose proof (Horder g) as P. assert (In (nth i (order g) 0) (order g)) as Hin by (apply nth_In; rewrite (Permutation_length P), seq_length; auto).
  eapply Permutation_in in Hin; [|exact P]. apply in_seq in Hin. lia.
Qed.
Lemma pairs_length g : length (pairs g) = m.
Proof. rewrite (Permutation_length (Hpairs g)), seq_length. auto. Qed.
Lemma order_length g : length (order g) = m.
Proof. rewrite (Permutation_length (Horder g)), seq_length. auto. Qed.

Lemma half_offset i : i < m / 2 -> i < m /\ i + m / 2 < m.
Proof. pose proof (Nat.div_mod m 2 ltac:(lia)). lia. Qed.

Lemma crossover_step_ok g cs idx : idx < m / 2 -> population_ok cs -> population_ok (crossover_step pairs mask g (m / 2) cs idx).
Proof.
  intros Hi H. apply half_offset in Hi as [H1 H2]. unfold crossover_step.
  destruct (cross_ok n k (mask g idx) (nth (nth idx (pairs g) 0) cs []) (nth (nth (idx + m / 2) (pairs g) 0) cs [])) as [A B].
  - apply (population_nth n k m); auto. apply pair_index; auto.
  - apply (population_nth n k m); auto. apply pair_index; auto.
  - apply population_upd; auto. apply population_upd; auto.
Qed.
Lemma crossover_ok g cs : population_ok cs -> population_ok (crossover pairs mask g cs).
Proof.
  unfold crossover. rewrite pairs_length. assert (G : forall l cs, (forall i, In i l -> i < m / 2) -> population_ok cs -> population_ok (fold_left (crossover_step pairs mask g (m / 2)) l cs)).
  { induction l as [|i l IH]; intros cs' Hl H; cbn [fold_left]; auto. apply IH; [intros; apply Hl; right; auto|]. apply crossover_step_ok; auto. apply Hl. left; auto. }
  apply G. intros i Hi. apply in_seq in Hi. lia.
Qed.

Lemma mutation_step_ok g idx cs j : idx < m -> population_ok cs -> population_ok (mutation_step data k order gene value g idx cs j).
Proof.
  intros Hi H. unfold mutation_step. apply population_upd; auto. apply gene_upd; [|apply Nat.mod_upper_bound; lia].
  apply (population_nth n k m); auto. apply order_index; auto.
Qed.
Lemma mutation_fold_ok g idx l : idx < m -> forall cs, population_ok cs -> population_ok (fold_left (mutation_step data k order gene value g idx) l cs).
Proof. intros Hi. induction l as [|j l IH]; intros cs H; cbn [fold_left]; auto. apply IH. apply mutation_step_ok; auto. Qed.
Lemma mutation_ok g cs cs' : population_ok cs -> mutation data k order gene value genes coeff g cs = Ok cs' -> population_ok cs'.
Proof.
  intros H. unfold mutation. set (amount := Z.to_nat _). destruct (_ && _) eqn:Ec; [discriminate|]. intros E. apply Ok_inj in E as <-.
  rewrite order_length in Ec. destruct (Nat.ltb_spec m amount) as [Hm|Hm]; cbn [andb] in Ec.
  - apply Nat.ltb_ge in Ec. replace genes with 0 by lia. cbn [seq fold_left]. generalize (seq 0 amount). intros l. induction l; cbn [fold_left]; auto.
  - assert (G : forall l cs, (forall i, In i l -> i < m) -> population_ok cs ->
      population_ok (fold_left (fun cs idx => fold_left (mutation_step data k order gene value g idx) (seq 0 genes) cs) l cs)).
    { induction l as [|i l IH]; intros c Hl Hc; cbn [fold_left]; auto. apply IH; [intros; apply Hl; right; auto|]. apply mutation_fold_ok; auto. apply Hl; left; auto. }
    apply G; auto. intros i Hi. apply in_seq in Hi. lia.
Qed.

Lemma next_ok g cs cs' : population_ok cs -> next g cs = Ok cs' -> population_ok cs'.
Proof. intros H E. eapply mutation_ok; [|exact E]. apply crossover_ok, select_ok, H. Qed.

Theorem generation_ok g cs : generation g cs -> population_ok cs.
Proof. induction 1; [apply init_ok|eapply next_ok; eauto]. Qed.

Lemma next_total g cs : population_ok cs -> (coeff <= 1)%Q -> exists cs', next g cs = Ok cs'.
Proof.
  intros H Hc. unfold next_population, mutation. pose proof (crossover_ok g _ (select_ok g _ H)) as (L & _). rewrite L, order_length.
  destruct (Nat.ltb_spec m (Z.to_nat (Qfloor (inject_Z (Z.of_nat m) * coeff)))) as [Hlt|Hge]; cbn [andb]; [|eexists; reflexivity].
  exfalso. assert (Hf : (inject_Z (Qfloor (inject_Z (Z.of_nat m) * coeff)) <= inject_Z (Z.of_nat m))%Q).
  { eapply Qle_trans; [apply Qfloor_le|]. rewrite <- (Qmult_1_r (inject_Z (Z.of_nat m))) at 2. rewrite !(Qmult_comm (inject_Z (Z.of_nat m))).
    apply Qmult_le_compat_r; auto. change 0%Q with (inject_Z 0). rewrite <- Zle_Qle. lia. }
  rewrite <- Zle_Qle in Hf. lia.
Qed.

(** the state of a run after [g] generations *)
Definition run_inv (g : nat) (cs : list (list nat)) (best : list nat * Q) (observed : list Q) : Prop :=
  generation g cs /\ length observed = S g /\ (snd best == label_cost data (fst best))%Q /\
  (exists g' cs', g' <= g /\ generation g' cs' /\ In (fst best) cs') /\
  (forall g' cs' c, g' <= g -> generation g' cs' -> In c cs' -> (snd best <= label_cost data c)%Q) /\
  non_increasing observed /\ last observed 0%Q = snd best /\
  (forall g', g' <= g -> exists cs' c, (exists h, h <= g' /\ generation h cs') /\ In c cs' /\ (nth g' observed 0%Q == label_cost data c)%Q) /\
  (forall g' h cs' c, g' <= g -> h <= g' -> generation h cs' -> In c cs' -> (nth g' observed 0 <= label_cost data c)%Q).

Lemma generation_fun g : forall cs cs', generation g cs -> generation g cs' -> cs = cs'.
Proof.
  induction g as [|g IH]; intros cs cs' H H'.
  - inversion H; inversion H'; subst; auto.
  - inversion H; inversion H'; subst. assert (cs0 = cs1) by (apply IH; auto). subst. congruence.
Qed.

Lemma non_increasing_snoc l x : l <> [] -> non_increasing l -> (x <= last l 0)%Q -> non_increasing (l ++ [x]).
Proof.
  induction l as [|a l IH]; intros Hne H Hx; [congruence|]. destruct l as [|b l].
  - cbn in *. split; auto.
  - change (last (a :: b :: l) 0%Q) with (last (b :: l) 0%Q) in Hx. destruct H as [H1 H2]. change ((a :: b :: l) ++ [x]) with (a :: (b :: l) ++ [x]).
    specialize (IH ltac:(discriminate) H2 Hx). change ((b :: l) ++ [x]) with (b :: (l ++ [x])) in *. cbn [non_increasing]. split; auto.
Qed.

Lemma generation_cost g cs c : generation g cs -> In c cs -> (fitness data k c == label_cost data c)%Q.
Proof. intros H Hc. apply fitness_cost. apply generation_ok in H as (_ & H). rewrite Forall_forall in H. auto. Qed.

Lemma generations_spec left : forall g cs best observed r, 0 < m -> run_inv g cs best observed ->
  generations data k pick pairs mask order gene value genes coeff left g cs best observed = Ok r ->
  exists cs', run_inv (g + left) cs' (fst r) (snd r).
Proof.
  induction left as [|left IH]; intros g cs best observed r Hm H E; cbn [generations] in E.
  - apply Ok_inj in E as <-. exists cs. rewrite Nat.add_0_r. auto.
  - destruct (next g cs) as [cs1|] eqn:En; cbn [bind] in E; [|discriminate].
    destruct H as (G & L & F & A & B & N & La & O1 & O2).
    assert (G1 : generation (S g) cs1) by (econstructor; eauto).
    assert (Hne : cs1 <> []) by (apply generation_ok in G1 as (Hl & _); intros ->; cbn in Hl; lia).
    destruct (get_best_spec data k cs1 Hne) as (b & Eb & I1 & I2 & I3). rewrite Eb in E. cbn [bind] in E.
    replace (g + S left) with (S g + left) by lia. eapply IH; [exact Hm| |exact E]. clear E IH.
    set (best' := if Qltb (snd b) (snd best) then b else best).
    assert (Fb : (snd b == label_cost data (fst b))%Q) by (rewrite I2; eapply generation_cost; eauto).
    assert (Hle : (snd best' <= snd best)%Q) by (unfold best'; destruct (Qltb (snd b) (snd best)) eqn:Eq; [apply Qltb_true in Eq|]; lra).
    assert (Hle' : (snd best' <= snd b)%Q) by (unfold best'; destruct (Qltb (snd b) (snd best)) eqn:Eq; [|apply Qltb_false in Eq]; lra).
    assert (F' : (snd best' == label_cost data (fst best'))%Q) by (unfold best'; destruct (Qltb _ _); auto).
    assert (A' : exists g' cs', g' <= S g /\ generation g' cs' /\ In (fst best') cs').
    { unfold best'; destruct (Qltb _ _); [exists (S g), cs1; auto|]. destruct A as (g' & cs' & A1 & A2 & A3). exists g', cs'. auto. }
    assert (B' : forall g' cs' c, g' <= S g -> generation g' cs' -> In c cs' -> (snd best' <= label_cost data c)%Q).
    { intros g' cs' c Hg Hc Hin. destruct (Nat.eq_dec g' (S g)) as [->|].
      - assert (cs' = cs1) as -> by (eapply generation_fun; eauto). specialize (I3 c Hin). rewrite (generation_cost (S g) cs1 c) in I3 by auto. lra.
      - specialize (B g' cs' c ltac:(lia) Hc Hin). lra. }
    assert (Hn1 : nth (S g) (observed ++ [snd best']) 0%Q = snd best') by (rewrite app_nth2 by lia; rewrite L, Nat.sub_diag; reflexivity).
    split; [exact G1|]. split; [rewrite app_length, L; cbn; lia|]. split; [exact F'|]. split; [exact A'|]. split; [exact B'|].
    split; [|split; [|split]].
    + apply non_increasing_snoc; auto; [intros ->; cbn in L; lia|]. rewrite La. exact Hle.
    + apply last_last.
    + intros g' Hg. destruct (Nat.eq_dec g' (S g)) as [->|].
      * rewrite Hn1. destruct A' as (h & csh & A1 & A2 & A3). exists csh, (fst best'). split; [exists h; auto|]. auto.
      * rewrite app_nth1 by lia. apply O1. lia.
    + intros g' h cs' c Hg Hh Hc Hin. destruct (Nat.eq_dec g' (S g)) as [->|].
      * rewrite Hn1. apply (B' h cs' c); auto.
      * rewrite app_nth1 by lia. eapply O2; eauto. lia.
Qed.

Lemma generations_total left : (coeff <= 1)%Q -> 0 < m -> forall g cs best observed, population_ok cs ->
  exists r, generations data k pick pairs mask order gene value genes coeff left g cs best observed = Ok r.
Proof.
  intros Hc Hm. induction left as [|left IH]; intros g cs best observed H; cbn [generations]; [eexists; reflexivity|].
  destruct (next_total g cs H Hc) as (cs1 & E1). rewrite E1. cbn [bind]. pose proof (next_ok g cs cs1 H E1) as H1.
  destruct (get_best_spec data k cs1) as (b & Eb & _). { destruct H1 as (L & _). intros ->. cbn in L. lia. }
  rewrite Eb. cbn [bind]. apply IH. auto.
Qed.

Theorem ga_total population_count : data <> [] -> (coeff <= 1)%Q -> 0 < m ->
  exists r, ga_process data k m init pick pairs mask order gene value genes coeff population_count = Ok r.
Proof.
  intros Hd Hc Hm. unfold ga_process. destruct data as [|x t] eqn:Ed; [congruence|]. rewrite <- Ed in *. replace (n =? 0) with false by (rewrite Ed; reflexivity).
  destruct (Nat.eqb_spec k 0); [lia|].
  destruct (get_best_spec data k (init_population data k m init)) as (b & Eb & _).
  { pose proof init_ok as (L & _). intros Hz. rewrite Hz in L. cbn in L. lia. }
  rewrite Eb. cbn [bind]. apply generations_total; auto. apply init_ok.
Qed.

Theorem ga_spec population_count r : 0 < m ->
  ga_process data k m init pick pairs mask order gene value genes coeff population_count = Ok r ->
  exists cs, run_inv population_count cs (fst r) (snd r).
Proof.
  intros Hm. unfold ga_process. destruct (n =? 0); [discriminate|]. destruct (k =? 0); [discriminate|].
  destruct (get_best_spec data k (init_population data k m init)) as (b & Eb & I1 & I2 & I3).
  { pose proof init_ok as (L & _). intros Hz. rewrite Hz in L. cbn in L. lia. }
  rewrite Eb. cbn [bind]. intros E. eapply (generations_spec population_count 0); [auto| |exact E].
  pose proof generation_first as G. assert (F : (snd b == label_cost data (fst b))%Q) by (rewrite I2; eapply generation_cost; eauto).
  assert (B : forall g cs c, g <= 0 -> generation g cs -> In c cs -> (snd b <= label_cost data c)%Q).
  { intros g cs c Hg Hc Hin. replace g with 0 in Hc by lia. rewrite (generation_fun 0 _ _ Hc G) in Hin. specialize (I3 c Hin). pose proof (generation_cost 0 _ c G Hin) as Hfc. lra. }
  split; [exact G|]. split; [auto|]. split; [exact F|]. split; [exists 0; eauto|]. split; [exact B|]. split; [cbn; auto|]. split; [auto|]. split.
  - intros g Hg. exists (init_population data k m init), (fst b). split; [exists 0; split; [lia|auto]|]. split; auto. replace g with 0 by lia. auto.
  - intros g h cs c Hg Hh Hc Hin. replace g with 0 by lia. cbn [nth]. apply (B h cs c); auto; lia.
Qed.

(** * Crossover and mutation *)
Lemma crossover_step_genes g cs idx i : idx < m / 2 -> population_ok cs -> i < n ->
  Permutation (map (fun c => nth i c 0) (crossover_step pairs mask g (m / 2) cs idx)) (map (fun c => nth i c 0) cs).
Proof.
  intros Hidx H Hi. apply half_offset in Hidx as Hh. destruct Hh as [H1 H2]. unfold crossover_step.
  set (p := nth idx (pairs g) 0). set (q := nth (idx + m / 2) (pairs g) 0).
  assert (Hp : p < m) by (apply pair_index; auto). assert (Hq : q < m) by (apply pair_index; auto).
  assert (Hpq : p <> q).
  { intros E. assert (ND : NoDup (pairs g)) by (eapply Permutation_NoDup; [apply Permutation_sym, Hpairs|apply seq_NoDup]).
    rewrite (NoDup_nth _ 0) in ND. assert (idx = idx + m / 2) by (apply ND; rewrite ?pairs_length; auto). lia. }
  pose proof (population_nth n k m cs p H Hp) as (Lp & _). pose proof (population_nth n k m cs q H Hq) as (Lq & _). destruct H as (L & _).
  apply upd2_perm with (d := []); try lia. cbn [cross fst snd]. unfold cross. cbn [fst snd]. rewrite !nth_map_seq0 by lia.
  destruct (mask g idx i); auto.
Qed.

Theorem crossover_genes g cs i : population_ok cs -> i < n ->
  Permutation (map (fun c => nth i c 0) (crossover pairs mask g cs)) (map (fun c => nth i c 0) cs).
Proof.
  intros H Hi. unfold crossover. rewrite pairs_length.
  assert (G : forall l cs, (forall i, In i l -> i < m / 2) -> population_ok cs ->
    Permutation (map (fun c => nth i c 0) (fold_left (crossover_step pairs mask g (m / 2)) l cs)) (map (fun c => nth i c 0) cs)).
  { induction l as [|x l IH]; intros cs' Hl H'; cbn [fold_left]; auto. rewrite IH; [|intros; apply Hl; right; auto|apply crossover_step_ok; auto; apply Hl; left; auto].
    apply crossover_step_genes; auto. apply Hl; left; auto. }
  apply G; auto. intros x Hx. apply in_seq in Hx. lia.
Qed.

Lemma mutation_steps g idx l : idx < m -> forall cs, population_ok cs ->
  let r := fold_left (mutation_step data k order gene value g idx) l cs in
  (forall j, j <> nth idx (order g) 0 -> nth j r [] = nth j cs []) /\
  forall c, length c = n -> differences c (nth (nth idx (order g) 0) r []) <= differences c (nth (nth idx (order g) 0) cs []) + length l.
Proof.
  intros Hi. induction l as [|x l IH]; intros cs H; cbn [fold_left].
  - split; auto. intros; cbn [length]; lia.
  - set (cs1 := mutation_step data k order gene value g idx cs x). assert (H1 : population_ok cs1) by (apply mutation_step_ok; auto).
    destruct (IH cs1 H1) as (A & B). assert (Ho : nth idx (order g) 0 < m) by (apply order_index; auto).
    assert (L : length cs = m) by apply H. split.
    + intros j Hj. rewrite A by auto. unfold cs1, mutation_step. apply upd_nth_neq. auto.
    + intros c Hc. specialize (B c Hc). cbn [length].
      assert (D : differences c (nth (nth idx (order g) 0) cs1 []) <= differences c (nth (nth idx (order g) 0) cs []) + 1); [|lia].
      unfold cs1, mutation_step. rewrite upd_nth_eq by lia. apply differences_upd.
Qed.

Theorem mutation_changes g cs cs' : population_ok cs -> mutation data k order gene value genes coeff g cs = Ok cs' ->
  exists changed, NoDup changed /\ (inject_Z (Z.of_nat (length changed)) <= Qmax 0 (inject_Z (Z.of_nat m) * coeff))%Q /\
    forall j, j < m -> (~ In j changed -> nth j cs' [] = nth j cs []) /\ differences (nth j cs []) (nth j cs' []) <= genes.
Proof.
  intros H E. unfold mutation in E. set (amount := Z.to_nat _) in E. destruct (_ && _) eqn:Ec; [discriminate|]. apply Ok_inj in E. pose proof H as (L & _).
  assert (Hamount : (inject_Z (Z.of_nat amount) <= Qmax 0 (inject_Z (Z.of_nat m) * coeff))%Q).
  { unfold amount. rewrite L. destruct (Z_le_gt_dec 0 (Qfloor (inject_Z (Z.of_nat m) * coeff))) as [Hz|Hz].
    - rewrite Z2Nat.id by auto. eapply Qle_trans; [apply Qfloor_le|apply Q.le_max_r].
    - replace (Z.to_nat _) with 0 by lia. apply Q.le_max_l. }
  rewrite order_length in Ec. destruct (Nat.ltb_spec m amount) as [Hm|Hm]; cbn [andb] in Ec.
  - apply Nat.ltb_ge in Ec. assert (genes = 0) as Hz by lia. rewrite Hz in E. cbn [seq fold_left] in E.
    assert (cs' = cs) as ->. { rewrite <- E. generalize (seq 0 amount). intros l. induction l; cbn [fold_left]; auto. }
    exists []. split; [constructor|]. split; [cbn [length]; apply Q.le_max_l|]. intros j Hj. split; auto. rewrite differences_refl. lia.
  - exists (map (fun i => nth i (order g) 0) (seq 0 amount)).
    assert (ND : NoDup (order g)) by (eapply Permutation_NoDup; [apply Permutation_sym, Horder|apply seq_NoDup]).
    assert (Hinj : forall a b, a < m -> b < m -> nth a (order g) 0 = nth b (order g) 0 -> a = b).
    { intros a b Ha Hb Hab. rewrite (NoDup_nth _ 0) in ND. apply ND; rewrite ?order_length; auto. }
    split; [|split].
    + apply NoDup_map_seq. intros a b Ha Hb. apply Hinj; lia.
    + rewrite map_length, seq_length. exact Hamount.
    + assert (G : forall l cs, NoDup l -> (forall i, In i l -> i < m) -> population_ok cs ->
        let r := fold_left (fun cs idx => fold_left (mutation_step data k order gene value g idx) (seq 0 genes) cs) l cs in
        forall j, j < m -> (~ In j (map (fun i => nth i (order g) 0) l) -> nth j r [] = nth j cs []) /\ differences (nth j cs []) (nth j r []) <= genes).
      { clear E H L. induction l as [|x l IH]; intros cs0 Nl Hl H r j Hj; unfold r; clear r; cbn [fold_left].
        - split; auto. rewrite differences_refl. lia.
        - inversion Nl as [|? ? Nx Nl' Eq]; subst. destruct (mutation_steps g x (seq 0 genes) (Hl x (or_introl eq_refl)) cs0 H) as (A & B).
          cbn zeta in A, B. set (cs1 := fold_left _ (seq 0 genes) cs0) in *.
          assert (H1 : population_ok cs1) by (apply mutation_fold_ok; auto; apply Hl; left; auto).
          destruct (IH cs1 Nl' (fun i Hi => Hl i (or_intror Hi)) H1 j Hj) as (C & D). cbn zeta in C, D. cbn [map].
          destruct (Nat.eq_dec j (nth x (order g) 0)) as [Ej|Ej].
          + split; [intros Hn; exfalso; apply Hn; left; auto|]. rewrite C.
            * specialize (B (nth j cs0 [])). rewrite <- Ej in B. rewrite seq_length, differences_refl in B. apply B.
              apply (population_nth n k m cs0 j H Hj).
            * intros Hin. apply in_map_iff in Hin as (y & Hy & Hin). apply Nx. replace x with y; auto. apply Hinj; [apply Hl; right; auto|apply Hl; left; auto|congruence].
          + rewrite <- (A j Ej). split; [|exact D]. intros Hn. apply C. intros Hin. apply Hn. right. auto. }
      rewrite <- E. apply G; auto; [apply seq_NoDup|]. intros i Hi. apply in_seq in Hi. lia.
Qed.
End Run.
