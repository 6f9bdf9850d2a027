(** Consequences of the density-based clustering (Dbscan_Proofs.v) that relate several runs of DBSCAN. *)
From Verif Require Import Base Search_Model Kd_Model Kd_Proofs Dbscan_Model Dbscan_Proofs Dbscan_Inst.

(** * Specification *)
(** [x] and [y] are members of one cluster *)
Definition together (clusters : list (list nat)) (x y : nat) : Prop := exists c, In c clusters /\ In x c /\ In y c.

(** [m] holds the euclidean distances of the points *)
Definition distances_of (data : list point) (m : list (list Q)) : Prop :=
  length m = length data /\ Forall (fun row => length row = length m) m /\
  forall i j, i < length data -> j < length data ->
    let d := nth j (nth i m []) 0%Q in (0 <= d)%Q /\ (d * d == sqdist (nth i data []) (nth j data []))%Q.

(** [data'] lists the points of [data] in another order: point [i] of [data'] is point [s i] of [data] *)
Definition reordered (data data' : list point) (s : nat -> nat) : Prop :=
  length data' = length data /\ Permutation (map s (seq 0 (length data))) (seq 0 (length data)) /\
  forall i, i < length data -> nth i data' [] = nth (s i) data [].

(** * Proofs *)
Lemma sorted_unique : forall l l' : list nat, StronglySorted lt l -> StronglySorted lt l' -> (forall x, In x l <-> In x l') -> l = l'.
Proof.
  induction l as [|a l IH]; intros l' S S' H.
  - destruct l' as [|b l']; auto. exfalso. apply (H b). now left.
  - destruct l' as [|b l']; [exfalso; apply (H a); now left|]. inversion_clear S as [|? ? S1 F]. inversion_clear S' as [|? ? S1' F'].
    rewrite Forall_forall in F, F'.
    assert (a = b).
    { destruct (proj1 (H a) (or_introl eq_refl)) as [E|E]; auto. destruct (proj2 (H b) (or_introl eq_refl)) as [E'|E']; auto.
      apply F' in E. apply F in E'. lia. }
    subst b. f_equal. apply IH; auto. intros x. split; intros Hx.
    + destruct (proj1 (H x) (or_intror Hx)) as [E|E]; auto. subst x. apply F in Hx. lia.
    + destruct (proj2 (H x) (or_intror Hx)) as [E|E]; auto. subst x. apply F' in Hx. lia.
Qed.

Lemma nth_hd (c : list (list nat)) k : nth k (map (hd 0) c) 0 = hd 0 (nth k c []).
Proof. exact (map_nth (hd 0) c [] k). Qed.

Section Relations.
Variable n : nat.

Lemma linked_core nb mp x y : linked n nb mp x y -> core n nb mp x /\ core n nb mp y.
Proof. induction 1 as [x H|x y z H [IH1 IH2] Hz Hn]; auto. Qed.

Lemma linked_trans nb mp x y z : linked n nb mp x y -> linked n nb mp y z -> linked n nb mp x z.
Proof. intros H1 H2. induction H2 as [y H|y a b H2 IH Hb Hn]; auto. apply linked_step with a; auto. Qed.

Lemma linked_sym nb mp x y : (forall a b, a < n -> b < n -> nb a b = nb b a) -> linked n nb mp x y -> linked n nb mp y x.
Proof.
  intros Hs H. induction H as [x H|x y z H IH Hz Hn]; [constructor; auto|].
  apply linked_trans with y; auto. apply linked_core in H as [_ Hy]. eapply linked_step; [constructor; exact Hz|exact Hy|].
  rewrite Hs; auto; [apply Hz|apply Hy].
Qed.

(** more neighbours and fewer required ones *)
Lemma filter_mono {A} (p q : A -> bool) l : (forall x, In x l -> p x = true -> q x = true) -> length (filter p l) <= length (filter q l).
Proof.
  induction l as [|x l IH]; intros H; [apply Nat.le_refl|]. cbn [filter]. specialize (IH (fun y Hy => H y (or_intror Hy))).
  destruct (p x) eqn:E; [rewrite (H x (or_introl eq_refl) E); simpl; lia|]. destruct (q x); simpl; lia.
Qed.

Lemma core_mono nb1 nb2 mp1 mp2 x : (forall a b, a < n -> b < n -> nb1 a b = true -> nb2 a b = true) -> mp2 <= mp1 ->
  core n nb1 mp1 x -> core n nb2 mp2 x.
Proof.
  intros H Hm [Hx Hc]. split; auto. eapply Nat.le_trans; [exact Hm|]. eapply Nat.le_trans; [exact Hc|]. apply filter_mono.
  intros y Hy. apply in_seq in Hy. apply H; auto. lia.
Qed.

Lemma linked_mono nb1 nb2 mp1 mp2 x y : (forall a b, a < n -> b < n -> nb1 a b = true -> nb2 a b = true) -> mp2 <= mp1 ->
  linked n nb1 mp1 x y -> linked n nb2 mp2 x y.
Proof.
  intros H Hm L. induction L as [x Hx|x y z L IH Hz Hn]; [constructor; eapply core_mono; eauto|].
  eapply linked_step; [exact IH|eapply core_mono; eauto|]. apply H; auto; [apply linked_core in L as [_ L]; apply L|apply Hz].
Qed.
End Relations.

Section Result.
Variables (n : nat) (nb : nat -> nat -> bool) (mp : nat) (clusters : list (list nat)) (noise : list nat).
Hypothesis Hsym : forall a b, a < n -> b < n -> nb a b = nb b a.
Hypothesis R : dbscan_result n nb mp clusters noise.

Lemma result_nodup : NoDup (concat clusters).
Proof.
  destruct R as (P & _). pose proof (Permutation_NoDup (Permutation_sym P) (seq_NoDup n 0)) as H. clear -H.
  induction (concat clusters) as [|x l IH]; [constructor|]. cbn [app] in H. inversion_clear H. constructor; auto. intros Hx. apply H0. apply in_or_app. auto.
Qed.

Lemma result_in x : x < n -> In x (concat clusters) \/ In x noise.
Proof. intros Hx. destruct R as (P & _). apply in_app_or. apply (Permutation_in _ (Permutation_sym P)), in_seq. lia. Qed.

Lemma result_lt c x : In c clusters -> In x c -> x < n.
Proof.
  intros Hc Hx. destruct R as (P & _). assert (In x (concat clusters ++ noise)) by (apply in_or_app; left; apply in_concat; eauto).
  apply (Permutation_in _ P), in_seq in H. lia.
Qed.

Lemma in_two gs : NoDup (concat gs) -> forall (c c' : list nat) x, In c gs -> In c' gs -> In x c -> In x c' -> c = c'.
Proof.
  induction gs as [|g gs IH]; intros N c c' x Hc Hc' Hx Hx'; [contradiction|]. cbn [concat] in N.
  assert (Hd : forall y, In y g -> ~ In y (concat gs)).
  { intros y H1 H2. clear -N H1 H2. induction g as [|z g IH]; [contradiction|]. inversion_clear N. destruct H1 as [->|H1]; [apply H, in_or_app; auto|auto]. }
  assert (Ng : NoDup (concat gs)) by (clear -N; induction g; [auto|inversion_clear N; auto]).
  destruct Hc as [<-|Hc], Hc' as [<-|Hc']; auto.
  - exfalso. apply (Hd x Hx). apply in_concat. eauto.
  - exfalso. apply (Hd x Hx'). apply in_concat. eauto.
  - eapply IH; eauto.
Qed.

Lemma core_clustered x : core n nb mp x -> exists c, In c clusters /\ In x c.
Proof.
  intros Hx. destruct (result_in x (proj1 Hx)) as [H|H]; [apply in_concat in H as (c & ? & ?); eauto|].
  destruct R as (_ & _ & _ & _ & N & _). apply N in H as (_ & H & _). contradiction.
Qed.

Lemma together_linked x y : core n nb mp x -> core n nb mp y -> (together clusters x y <-> linked n nb mp x y).
Proof.
  intros Hx Hy. destruct R as (_ & F & _). rewrite Forall_forall in F. split.
  - intros (c & Hc & Hxc & Hyc). destruct (F c Hc) as (p & t & -> & _ & H & _).
    apply H in Hxc; auto. apply H in Hyc; auto. apply linked_trans with p; auto. apply linked_sym; auto.
  - intros L. destruct (core_clustered x Hx) as (c & Hc & Hxc). exists c. split; auto. split; auto.
    destruct (F c Hc) as (p & t & -> & _ & H & _). apply H; auto. apply H in Hxc; auto. eapply linked_trans; eauto.
Qed.

Lemma heads p : In p (map (hd 0) clusters) <-> core n nb mp p /\ forall x, linked n nb mp p x -> p <= x.
Proof.
  destruct R as (_ & F & _). rewrite Forall_forall in F. split.
  - intros H. apply in_map_iff in H as (c & <- & Hc). destruct (F c Hc) as (p & t & -> & Hp & H1 & H2 & _). cbn [hd]. split; auto.
    intros x L. apply H2; [apply H1; auto; apply linked_core in L; tauto|apply linked_core in L; tauto].
  - intros [Hp Hm]. destruct (core_clustered p Hp) as (c & Hc & Hpc). destruct (F c Hc) as (q & t & -> & Hq & H1 & H2 & _).
    apply in_map_iff. exists (q :: t). split; auto. cbn [hd]. specialize (H2 p Hpc Hp).
    assert (L : linked n nb mp p q) by (apply linked_sym; auto; apply H1; auto). specialize (Hm q L). lia.
Qed.
End Result.

(** the specification leaves only the order inside the clusters open *)
Theorem result_unique n nb1 nb2 mp c1 n1 c2 n2 :
  (forall a b, a < n -> b < n -> nb1 a b = nb1 b a) -> (forall a b, a < n -> b < n -> nb1 a b = nb2 a b) ->
  dbscan_result n nb1 mp c1 n1 -> dbscan_result n nb2 mp c2 n2 ->
  Forall2 (@Permutation nat) c1 c2 /\ map (hd 0) c1 = map (hd 0) c2 /\ n1 = n2.
Proof.
  intros Hs He R1 R2.
  assert (Hs2 : forall a b, a < n -> b < n -> nb2 a b = nb2 b a) by (intros a b Ha Hb; rewrite <- !He by auto; auto).
  assert (Ec : forall x, core n nb1 mp x <-> core n nb2 mp x).
  { intros x. split; apply core_mono; auto; intros a b Ha Hb; rewrite He; auto. }
  assert (El : forall x y, linked n nb1 mp x y <-> linked n nb2 mp x y).
  { intros x y. split; apply linked_mono; auto; intros a b Ha Hb; rewrite He; auto. }
  assert (Eh : map (hd 0) c1 = map (hd 0) c2).
  { apply sorted_unique; [apply R1|apply R2|]. intros p. rewrite (heads n nb1 mp c1 n1 Hs R1), (heads n nb2 mp c2 n2 Hs2 R2), Ec.
    split; intros [H1 H2]; split; auto; intros x L; apply H2; apply El; auto. }
  assert (Ln : length c1 = length c2) by (rewrite <- (map_length (hd 0) c1), Eh; apply map_length).
  assert (Hk : forall k, k < length c1 -> hd 0 (nth k c1 []) = hd 0 (nth k c2 [])).
  { intros k Hk. rewrite <- !(map_nth (hd 0)). cbn [hd]. rewrite Eh. reflexivity. }
  assert (Cm : forall k x, k < length c1 -> core n nb1 mp x -> (In x (nth k c1 []) <-> In x (nth k c2 []))).
  { intros k x Hkl Hx. specialize (Hk k Hkl). destruct R1 as (_ & F1 & _), R2 as (_ & F2 & _). rewrite Forall_forall in F1, F2.
    destruct (F1 (nth k c1 [])) as (p & t & E1 & _ & H1 & _); [apply nth_In; auto|]. destruct (F2 (nth k c2 [])) as (q & u & E2 & _ & H2 & _); [apply nth_In; lia|].
    rewrite E1, E2 in *. cbn [hd] in Hk. subst q. rewrite (H1 x Hx), (H2 x (proj1 (Ec x) Hx)), El. reflexivity. }
  assert (Half : forall nb nb' ca na cb nc, dbscan_result n nb mp ca na -> dbscan_result n nb' mp cb nc -> length ca = length cb ->
     (forall a b, a < n -> b < n -> nb a b = nb' a b) -> (forall x, core n nb mp x <-> core n nb' mp x) ->
     (forall k x, k < length ca -> core n nb mp x -> (In x (nth k ca []) <-> In x (nth k cb []))) ->
     forall k x, k < length ca -> ~ core n nb mp x -> In x (nth k ca []) -> exists k', k' <= k /\ In x (nth k' cb [])).
  { clear. intros nb nb' ca na cb nc Ra Rb Ln He Ec Cm k x Hk Hx Hin.
    assert (Hc : In (nth k ca []) ca) by (apply nth_In; auto).
    assert (Hlt : x < n) by exact (result_lt n nb mp ca na Ra _ _ Hc Hin).
    pose proof Ra as (_ & F & _). rewrite Forall_forall in F. destruct (F _ Hc) as (p & t & E & _ & _ & _ & H4). destruct (H4 x Hin Hx) as (y & Hy & Hyc & Hn).
    destruct (result_in n nb' mp cb nc Rb x Hlt) as [H|H].
    - apply in_concat in H as (c & Hc' & Hxc). apply (In_nth _ _ []) in Hc' as (k' & Hk' & <-). exists k'. split; auto.
      destruct (Nat.le_gt_cases k' k) as [|Hgt]; auto. exfalso.
      pose proof Rb as (_ & _ & _ & B & _).
      assert (Hsplit : cb = firstn k' cb ++ nth k' cb [] :: skipn (S k') cb).
      { clear -Hk'. revert k' Hk'. induction cb as [|g cb IH]; intros [|k'] Hk'; simpl in *; try lia; auto. f_equal. apply IH. lia. }
      assert (Hf : nb' y x = false).
      { eapply (B _ _ _ x Hsplit Hxc); [intros Hcx; apply Hx, Ec; auto| | |apply Ec; exact Hyc].
        - assert (In (nth k (firstn k' cb) []) (firstn k' cb)) by (apply nth_In; rewrite firstn_length; lia). exact H.
        - assert (Hnth : nth k (firstn k' cb) [] = nth k cb []).
          { clear -Hgt. revert k k' Hgt. induction cb as [|g cb IH]; intros [|k] [|k'] H; simpl; auto; try lia. apply IH. lia. }
          rewrite Hnth. apply Cm; auto. }
      rewrite <- He in Hf; [congruence|apply Hyc|auto].
    - exfalso. pose proof Rb as (_ & _ & _ & _ & N & _). apply N in H as (_ & _ & H). rewrite He in Hn; [|apply Hyc|auto]. rewrite (H y) in Hn; [discriminate|]. apply Ec. auto. }
  assert (Mem : forall k x, k < length c1 -> (In x (nth k c1 []) <-> In x (nth k c2 []))).
  { intros k x Hkl.
    assert (Dc : core n nb1 mp x \/ ~ core n nb1 mp x).
    { unfold core. destruct (Nat.lt_ge_cases x n); [|right; intros [? ?]; lia]. destruct (Nat.le_gt_cases mp (length (filter (nb1 x) (seq 0 n)))); [left; auto|right; intros [? ?]; lia]. }
    destruct Dc as [Hx|Hx]; [apply Cm; auto|].
    assert (U1 : forall a b, In x (nth a c1 []) -> In x (nth b c1 []) -> a < length c1 -> b < length c1 -> a = b).
    { intros a b Ha Hb Hal Hbl. pose proof (in_two c1 (result_nodup _ _ _ _ _ R1) _ _ x (nth_In c1 [] Hal) (nth_In c1 [] Hbl) Ha Hb) as E.
      assert (ND : NoDup (map (hd 0) c1)). { destruct R1 as (_ & _ & S & _). clear -S. induction S; constructor; auto. intros Hin. rewrite Forall_forall in H. apply H in Hin. lia. }
      rewrite (NoDup_nth _ 0) in ND. apply ND; rewrite ?map_length; auto. rewrite !nth_hd. now rewrite E. }
    assert (U2 : forall a b, In x (nth a c2 []) -> In x (nth b c2 []) -> a < length c2 -> b < length c2 -> a = b).
    { intros a b Ha Hb Hal Hbl. pose proof (in_two c2 (result_nodup _ _ _ _ _ R2) _ _ x (nth_In c2 [] Hal) (nth_In c2 [] Hbl) Ha Hb) as E.
      assert (ND : NoDup (map (hd 0) c2)). { destruct R2 as (_ & _ & S & _). clear -S. induction S; constructor; auto. intros Hin. rewrite Forall_forall in H. apply H in Hin. lia. }
      rewrite (NoDup_nth _ 0) in ND. apply ND; rewrite ?map_length; auto. rewrite !nth_hd. now rewrite E. }
    assert (Cm2 : forall k x, k < length c2 -> core n nb2 mp x -> (In x (nth k c2 []) <-> In x (nth k c1 []))).
    { intros k' x' Hk' Hx'. symmetry. apply Cm; [lia|apply Ec; auto]. }
    split; intros Hin.
    - destruct (Half nb1 nb2 c1 n1 c2 n2 R1 R2 Ln He Ec Cm k x Hkl Hx Hin) as (k' & Hle & Hin').
      destruct (Half nb2 nb1 c2 n2 c1 n1 R2 R1 (eq_sym Ln) ltac:(intros; rewrite He; auto) ltac:(intros z; symmetry; apply Ec) Cm2 k' x ltac:(lia) ltac:(rewrite <- Ec; auto) Hin') as (k2 & Hle2 & Hin2).
      assert (k2 = k) by (apply U1; auto; lia). replace k with k' by lia. auto.
    - destruct (Half nb2 nb1 c2 n2 c1 n1 R2 R1 (eq_sym Ln) ltac:(intros; rewrite He; auto) ltac:(intros z; symmetry; apply Ec) Cm2 k x ltac:(lia) ltac:(rewrite <- Ec; auto) Hin) as (k' & Hle & Hin').
      destruct (Half nb1 nb2 c1 n1 c2 n2 R1 R2 Ln He Ec Cm k' x ltac:(lia) Hx Hin') as (k2 & Hle2 & Hin2).
      assert (k2 = k) by (apply U2; auto; lia). replace k with k' by lia. auto. }
  split; [|split; [exact Eh|]].
  - assert (G : forall ca cb : list (list nat), length ca = length cb -> NoDup (concat ca) -> NoDup (concat cb) ->
       (forall k x, k < length ca -> (In x (nth k ca []) <-> In x (nth k cb []))) -> Forall2 (@Permutation nat) ca cb).
    { clear. induction ca as [|a ca IH]; intros [|b cb] L Na Nb H; simpl in L; try lia; constructor.
      - cbn [concat] in Na, Nb. apply NoDup_Permutation.
        + clear -Na. induction a; [constructor|]. inversion_clear Na. constructor; auto. intros Hx. apply H, in_or_app. auto.
        + clear -Nb. induction b; [constructor|]. inversion_clear Nb. constructor; auto. intros Hx. apply H, in_or_app. auto.
        + intros x. apply (H 0 x). simpl. lia.
      - apply IH; [lia| | |].
        + cbn [concat] in Na. clear -Na. induction a; auto. inversion_clear Na. auto.
        + cbn [concat] in Nb. clear -Nb. induction b; auto. inversion_clear Nb. auto.
        + intros k x Hk. apply (H (S k) x). simpl. lia. }
    apply G; auto; eapply result_nodup; eauto.
  - apply sorted_unique; [apply R1|apply R2|]. intros x. destruct R1 as (_ & _ & _ & _ & N1 & _), R2 as (_ & _ & _ & _ & N2 & _). rewrite N1, N2, Ec.
    split; intros (H1 & H2 & H3); (split; [auto|split; [auto|]]); intros y Hy; specialize (H3 y); [rewrite <- He|rewrite He]; auto; try apply Hy; apply H3, Ec; auto.
Qed.

(** ** Points and their distance matrix *)
Lemma sq_le (a b : Q) : (0 <= a)%Q -> (0 <= b)%Q -> Qle_bool (a * a) (b * b) = Qle_bool a b.
Proof.
  intros Ha Hb. apply Bool.eq_iff_eq_true. rewrite !Qle_bool_iff. split; intros H; [|nra].
  destruct (Qlt_le_dec b a) as [Hl|Hl]; auto. exfalso. nra.
Qed.

Lemma sq_eq (a b : Q) : (0 <= a)%Q -> (0 <= b)%Q -> (a * a == b * b)%Q -> (a == b)%Q.
Proof.
  intros Ha Hb H. destruct (Q_dec a b) as [[Hl|Hl]|]; auto; exfalso; nra.
Qed.

Lemma distances_near data m eps : distances_of data m -> (0 <= eps)%Q ->
  forall x y, x < length data -> y < length data -> near data eps x y = near_matrix m eps x y.
Proof.
  intros (_ & _ & H) He x y Hx Hy. unfold near, near_matrix. f_equal. destruct (H x y Hx Hy) as [H0 H1]. rewrite <- (sq_le _ eps) by auto.
  apply Bool.eq_iff_eq_true. rewrite !Qle_bool_iff, H1. reflexivity.
Qed.

Lemma distances_symmetric data m : distances_of data m -> symmetric_matrix m.
Proof.
  intros (L & F & H). split; auto. intros i j Hi Hj. rewrite L in Hi, Hj. destruct (H i j Hi Hj) as [A1 A2], (H j i Hj Hi) as [B1 B2].
  apply sq_eq; auto. rewrite A2, B2. apply sqdist_sym.
Qed.

Theorem points_matrix_agree D data m eps minpts : 0 < D -> data <> [] -> same_dimension D data -> (0 <= eps)%Q -> distances_of data m ->
  exists cp cm noise, dbscan_points data eps minpts [] [] = Ok (cp, noise) /\ dbscan_matrix m eps minpts [] [] = Ok (cm, noise) /\
    Forall2 (@Permutation nat) cp cm.
Proof.
  intros HD Hne Hd He Hm. destruct (dbscan_points_correct D data eps minpts [] [] HD Hne Hd He) as (cp & np & E1 & R1).
  assert (Hmn : m <> []) by (intros ->; destruct Hm as (L & _); destruct data; [contradiction|discriminate L]).
  destruct (dbscan_matrix_correct m eps minpts [] [] Hmn (distances_symmetric _ _ Hm) He) as (cm & nm & E2 & R2).
  assert (L : length m = length data) by apply Hm. rewrite L in R2.
  destruct (result_unique (length data) (near data eps) (near_matrix m eps) minpts cp np cm nm) as (H1 & _ & H3); auto.
  - intros a b _ _. apply near_sym.
  - apply distances_near; auto.
  - subst nm. exists cp, cm, np. auto.
Qed.

(** ** Larger radius, fewer required neighbours *)
Lemma near_mono data e1 e2 : (0 <= e1)%Q -> (e1 <= e2)%Q -> forall a b, near data e1 a b = true -> near data e2 a b = true.
Proof.
  intros H0 H a b. unfold near. rewrite !andb_true_iff, !Qle_bool_iff. intros [H1 H2]. split; auto. nra.
Qed.

Lemma result_mono n nb1 nb2 mp1 mp2 c1 n1 c2 n2 : (forall a b, a < n -> b < n -> nb1 a b = nb1 b a) -> (forall a b, a < n -> b < n -> nb2 a b = nb2 b a) ->
  (forall a b, a < n -> b < n -> nb1 a b = true -> nb2 a b = true) -> mp2 <= mp1 ->
  dbscan_result n nb1 mp1 c1 n1 -> dbscan_result n nb2 mp2 c2 n2 ->
  incl n2 n1 /\ forall x y, core n nb1 mp1 x -> core n nb1 mp1 y -> together c1 x y -> together c2 x y.
Proof.
  intros S1 S2 Hn Hm R1 R2. split.
  - intros x Hx. destruct R1 as (_ & _ & _ & _ & N1 & _), R2 as (_ & _ & _ & _ & N2 & _). apply N1. apply N2 in Hx as (Hx & Hc & Hno).
    split; auto. split; [intros H; apply Hc; eapply core_mono; eauto|]. intros y Hy. destruct (nb1 y x) eqn:E; auto.
    apply Hn in E; [|apply Hy|auto]. rewrite (Hno y) in E; [discriminate|]. eapply core_mono; eauto.
  - intros x y Hx Hy H. apply (together_linked n nb1 mp1 c1 n1 S1 R1) in H; auto.
    apply (together_linked n nb2 mp2 c2 n2 S2 R2); try (eapply core_mono; eauto). eapply linked_mono; eauto.
Qed.

Theorem dbscan_monotone D data e1 e2 m1 m2 : 0 < D -> data <> [] -> same_dimension D data -> (0 <= e1)%Q -> (e1 <= e2)%Q -> m2 <= m1 ->
  exists c1 n1 c2 n2, dbscan_points data e1 m1 [] [] = Ok (c1, n1) /\ dbscan_points data e2 m2 [] [] = Ok (c2, n2) /\
    incl n2 n1 /\
    forall x y, core (length data) (near data e1) m1 x -> core (length data) (near data e1) m1 y -> together c1 x y -> together c2 x y.
Proof.
  intros HD Hne Hd He Hle Hm. destruct (dbscan_points_correct D data e1 m1 [] [] HD Hne Hd He) as (c1 & n1 & E1 & R1).
  destruct (dbscan_points_correct D data e2 m2 [] [] HD Hne Hd ltac:(lra)) as (c2 & n2 & E2 & R2).
  exists c1, n1, c2, n2. split; auto. split; auto.
  eapply result_mono; [| | |exact Hm|exact R1|exact R2]; intros; try apply near_sym. eapply near_mono; eauto.
Qed.

(** ** Order of the points *)
Section Reorder.
Variables (n : nat) (nb nb' : nat -> nat -> bool) (mp : nat) (s : nat -> nat).
Hypothesis Hs : Permutation (map s (seq 0 n)) (seq 0 n).
Hypothesis Hnb : forall i j, i < n -> j < n -> nb' i j = nb (s i) (s j).

Lemma s_lt i : i < n -> s i < n.
Proof. intros H. assert (In (s i) (seq 0 n)) by (apply (Permutation_in _ Hs), in_map, in_seq; lia). apply in_seq in H0. lia. Qed.

Lemma s_onto k : k < n -> exists i, i < n /\ s i = k.
Proof.
  intros H. assert (In k (map s (seq 0 n))) by (apply (Permutation_in _ (Permutation_sym Hs)), in_seq; lia).
  apply in_map_iff in H0 as (i & E & Hi). apply in_seq in Hi. exists i. split; auto. lia.
Qed.

Lemma filter_map {A B} (f : A -> B) (p : B -> bool) l : filter p (map f l) = map f (filter (fun x => p (f x)) l).
Proof. induction l as [|x l IH]; auto. cbn [map filter]. destruct (p (f x)); cbn [map]; now rewrite IH. Qed.

Lemma filter_perm {A} (p : A -> bool) l l' : Permutation l l' -> Permutation (filter p l) (filter p l').
Proof.
  induction 1; cbn [filter]; auto; [destruct (p x); auto|destruct (p x), (p y); auto; constructor|]. eapply Permutation_trans; eauto.
Qed.

Lemma core_reorder i : i < n -> (core n nb' mp i <-> core n nb mp (s i)).
Proof.
  intros Hi. unfold core.
  assert (E : length (filter (nb' i) (seq 0 n)) = length (filter (nb (s i)) (seq 0 n))).
  { rewrite <- (Permutation_length (filter_perm (nb (s i)) _ _ Hs)), filter_map, map_length. f_equal. apply filter_ext_in.
    intros j Hj. apply in_seq in Hj. apply Hnb; lia. }
  rewrite E. pose proof (s_lt i Hi). tauto.
Qed.

Lemma linked_reorder1 i j : linked n nb' mp i j -> linked n nb mp (s i) (s j).
Proof.
  induction 1 as [x H|x y z H IH Hz Hn]; [constructor; apply core_reorder; auto; apply H|].
  apply linked_step with (s y); auto; [apply core_reorder; auto; apply Hz|]. rewrite <- Hnb; auto; [apply linked_core in H as [_ H]; apply H|apply Hz].
Qed.

Lemma linked_reorder2 a b : linked n nb mp a b -> forall i j, i < n -> j < n -> s i = a -> s j = b -> linked n nb' mp i j.
Proof.
  induction 1 as [x H|x y z H IH Hz Hn]; intros i j Hi Hj E1 E2; subst.
  - assert (i = j) as ->.
    { assert (ND : NoDup (map s (seq 0 n))) by (apply (Permutation_NoDup (Permutation_sym Hs)), seq_NoDup).
      rewrite (NoDup_nth _ (s 0)) in ND. apply ND; rewrite ?map_length, ?seq_length; auto. rewrite !map_nth, !seq_nth by auto. simpl. auto. }
    constructor. apply core_reorder; auto.
  - destruct (s_onto y) as (k & Hk & E); [apply linked_core in H as [_ H]; apply H|]. apply linked_step with k.
    + apply IH; auto.
    + apply core_reorder; auto.
    + rewrite Hnb, E; auto.
Qed.

Lemma linked_reorder i j : i < n -> j < n -> (linked n nb' mp i j <-> linked n nb mp (s i) (s j)).
Proof. intros Hi Hj. split; [apply linked_reorder1|]. intros H. eapply linked_reorder2; eauto. Qed.
End Reorder.

(** every element of the list has a partner; different elements have different ones *)
Lemma partners {A B} (P : A -> B -> Prop) (l : list A) (l' : list B) : NoDup l -> (forall x, In x l -> exists y, In y l' /\ P x y) ->
  (forall x1 x2 y, In x1 l -> In x2 l -> P x1 y -> P x2 y -> x1 = x2) -> length l <= length l'.
Proof.
  intros N H I. assert (E : exists ys, length ys = length l /\ incl ys l' /\ NoDup ys /\ forall y, In y ys -> exists x, In x l /\ P x y).
  { induction l as [|x l IH]; [exists []; repeat split; auto; [intros ? []|constructor|intros ? []]|]. inversion_clear N as [|? ? Nx Nl].
    destruct IH as (ys & L & Hi & Hn & Hp); auto; [intros z Hz; apply H; now right|intros x1 x2 y Hx1 Hx2; apply I; now right|].
    destruct (H x (or_introl eq_refl)) as (y & Hy & Py). exists (y :: ys). repeat split; [simpl; lia|intros z [<-|Hz]; auto| |].
    - constructor; auto. intros Hin. destruct (Hp y Hin) as (x' & Hx' & Px'). apply Nx. rewrite (I x x' y); auto; [now left|now right].
    - intros z [<-|Hz]; [exists x; split; auto; now left|]. destruct (Hp z Hz) as (x' & ? & ?). exists x'. split; auto. now right. }
  destruct E as (ys & <- & Hi & Hn & _). apply NoDup_incl_length; auto.
Qed.

Lemma sorted_nodup (l : list nat) : StronglySorted lt l -> NoDup l.
Proof. induction 1 as [|x l S IH F]; constructor; auto. rewrite Forall_forall in F. intros H. apply F in H. lia. Qed.

Lemma cluster_of_core n nb mp c ns : (forall a b, a < n -> b < n -> nb a b = nb b a) -> dbscan_result n nb mp c ns ->
  forall x, core n nb mp x -> exists q, In q (map (hd 0) c) /\ linked n nb mp x q.
Proof.
  intros S R x Hx. destruct (core_clustered n nb mp c ns R x Hx) as (g & Hg & Hxg). exists (hd 0 g). split; [now apply in_map|].
  pose proof R as (_ & F & _). rewrite Forall_forall in F. destruct (F g Hg) as (p & t & -> & Hp & H1 & _). cbn [hd]. apply linked_sym; auto. apply H1; auto.
Qed.

Lemma result_reorder n nb nb' mp s c ns c' ns' : (forall a b, a < n -> b < n -> nb a b = nb b a) ->
  Permutation (map s (seq 0 n)) (seq 0 n) -> (forall i j, i < n -> j < n -> nb' i j = nb (s i) (s j)) ->
  dbscan_result n nb mp c ns -> dbscan_result n nb' mp c' ns' ->
  length c' = length c /\ (forall i, i < n -> (In i ns' <-> In (s i) ns)) /\
  (forall i j, core n nb mp (s i) -> core n nb mp (s j) -> i < n -> j < n -> (together c' i j <-> together c (s i) (s j))).
Proof.
  intros S Hs Hnb R R'.
  assert (S' : forall a b, a < n -> b < n -> nb' a b = nb' b a) by (intros a b Ha Hb; rewrite !Hnb by auto; apply S; apply (s_lt n s Hs); auto).
  assert (Min : forall nb mp c ns, (forall a b, a < n -> b < n -> nb a b = nb b a) -> dbscan_result n nb mp c ns ->
    forall p q, In p (map (hd 0) c) -> In q (map (hd 0) c) -> linked n nb mp p q -> p = q).
  { clear. intros nb mp c ns S R p q Hp Hq L. apply (heads n nb mp c ns S R) in Hp as [_ Hp]. apply (heads n nb mp c ns S R) in Hq as [_ Hq].
    specialize (Hp q L). specialize (Hq p (linked_sym n nb mp p q S L)). lia. }
  split; [|split].
  - apply Nat.le_antisymm; rewrite <- (map_length (hd 0) c), <- (map_length (hd 0) c').
    + apply (partners (fun p q => linked n nb mp (s p) q)); [apply sorted_nodup, R'| |].
      * intros p Hp. apply (cluster_of_core n nb mp c ns S R). apply (heads n nb' mp c' ns' S' R') in Hp as [Hp _]. apply (core_reorder n nb nb' mp s Hs Hnb); auto. apply Hp.
      * intros p1 p2 q H1 H2 L1 L2. apply (Min nb' mp c' ns' S' R'); auto.
        apply (heads n nb' mp c' ns' S' R') in H1 as [H1 _]. apply (heads n nb' mp c' ns' S' R') in H2 as [H2 _].
        apply (linked_reorder n nb nb' mp s Hs Hnb); [apply H1|apply H2|]. eapply linked_trans; [exact L1|]. apply linked_sym; auto.
    + apply (partners (fun p q => linked n nb mp p (s q) /\ q < n)); [apply sorted_nodup, R| |].
      * intros p Hp. apply (heads n nb mp c ns S R) in Hp as [Hp _]. destruct (s_onto n s Hs p (proj1 Hp)) as (i & Hi & <-).
        apply (core_reorder n nb nb' mp s Hs Hnb i Hi) in Hp. destruct (cluster_of_core n nb' mp c' ns' S' R' i Hp) as (q & Hq & L).
        exists q. split; auto. pose proof (linked_core _ _ _ _ _ L) as [_ [Hql _]]. split; auto. apply (linked_reorder n nb nb' mp s Hs Hnb); auto.
      * intros p1 p2 q H1 H2 [L1 _] [L2 _]. apply (Min nb mp c ns S R); auto. eapply linked_trans; [exact L1|]. apply linked_sym; auto.
  - intros i Hi. destruct R as (_ & _ & _ & _ & N & _), R' as (_ & _ & _ & _ & N' & _). rewrite N, N', (core_reorder n nb nb' mp s Hs Hnb i Hi).
    split; intros (H1 & H2 & H3); split; auto using (s_lt n s Hs).
    + split; auto. intros y Hy. destruct (s_onto n s Hs y (proj1 Hy)) as (j & Hj & <-). rewrite <- Hnb by auto. apply H3. apply (core_reorder n nb nb' mp s Hs Hnb); auto.
    + split; auto. intros y Hy. rewrite Hnb; [|apply Hy|auto]. apply H3. apply (core_reorder n nb nb' mp s Hs Hnb); auto. apply Hy.
  - intros i j Hci Hcj Hi Hj. rewrite (together_linked n nb mp c ns S R) by auto.
    rewrite (together_linked n nb' mp c' ns' S' R') by (apply (core_reorder n nb nb' mp s Hs Hnb); auto). apply linked_reorder; auto.
Qed.

Theorem dbscan_reordered D data data' s eps minpts : 0 < D -> data <> [] -> same_dimension D data -> (0 <= eps)%Q -> reordered data data' s ->
  exists c noise c' noise', dbscan_points data eps minpts [] [] = Ok (c, noise) /\ dbscan_points data' eps minpts [] [] = Ok (c', noise') /\
    length c' = length c /\ (forall i, i < length data -> (In i noise' <-> In (s i) noise)) /\
    (forall i j, i < length data -> j < length data -> core (length data) (near data eps) minpts (s i) -> core (length data) (near data eps) minpts (s j) ->
       (together c' i j <-> together c (s i) (s j))).
Proof.
  intros HD Hne Hd He (L & Hs & Hn).
  assert (Hne' : data' <> []) by (intros ->; destruct data; [contradiction|discriminate L]).
  assert (Hd' : same_dimension D data').
  { unfold same_dimension in *. rewrite Forall_forall in *. intros p Hp. apply (In_nth _ _ []) in Hp as (i & Hi' & <-). assert (Hi : i < length data) by (rewrite <- L; exact Hi'). rewrite Hn by exact Hi. apply Hd, nth_In. apply (s_lt (length data) s Hs). exact Hi. }
  destruct (dbscan_points_correct D data eps minpts [] [] HD Hne Hd He) as (c & ns & E & R).
  destruct (dbscan_points_correct D data' eps minpts [] [] HD Hne' Hd' He) as (c' & ns' & E' & R'). rewrite L in R'.
  exists c, ns, c', ns'. split; auto. split; auto.
  destruct (result_reorder (length data) (near data eps) (near data' eps) minpts s c ns c' ns') as (H1 & H2 & H3); auto.
  - intros a b _ _. apply near_sym.
  - assert (Inj : forall i j, i < length data -> j < length data -> s i = s j -> i = j).
    { intros i j Hi Hj Es. assert (ND : NoDup (map s (seq 0 (length data)))) by (apply (Permutation_NoDup (Permutation_sym Hs)), seq_NoDup).
      rewrite (NoDup_nth _ (s 0)) in ND. apply ND; rewrite ?map_length, ?seq_length; auto. rewrite !map_nth, !seq_nth by auto. simpl. auto. }
    intros i j Hi Hj. unfold near. rewrite !Hn by auto. f_equal. f_equal.
    destruct (j =? i) eqn:Ej; [apply Nat.eqb_eq in Ej; subst; symmetry; apply Nat.eqb_refl|].
    symmetry. apply Nat.eqb_neq. apply Nat.eqb_neq in Ej. intros Es. apply Ej, Inj; auto.
Qed.
