(** C262: silhouette scores depend neither on the order of the points nor on that of the clusters and their members. *)
From Verif Require Import Base Kmeans_Model Kmeans_Proofs Silhouette_Model Silhouette_Proofs Silhouette_Props Reorder_Props.
Open Scope nat_scope.

(** ** specification *)
(** the same groups in another order, their members in another order and under their new numbers: [ord] tells for each new position the old one *)
Definition same_groups (ord : list nat) (clusters clusters' : list (list nat)) : Prop :=
  exists mixed, Permutation mixed clusters /\ Forall2 (fun g g' => Permutation g (map (fun i => nth i ord 0) g')) mixed clusters'.

Section Order.
Variables (rows rows' : list (list Q)) (clusters clusters' : list (list nat)) (ord : list nat).
Notation n := (length rows).
Notation f := (fun i => nth i ord 0).
Hypothesis Hcl : clustering rows clusters.
Hypothesis Hord : Permutation ord (seq 0 n).
Hypothesis Hn' : length rows' = n.
Hypothesis Hsq' : forall r, In r rows' -> length r = length rows'.
Hypothesis Hd : forall i j, i < n -> j < n -> dist rows' i j = dist rows (f i) (f j).
Hypothesis Hv' : forall c i, In c clusters' -> In i c -> i < n.
Hypothesis Hs : same_groups ord clusters clusters'.

Lemma len_ord : length ord = n. Proof. rewrite (Permutation_length Hord). apply seq_length. Qed.
Lemma f_bound i : i < n -> f i < n.
Proof. intro H. assert (I : In (f i) ord) by (apply nth_In; rewrite len_ord; exact H). apply (Permutation_in _ Hord), in_seq in I. lia. Qed.
Lemma f_inj i j : i < n -> j < n -> f i = f j -> i = j.
Proof. intros Hi Hj E. apply (proj1 (NoDup_nth ord 0)); rewrite ?len_ord; auto. apply (Permutation_NoDup (Permutation_sym Hord)), seq_NoDup. Qed.

Lemma pairs : length clusters' = length clusters /\
  (forall c', c' < length clusters' -> exists c, c < length clusters /\ Permutation (nth c clusters []) (map f (nth c' clusters' []))) /\
  (forall c, c < length clusters -> exists c', c' < length clusters' /\ Permutation (nth c clusters []) (map f (nth c' clusters' []))).
Proof.
  destruct Hs as (mixed & P & F). assert (L : length clusters' = length mixed) by (clear - F; induction F; cbn; lia).
  assert (N : forall c, c < length mixed -> Permutation (nth c mixed []) (map f (nth c clusters' []))).
  { clear - F. induction F as [|g g' l l' H1 H2 IH]; [cbn; lia|]. intros [|c] Hc; cbn in *; [exact H1|]. apply IH. lia. }
  split; [rewrite L; apply Permutation_length, P|]. split.
  - intros c' Hc'. rewrite L in Hc'. assert (I : In (nth c' mixed []) clusters) by (apply (Permutation_in _ P), nth_In, Hc'). apply (In_nth _ _ []) in I as (c & Hc & E). exists c. split; [exact Hc|]. rewrite E. now apply N.
  - intros c Hc. assert (I : In (nth c clusters []) mixed) by (apply (Permutation_in _ (Permutation_sym P)), nth_In, Hc). apply (In_nth _ _ []) in I as (c' & Hc' & E). exists c'. split; [now rewrite L|]. rewrite <- E. now apply N.
Qed.
Lemma disjoint' : NoDup (concat clusters').
Proof.
  destruct Hcl as (_ & _ & _ & _ & _ & D & _). destruct Hs as (mixed & P & F). assert (N : NoDup (map f (concat clusters'))).
  { apply (Permutation_NoDup (l := concat clusters)); [|exact D]. apply Permutation_trans with (concat mixed); [apply concat_perm, Permutation_sym, P|].
    clear - F. induction F as [|g g' l l' H1 H2 IH]; cbn [concat map]; [apply perm_nil|]. rewrite map_app. now apply Permutation_app. }
  apply NoDup_map_inv in N. exact N.
Qed.
Lemma sum_perm i l l' : Permutation l l' -> (dsum rows i l == dsum rows i l')%Q.
Proof. unfold dsum. induction 1; cbn [map fold_right]; lra. Qed.
Lemma mean_perm i l l' : Permutation l l' -> (mean_distance rows i l == mean_distance rows i l')%Q.
Proof. intro P. unfold mean_distance, count. now rewrite (sum_perm i _ _ P), (Permutation_length P). Qed.
Lemma mean_moved i l : i < n -> (forall j, In j l -> j < n) -> (mean_distance rows' i l == mean_distance rows (f i) (map f l))%Q.
Proof.
  intros Hi H. unfold mean_distance, count. rewrite map_length. assert (E : dsum rows' i l = dsum rows (f i) (map f l)); [|now rewrite E].
  unfold dsum. rewrite map_map. f_equal. apply map_ext_in. intros j Hj. now apply Hd; auto.
Qed.
Lemma remove_moved i l : i < n -> (forall j, In j l -> j < n) -> map f (remove Nat.eq_dec i l) = remove Nat.eq_dec (f i) (map f l).
Proof.
  intros Hi H. induction l as [|j l IH]; [reflexivity|]. assert (IH' := IH (fun x Hx => H x (or_intror Hx))). cbn [remove map]. destruct (Nat.eq_dec i j) as [E|E].
  - subst j. destruct (Nat.eq_dec (nth i ord 0) (nth i ord 0)) as [_|E']; [exact IH'|congruence].
  - destruct (Nat.eq_dec (nth i ord 0) (nth j ord 0)) as [E'|E'].
    + exfalso. apply E. apply f_inj; auto. apply H. now left.
    + cbn [map]. f_equal. exact IH'.
Qed.
Lemma remove_perm i l l' : Permutation l l' -> Permutation (remove Nat.eq_dec i l) (remove Nat.eq_dec i l').
Proof.
  induction 1 as [|x l l' H IH|x y l|l l' l'' H IH H' IH']; cbn [remove]; [constructor| | |eapply Permutation_trans; eauto].
  - destruct (Nat.eq_dec i x); auto.
  - destruct (Nat.eq_dec i x), (Nat.eq_dec i y); auto. apply perm_swap.
Qed.

Lemma clustering' : clustering rows' clusters'.
Proof.
  destruct Hcl as (H1 & H2 & H3 & H4 & H5 & H6 & H7 & H8). destruct pairs as (P1 & P2 & _). unfold clustering. rewrite Hn'. split; [intro E; rewrite E in Hn'; destruct rows; [congruence|discriminate]|]. split; [intros; rewrite <- Hn'; now apply Hsq'|].
  split; [intros i j Hi Hj; rewrite Hd by assumption; apply H3; now apply f_bound|]. split; [intros i Hi; rewrite Hd by assumption; apply H4; now apply f_bound|]. split; [intro E; rewrite E in P1; destruct clusters; [congruence|discriminate]|].
  split; [exact disjoint'|]. split; [|exact Hv']. intros c Hc ->. apply (In_nth _ _ []) in Hc as (k & Hk & E). destruct (P2 k Hk) as (c & Hc & P). rewrite E in P. cbn in P. apply Permutation_sym, Permutation_nil in P. apply (H7 (nth c clusters [])); [now apply nth_In|exact P].
Qed.

Lemma scores_agree i c c' s s' : 2 <= length clusters -> c < length clusters -> c' < length clusters' -> In i (nth c' clusters' []) ->
  Permutation (nth c clusters []) (map f (nth c' clusters' [])) -> right_score rows clusters (f i) c s -> right_score rows' clusters' i c' s' -> fl_eq s s'.
Proof.
  intros H2 Hc Hc' Hi P R R'. destruct pairs as (P1 & P2 & P3).
  assert (In_i : i < n) by (eapply Hv'; [apply nth_In, Hc'|exact Hi]).
  assert (Hvn : forall c j, c < length clusters' -> In j (nth c clusters' []) -> j < n) by (intros d j Hd' Hj; eapply Hv'; [apply nth_In, Hd'|exact Hj]).
  assert (Len : length (nth c clusters []) = length (nth c' clusters' [])) by (rewrite (Permutation_length P); apply map_length).
  assert (A : (mean_distance rows' i (others clusters' i c') == mean_distance rows (f i) (others clusters (f i) c))%Q).
  { unfold others. rewrite mean_moved; [|exact In_i|intros j Hj; apply in_remove in Hj; eapply Hvn; [exact Hc'|tauto]]. rewrite remove_moved; [|exact In_i|intros j Hj; now apply (Hvn c')]. apply mean_perm, remove_perm, Permutation_sym, P. }
  assert (M : forall d d', d < length clusters -> d' < length clusters' -> Permutation (nth d clusters []) (map f (nth d' clusters' [])) -> (d = c <-> d' = c') /\ (mean_distance rows' i (nth d' clusters' []) == mean_distance rows (f i) (nth d clusters []))%Q).
  { intros d d' Hd1 Hd2 Pd. split.
    - split; intros ->.
      + assert (J : In (f i) (map f (nth d' clusters' []))) by (apply (Permutation_in _ Pd), (Permutation_in _ (Permutation_sym P)), (in_map f), Hi). apply in_map_iff in J as (x & Ex & Hx). apply f_inj in Ex; [|now apply (Hvn d')|exact In_i]. subst x.
        destruct clustering' as (_ & _ & _ & _ & _ & D' & _). eapply concat_nth_disjoint; eauto.
      + assert (J : In (f i) (nth d clusters [])) by (apply (Permutation_in _ (Permutation_sym Pd)), (in_map f), Hi). assert (J' : In (f i) (nth c clusters [])) by (apply (Permutation_in _ (Permutation_sym P)), (in_map f), Hi).
        destruct Hcl as (_ & _ & _ & _ & _ & D & _). eapply concat_nth_disjoint; eauto.
    - rewrite mean_moved; [|exact In_i|intros j Hj; now apply (Hvn d')]. apply mean_perm, Permutation_sym, Pd. }
  assert (B : forall b b', nearest_mean rows clusters (f i) c b -> nearest_mean rows' clusters' i c' b' -> (b == b')%Q).
  { intros b b' [(x & X1 & X2 & X3) X4] [(y & Y1 & Y2 & Y3) Y4]. destruct (P3 x X1) as (x' & X1' & Px). destruct (P2 y Y1) as (y' & Y1' & Py). destruct (M x x' X1 X1' Px) as (E1 & E2). destruct (M y' y Y1' Y1 Py) as (E3 & E4).
    apply Qle_antisym; [rewrite Y3, E4; apply X4; [exact Y1'|tauto]|rewrite X3, <- E2; apply Y4; [exact X1'|tauto]]. }
  destruct R as [(R1 & ->)|[(R1 & R2 & _)|(R1 & R2 & a & b & Ra & Rb & Rs)]]; [|lia|]; destruct R' as [(R1' & ->)|[(R1' & R2' & _)|(R1' & R2' & a' & b' & Ra' & Rb' & Rs')]]; try lia; [exact I|].
  specialize (B b b' Rb Rb'). assert (Ea : (a == a')%Q) by (rewrite Ra, Ra', A; reflexivity).
  destruct Rs as [(Z1 & Z2 & ->)|(q & m & -> & Q1 & Q2 & Q3 & Q4 & Q5)]; destruct Rs' as [(Z1' & Z2' & ->)|(q' & m' & -> & Q1' & Q2' & Q3' & Q4' & Q5')]; [exact I| | |].
  - destruct Q2'; lra.
  - destruct Q2; lra.
  - cbn [fl_eq]. assert (Em : (m == m')%Q) by (destruct Q2, Q2'; lra). assert (E : (q * m == q' * m)%Q) by (rewrite Q5, B, Ea, Em, Q5'; reflexivity). apply Qmult_inj_r in E; [exact E|lra].
Qed.

Theorem same_scores : 2 <= length clusters -> exists score score', process rows clusters = Ok score /\ process rows' clusters' = Ok score' /\ length score = n /\ length score' = n /\
  forall i, i < n -> fl_eq (nth (f i) score NaN) (nth i score' NaN).
Proof.
  intro H2. pose proof clustering' as C'. destruct C' as (H1' & H2' & H3' & H4' & H5' & H6' & H7' & H8'). pose proof Hcl as C. destruct C as (H1 & H2a & H3 & H4 & H5 & H6 & H7 & H8). destruct pairs as (P1 & P2 & P3).
  destruct (process_spec rows clusters H2a H8 H6 H7 H3 H4 H1 H5) as (score & E & L & A & B). destruct (process_spec rows' clusters' H2' H8' H6' H7' H3' H4' H1' H5') as (score' & E' & L' & A' & B').
  exists score, score'. split; [exact E|]. split; [exact E'|]. split; [exact L|]. split; [congruence|]. intros i Hi.
  destruct (in_dec Nat.eq_dec i (concat clusters')) as [I|I].
  - apply in_concat in I as (g & Hg & Hig). apply (In_nth _ _ []) in Hg as (c' & Hc' & <-). destruct (P2 c' Hc') as (c & Hc & P). eapply (scores_agree i c c'); eauto. apply A; [exact Hc|]. apply (Permutation_in _ (Permutation_sym P)), (in_map f), Hig.
  - rewrite B' by (rewrite ?Hn'; assumption). rewrite B; [cbn [fl_eq]; reflexivity|now apply f_bound|]. intro J. apply in_concat in J as (g & Hg & Hig). apply (In_nth _ _ []) in Hg as (c & Hc & <-). destruct (P3 c Hc) as (c' & Hc' & P).
    apply (Permutation_in _ P) in Hig. apply in_map_iff in Hig as (x & Ex & Hx). apply I. apply in_concat. exists (nth c' clusters' []). split; [now apply nth_In|]. assert (x = i) as <-; [|exact Hx]. apply f_inj; [eapply Hv'; [apply nth_In, Hc'|exact Hx]|exact Hi|exact Ex].
Qed.
End Order.

(** a table of distances, read in another order *)
Theorem C262_matrix rows clusters ord clusters' : clustering rows clusters -> 2 <= length clusters -> Permutation ord (seq 0 (length rows)) ->
  (forall c i, In c clusters' -> In i c -> i < length rows) -> same_groups ord clusters clusters' ->
  exists score score', process rows clusters = Ok score /\ process (map (fun i => map (dist rows i) ord) ord) clusters' = Ok score' /\
    length score = length rows /\ length score' = length rows /\ forall i, i < length rows -> fl_eq (nth (nth i ord 0) score NaN) (nth i score' NaN).
Proof.
  intros Hc H2 Ho Hv Hs. assert (Lo : length ord = length rows) by (rewrite (Permutation_length Ho); apply seq_length).
  apply same_scores; auto.
  - now rewrite map_length.
  - intros r Hr. apply in_map_iff in Hr as (i & <- & _). now rewrite !map_length.
  - intros i j Hi Hj. unfold dist at 1. rewrite (nth_indep _ [] (map (dist rows 0) ord)) by (rewrite map_length; lia). rewrite (map_nth (fun i => map (dist rows i) ord) ord 0 i).
    rewrite (nth_indep _ 0%Q (dist rows (nth i ord 0) 0)) by (rewrite map_length; lia). apply (map_nth (dist rows (nth i ord 0))).
Qed.
Print Assumptions C262_matrix.

(** points, given in another order *)
Theorem C262_points data clusters ord clusters' : clusters <> [] -> NoDup (concat clusters) -> (forall c, In c clusters -> c <> []) -> (forall c i, In c clusters -> In i c -> i < length data) ->
  2 <= length clusters -> Permutation ord (seq 0 (length data)) -> (forall c i, In c clusters' -> In i c -> i < length data) -> same_groups ord clusters clusters' ->
  exists score score', process (point_rows data) clusters = Ok score /\ process (point_rows (pick data ord)) clusters' = Ok score' /\
    length score = length data /\ length score' = length data /\ forall i, i < length data -> fl_eq (nth (nth i ord 0) score NaN) (nth i score' NaN).
Proof.
  intros Hc Hnd Hne Hv H2 Ho Hv' Hs. assert (Hd : data <> []). { intros ->. destruct clusters as [|g t]; [congruence|]. pose proof (Hne g (or_introl eq_refl)). destruct g as [|i g]; [congruence|]. specialize (Hv _ i (or_introl eq_refl) (or_introl eq_refl)). cbn in Hv. lia. }
  pose proof (points_clustering data clusters Hd Hc Hnd Hne Hv) as C. assert (Lo : length ord = length data) by (rewrite (Permutation_length Ho); apply seq_length).
  rewrite <- (point_rows_length data). apply same_scores; rewrite ?point_rows_length; auto.
  - unfold pick. now rewrite map_length.
  - intros r Hr. apply point_rows_square in Hr. now rewrite point_rows_length in Hr.
  - intros i j Hi Hj. assert (B : forall k, k < length data -> nth k ord 0 < length data). { intros k Hk. assert (I : In (nth k ord 0) ord) by (apply nth_In; lia). apply (Permutation_in _ Ho), in_seq in I. lia. }
    rewrite !point_rows_dist by (unfold pick; rewrite ?map_length, ?Lo; auto). assert (W : forall k, k < length data -> nth k (pick data ord) [] = nth (nth k ord 0) data []). { intros k Hk. unfold pick. rewrite (nth_indep _ [] (nth 0 data [])) by (rewrite map_length; lia). apply (map_nth (fun i => nth i data []) ord 0). }
    now rewrite !W by assumption.
Qed.
Print Assumptions C262_points.

Example C262_example : let data := [[0%Q]; [1%Q]; [5%Q]; [7%Q]] in let ord := [2; 0; 3; 1] in
  same_groups ord [[0; 1]; [2; 3]] [[2; 0]; [1; 3]] /\ Permutation ord (seq 0 4) /\
  process (point_rows data) [[0; 1]; [2; 3]] = Ok [Fin (144 # 148); Fin (100 # 104); Fin (66 # 82); Fin (154 # 170)] /\
  process (point_rows (pick data ord)) [[2; 0]; [1; 3]] = Ok [Fin (66 # 82); Fin (144 # 148); Fin (154 # 170); Fin (100 # 104)].
Proof.
  split; [|split; [|split; vm_compute; reflexivity]].
  - exists [[2; 3]; [0; 1]]. split; [apply perm_swap|]. constructor; [cbn; apply perm_swap|]. constructor; [apply Permutation_refl|constructor].
  - apply (Permutation_count_occ Nat.eq_dec). intro x. do 5 (destruct x; [reflexivity|]). reflexivity.
Qed.
