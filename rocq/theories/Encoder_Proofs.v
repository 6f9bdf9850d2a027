(** Specification and proofs for the cluster encoder (C07, C08). *)
From Verif Require Import Base Encoder_Model.

(** ** Specification *)
(** a clustering of [n] points: no point twice, only existing points *)
Definition clustering (n : nat) (cl : list (list nat)) : Prop :=
  NoDup (concat cl) /\ Forall (fun i => i < n) (concat cl).
Definition ascending (cl : list (list nat)) : Prop := Forall (StronglySorted lt) cl.

(** [labels] describes [cl]: point [i] carries label [c] exactly when it is a member of cluster [c] *)
Definition labels_describe (n : nat) (cl : list (list nat)) (labels : list (option nat)) : Prop :=
  length labels = n /\
  forall i c, i < n -> (nth_error labels i = Some (Some c) <-> exists g, nth_error cl c = Some g /\ In i g).

(** the first point carries a label (otherwise python's [max] is NaN) *)
Definition first_labelled (labels : list (option nat)) : Prop := exists c t, labels = Some c :: t.

(** the objects selected by the indices of [cl] *)
Definition objects_at {A} (data : list A) (cl : list (list nat)) (obs : list (list A)) : Prop :=
  Forall2 (Forall2 (fun i x => nth_error data i = Some x)) cl obs.

(** ** Index lists to labels *)
Lemma mark_all_spec c cluster : forall labels, Forall (fun i => i < length labels) cluster ->
  exists l', mark_all labels c cluster = Ok l' /\ length l' = length labels /\
    forall i, (In i cluster -> nth i l' None = Some c) /\ (~ In i cluster -> nth i l' None = nth i labels None).
Proof.
  induction cluster as [|x t IH]; intros labels Hall; simpl.
  - exists labels. split; auto. split; auto. intros i; split; [intros []|auto].
  - inversion Hall as [|a b Hx Ht]; subst. unfold set_item.
    rewrite (proj2 (Nat.ltb_lt _ _) Hx). cbn [bind].
    destruct (IH (upd labels x (Some c))) as [l' [E [Hl Hn]]]; [rewrite upd_length; auto|].
    rewrite upd_length in Hl. exists l'. split; auto. split; auto.
    intros i. destruct (Hn i) as [H1 H2]. destruct (in_dec Nat.eq_dec i t) as [Hi|Hi].
    + split; [auto|]. intros Hc. exfalso; auto.
    + rewrite (H2 Hi). split.
      * intros [->|Hc]; [apply upd_nth_eq; auto|contradiction].
      * intros Hc. apply upd_nth_neq. tauto.
Qed.

Lemma mark_clusters_spec cl : forall labels c0,
  (forall g i, In g cl -> In i g -> i < length labels) ->
  (forall c c' i, In i (nth c cl []) -> In i (nth c' cl []) -> c = c') ->
  exists l', mark_clusters labels c0 cl = Ok l' /\ length l' = length labels /\
    forall i, (forall c, In i (nth c cl []) -> nth i l' None = Some (c0 + c)) /\
              (~ In i (concat cl) -> nth i l' None = nth i labels None).
Proof.
  induction cl as [|g t IH]; intros labels c0 Hlt Hfun; simpl.
  - exists labels. split; auto. split; auto. intros i; split; auto. intros [|c] [].
  - destruct (mark_all_spec c0 g labels) as [l1 [E1 [L1 N1]]].
    { apply Forall_forall. intros i Hi. apply (Hlt g); simpl; auto. }
    rewrite E1. cbn [bind].
    destruct (IH l1 (S c0)) as [l' [E' [L' N']]].
    { intros g' i Hg Hi. rewrite L1. apply (Hlt g'); simpl; auto. }
    { intros c c' i Hc Hc'. specialize (Hfun (S c) (S c') i Hc Hc'). lia. }
    exists l'. split; auto. split; [lia|]. intros i. destruct (N' i) as [Na Nb], (N1 i) as [Nc Nd]. split.
    + intros [|c] Hi; simpl in Hi.
      * rewrite Nb.
        -- rewrite Nat.add_0_r. auto.
        -- intro Hc. apply in_concat in Hc as [g' [Hg' Hi']].
           apply In_nth with (d := []) in Hg' as [k [Hk Ek]].
           specialize (Hfun 0 (S k) i Hi). simpl in Hfun. rewrite Ek in Hfun. specialize (Hfun Hi'). lia.
      * rewrite (Na c Hi). f_equal. lia.
    + intros Hn. rewrite in_app_iff in Hn. rewrite Nb by tauto. apply Nd. tauto.
Qed.

Lemma clustering_functional n cl : clustering n cl ->
  forall c c' i, In i (nth c cl []) -> In i (nth c' cl []) -> c = c'.
Proof.
  intros [H _]. induction cl as [|g t IH]; intros c c' i; [destruct c, c'; simpl; tauto|].
  simpl in H. apply NoDup_app_inv in H as [_ [H2 H3]]. specialize (IH H2).
  assert (Hin : forall k, In i (nth k t []) -> In i (concat t)).
  { intros k Hk. apply in_concat. exists (nth k t []). split; auto. apply nth_In.
    destruct (le_lt_dec (length t) k); auto. rewrite nth_overflow in Hk by auto. destruct Hk. }
  destruct c as [|c], c' as [|c']; simpl; auto; intros Ha Hb.
  - exfalso. apply (H3 i Ha). eauto.
  - exfalso. apply (H3 i Hb). eauto.
  - f_equal. eauto.
Qed.

Lemma nth_some_nth_error {B} (l : list (option B)) i x : nth i l None = Some x <-> nth_error l i = Some (Some x).
Proof.
  revert i. induction l as [|y t IH]; intros [|i]; simpl; split; intros H; try discriminate; try congruence; apply IH; auto.
Qed.

Lemma nth_In_nth_error (cl : list (list nat)) c i : In i (nth c cl []) <-> exists g, nth_error cl c = Some g /\ In i g.
Proof.
  revert c. induction cl as [|g t IH]; intros [|c]; simpl; try (split; [tauto|intros [g' [H _]]; discriminate]).
  - split; [intros H; exists g; auto|intros [g' [E H]]; congruence].
  - apply IH.
Qed.

Lemma index_to_label_functional {A} (data : list A) cl :
  Forall (fun i => i < length data) (concat cl) ->
  (forall c c' i, In i (nth c cl []) -> In i (nth c' cl []) -> c = c') ->
  exists labels, index_to_label A data cl = Ok labels /\ labels_describe (length data) cl labels.
Proof.
  intros Hlt Hfun. unfold index_to_label. rewrite Forall_forall in Hlt.
  destruct (mark_clusters_spec cl (repeat None (length data)) 0) as [l [E [L N]]]; auto.
  { intros g i Hg Hi. rewrite repeat_length. apply Hlt. apply in_concat. eauto. }
  exists l. split; auto. rewrite repeat_length in L. split; auto.
  intros i c Hi. rewrite <- nth_some_nth_error, <- nth_In_nth_error. destruct (N i) as [N1 N2]. split.
  - intros H. destruct (in_dec Nat.eq_dec i (concat cl)) as [Hin|Hin].
    + apply in_concat in Hin as [g [Hg Hi']]. apply In_nth with (d := []) in Hg as [k [Hk Ek]]. subst g.
      rewrite (N1 k Hi') in H. injection H as <-. exact Hi'.
    + rewrite (N2 Hin) in H. rewrite nth_repeat in H. discriminate.
  - intros H. apply (N1 c H).
Qed.

Lemma index_to_label_spec {A} (data : list A) cl : clustering (length data) cl ->
  exists labels, index_to_label A data cl = Ok labels /\ labels_describe (length data) cl labels.
Proof.
  intros H. apply index_to_label_functional; [apply H|]. eapply clustering_functional; eauto.
Qed.

(** ** Labels to index lists *)
Definition has_label (labels : list (option nat)) (c i : nat) : bool :=
  match nth_error labels i with Some (Some c') => c' =? c | _ => false end.

Lemma max_label_fold l : forall m, exists m',
  fold_left (fun m y => match m, y with
                                        | Some a, Some b => if a <? b then Some b else Some a
                                        | m, _ => m
                                        end) l (Some m) = Some m' /\ m <= m' /\
  (forall c, In (Some c) l -> c <= m') /\ (m' = m \/ In (Some m') l).
Proof.
  induction l as [|y t IH]; intros m; simpl.
  - exists m. split; auto. split; auto. split; [intros c []|auto].
  - destruct y as [b|].
    + destruct (Nat.ltb_spec m b) as [H|H].
      * destruct (IH b) as [m' [E [H1 [H2 H3]]]]. exists m'. split; auto. split; [lia|]. split.
        -- intros c [Hc|Hc]; [injection Hc as <-; lia|auto].
        -- right. destruct H3 as [->|]; auto.
      * destruct (IH m) as [m' [E [H1 [H2 H3]]]]. exists m'. split; auto. split; [lia|]. split.
        -- intros c [Hc|Hc]; [injection Hc as <-; lia|auto].
        -- destruct H3 as [->|]; auto.
    + destruct (IH m) as [m' [E [H1 [H2 H3]]]]. exists m'. split; auto. split; [lia|]. split.
      * intros c [Hc|Hc]; [discriminate|auto].
      * destruct H3 as [->|]; auto.
Qed.

Lemma max_label_spec l : first_labelled l ->
  exists m, max_label l = Ok (Some m) /\ (forall c, In (Some c) l -> c <= m) /\ In (Some m) l.
Proof.
  intros [c [t ->]]. cbn [max_label]. destruct (max_label_fold t c) as [m [E [H1 [H2 H3]]]].
  rewrite E. exists m. split; auto. split.
  - intros c' [Hc|Hc]; [injection Hc as <-; lia|auto].
  - simpl. destruct H3 as [->|]; auto.
Qed.

Lemma distribute_spec {B} (item : nat -> res B) (f : nat -> B) labels idx : forall cl,
  (forall i, In i idx -> item i = Ok (f i)) ->
  (forall i, In i idx -> i < length labels) ->
  (forall c, In (Some c) labels -> c < length cl) ->
  exists cl', distribute item labels cl idx = Ok cl' /\ length cl' = length cl /\
    forall c, c < length cl -> nth c cl' [] = nth c cl [] ++ map f (filter (has_label labels c) idx).
Proof.
  induction idx as [|i t IH]; intros cl Hit Hlen Hmax; cbn [distribute].
  - exists cl. split; auto. split; auto. intros c _. simpl. rewrite app_nil_r. auto.
  - unfold get_item. destruct (nth_error labels i) as [lab|] eqn:El.
    2:{ exfalso. apply nth_error_None in El. specialize (Hlen i (or_introl eq_refl)). lia. }
    cbn [bind]. destruct lab as [c0|].
    + rewrite (Hit i (or_introl eq_refl)). cbn [bind].
      assert (Hc0 : c0 < length cl) by (apply Hmax; eapply nth_error_In; eauto).
      unfold push. rewrite (proj2 (Nat.ltb_lt _ _) Hc0). cbn [bind].
      destruct (IH (upd cl c0 (nth c0 cl [] ++ [f i]))) as [cl' [E [L N]]].
      { intros; apply Hit; simpl; auto. } { intros; apply Hlen; simpl; auto. }
      { rewrite upd_length; auto. }
      rewrite upd_length in *. exists cl'. split; auto. split; auto. intros c Hc. rewrite (N c Hc).
      cbn [filter]. unfold has_label at 2. rewrite El. destruct (Nat.eqb_spec c0 c) as [->|Hne].
      * rewrite upd_nth_eq by auto. cbn [map]. rewrite <- app_assoc. reflexivity.
      * rewrite upd_nth_neq by auto. reflexivity.
    + destruct (IH cl) as [cl' [E [L N]]]; auto.
      { intros; apply Hit; simpl; auto. } { intros; apply Hlen; simpl; auto. }
      exists cl'. split; auto. split; auto. intros c Hc. rewrite (N c Hc). cbn [filter].
      unfold has_label at 2. rewrite El. reflexivity.
Qed.

Lemma label_to_index_shape {A} (data : list A) labels : length labels = length data -> first_labelled labels ->
  exists cl m, label_to_index A data labels = Ok cl /\ length cl = S m /\ In (Some m) labels /\
    (forall c, In (Some c) labels -> c <= m) /\
    forall c, nth c cl [] = filter (has_label labels c) (seq 0 (length data)).
Proof.
  intros Hl Hf. destruct (max_label_spec labels Hf) as [m [Em [Hm Hin]]].
  unfold label_to_index, fresh_clusters. rewrite Em. cbn [bind].
  destruct (distribute_spec (fun i => Ok i) (fun i => i) labels (seq 0 (length data)) (repeat [] (m + 1)))
    as [cl [E [L N]]].
  { auto. } { intros i Hi. apply in_seq in Hi. lia. } { intros c Hc. rewrite repeat_length. specialize (Hm c Hc). lia. }
  rewrite repeat_length in *. exists cl, m. split; auto. split; [lia|]. split; auto. split; auto.
  intros c. destruct (le_lt_dec (m + 1) c) as [Hc|Hc].
  - rewrite nth_overflow by lia. symmetry. destruct (filter _ _) as [|i t] eqn:Ef; auto. exfalso.
    assert (Hi : In i (filter (has_label labels c) (seq 0 (length data)))) by (rewrite Ef; simpl; auto).
    apply filter_In in Hi as [_ Hi]. unfold has_label in Hi.
    destruct (nth_error labels i) as [[c'|]|] eqn:En; try discriminate. apply Nat.eqb_eq in Hi. subst c'.
    apply nth_error_In in En. specialize (Hm c En). lia.
  - rewrite (N c Hc), nth_repeat, map_id. reflexivity.
Qed.

Lemma has_label_true labels c i : has_label labels c i = true <-> nth_error labels i = Some (Some c).
Proof.
  unfold has_label. destruct (nth_error labels i) as [[c'|]|]; split; intros H; try discriminate; try congruence.
  - apply Nat.eqb_eq in H. congruence.
  - injection H as ->. apply Nat.eqb_refl.
Qed.

Lemma filters_nodup (labels : list (option nat)) n cl :
  (forall c, nth c cl [] = filter (has_label labels c) (seq 0 n)) -> clustering n cl.
Proof.
  intros H. split.
  - assert (G : forall cl k, (forall c, nth c cl [] = filter (has_label labels (k + c)) (seq 0 n)) ->
      NoDup (concat cl) /\ forall i, In i (concat cl) -> exists c, k <= c /\ has_label labels c i = true).
    { clear. induction cl as [|g t IH]; intros k H; simpl; [split; [constructor|intros i []]|].
      assert (Hg : g = filter (has_label labels k) (seq 0 n)) by (rewrite <- (Nat.add_0_r k); apply (H 0)).
      destruct (IH (S k)) as [IH1 IH2].
      { intros c. rewrite Nat.add_succ_comm. apply (H (S c)). }
      split.
      - apply NoDup_app_intro; auto; [subst g; apply NoDup_filter, seq_NoDup|].
        intros i Hi Hc. destruct (IH2 i Hc) as [c [Hc1 Hc2]]. subst g. apply filter_In in Hi as [_ Hi].
        apply has_label_true in Hi. apply has_label_true in Hc2. rewrite Hi in Hc2. injection Hc2 as ->. lia.
      - intros i Hi. apply in_app_iff in Hi as [Hi|Hi].
        + subst g. apply filter_In in Hi as [_ Hi]. exists k; auto.
        + destruct (IH2 i Hi) as [c [Hc1 Hc2]]. exists c. split; [lia|auto]. }
    apply (G cl 0). intros c. apply H.
  - apply Forall_forall. intros i Hi. apply in_concat in Hi as [g [Hg Hi]].
    apply In_nth with (d := []) in Hg as [c [_ <-]]. rewrite H in Hi. apply filter_In in Hi as [Hi _].
    apply in_seq in Hi. lia.
Qed.

Lemma label_to_index_spec {A} (data : list A) labels : length labels = length data -> first_labelled labels ->
  exists cl, label_to_index A data labels = Ok cl /\ clustering (length data) cl /\ ascending cl /\
    labels_describe (length data) cl labels.
Proof.
  intros Hl Hf. destruct (label_to_index_shape data labels Hl Hf) as [cl [m [E [L [Hm1 [Hm2 N]]]]]].
  exists cl. split; auto. split; [eapply filters_nodup; eauto|]. split.
  - apply Forall_forall. intros g Hg. apply In_nth with (d := []) in Hg as [c [_ <-]]. rewrite N.
    apply filter_sorted, seq_sorted.
  - split; auto. intros i c Hi. rewrite <- nth_In_nth_error, N, filter_In, in_seq, has_label_true. intuition lia.
Qed.

Lemma labels_ext n (l l' : list (option nat)) : length l = n -> length l' = n ->
  (forall i c, i < n -> nth_error l i = Some (Some c) <-> nth_error l' i = Some (Some c)) -> l = l'.
Proof.
  revert l l'. induction n as [|n IH]; intros [|x l] [|y l'] H1 H2 H; simpl in *; try lia; auto.
  f_equal.
  - destruct x as [c|].
    + assert (E : Some y = Some (Some c)) by (apply (H 0 c); [lia|auto]). congruence.
    + destruct y as [c|]; auto.
      assert (E : Some None = Some (Some c)) by (apply (H 0 c); [lia|auto]). congruence.
  - apply IH; try lia. intros i c Hi. apply (H (S i) c). lia.
Qed.

Lemma labels_index_labels {A} (data : list A) labels : length labels = length data -> first_labelled labels ->
  (do cl <- label_to_index A data labels; index_to_label A data cl) = Ok labels.
Proof.
  intros Hl Hf. destruct (label_to_index_spec data labels Hl Hf) as [cl [E [Hc [_ [_ D]]]]].
  rewrite E. cbn [bind]. destruct (index_to_label_spec data cl Hc) as [l' [E' [L' D']]].
  rewrite E'. f_equal. apply (labels_ext (length data)); auto. intros i c Hi. rewrite D, D' by auto. reflexivity.
Qed.

Lemma index_labels_index {A} (data : list A) cl : clustering (length data) cl -> ascending cl ->
  In 0 (concat cl) -> last cl [] <> [] ->
  (do l <- index_to_label A data cl; label_to_index A data l) = Ok cl.
Proof.
  intros Hc Ha H0 Hlast. destruct (index_to_label_spec data cl Hc) as [labels [E [L D]]].
  rewrite E. cbn [bind].
  assert (Hn : 0 < length data).
  { destruct Hc as [_ Hc]. rewrite Forall_forall in Hc. auto. }
  assert (Hf : first_labelled labels).
  { apply in_concat in H0 as [g [Hg H0]]. apply In_nth_error in Hg as [c Hg].
    assert (Hx : nth_error labels 0 = Some (Some c)) by (apply D; [exact Hn|exists g; auto]).
    destruct labels as [|x t]; [discriminate|]. simpl in Hx. injection Hx as ->. exists c, t; auto. }
  destruct (label_to_index_shape data labels L Hf) as [cl' [m [E' [L' [Hm1 [Hm2 N]]]]]].
  rewrite E'. f_equal.
  assert (Hcl : forall c, nth c cl' [] = nth c cl []).
  { intros c. rewrite N. apply sorted_ext.
    - apply filter_sorted, seq_sorted.
    - destruct (nth_in_or_default c cl []) as [Hin| ->]; [|constructor].
      unfold ascending in Ha. rewrite Forall_forall in Ha. auto.
    - intros i. rewrite filter_In, in_seq, has_label_true. split.
      + intros [Hi Hx]. apply nth_In_nth_error. apply D; [lia|auto].
      + intros Hi. assert (Hlt : i < length data).
        { destruct Hc as [_ Hc]. rewrite Forall_forall in Hc. apply Hc.
          apply nth_In_nth_error in Hi as [g [Hg Hi]]. apply nth_error_In in Hg. apply in_concat; eauto. }
        split; [lia|]. apply D; auto. apply nth_In_nth_error; auto. }
  assert (Hlen : length cl' = length cl).
  { rewrite L'.
    assert (Hmx : exists i, nth_error labels i = Some (Some m)) by (apply In_nth_error; auto).
    destruct Hmx as [i Hi]. assert (Hil : i < length data).
    { rewrite <- L. apply nth_error_Some. congruence. }
    apply (D i m Hil) in Hi as [g [Hg _]].
    assert (m < length cl) by (apply nth_error_Some; congruence).
    destruct cl as [|g0 t0] eqn:Ecl; [simpl in *; lia|]. rewrite <- Ecl in *.
    assert (Hla : last cl [] = nth (length cl - 1) cl []).
    { clear. induction cl as [|x t IH]; auto. destruct t as [|y t']; auto.
      change (last (x :: y :: t') []) with (last (y :: t') []). rewrite IH. simpl. rewrite Nat.sub_0_r. reflexivity. }
    rewrite Hla in Hlast. destruct (nth (length cl - 1) cl []) as [|j q] eqn:Eq; [congruence|].
    assert (Hj : In j (nth (length cl - 1) cl [])) by (rewrite Eq; simpl; auto).
    assert (Hjl : j < length data).
    { destruct Hc as [_ Hc]. rewrite Forall_forall in Hc. apply Hc. apply in_concat.
      exists (nth (length cl - 1) cl []). split; auto. apply nth_In. lia. }
    apply nth_In_nth_error in Hj. apply (D j _ Hjl) in Hj. apply nth_error_In in Hj. specialize (Hm2 _ Hj). lia. }
  apply (nth_ext _ _ [] []); auto.
Qed.

(** ** Objects *)
Lemma mapM_spec {B C} (f : B -> res C) (R : B -> C -> Prop) l :
  (forall x, In x l -> exists y, f x = Ok y /\ R x y) -> exists ys, mapM f l = Ok ys /\ Forall2 R l ys.
Proof.
  induction l as [|x t IH]; intros H; simpl; [exists []; auto|].
  destruct (H x (or_introl eq_refl)) as [y [E Hy]]. rewrite E. cbn [bind].
  destruct IH as [ys [E' H']]; [intros; apply H; simpl; auto|]. rewrite E'. exists (y :: ys). auto.
Qed.

Lemma index_to_object_spec {A} (data : list A) cl : Forall (fun i => i < length data) (concat cl) ->
  exists obs, index_to_object A data cl = Ok obs /\ objects_at data cl obs.
Proof.
  intros H. unfold index_to_object. apply mapM_spec. intros g Hg. apply mapM_spec. intros i Hi.
  rewrite Forall_forall in H. specialize (H i ltac:(apply in_concat; eauto)). unfold get_item.
  destruct (nth_error data i) as [x|] eqn:E; [exists x; auto|]. apply nth_error_None in E. lia.
Qed.

(** labels to objects is labels to indices followed by indices to objects, errors included *)
Lemma mapM_app {B C} (f : B -> res C) l1 l2 : mapM f (l1 ++ l2) =
  do a <- mapM f l1; do b <- mapM f l2; Ok (a ++ b).
Proof.
  induction l1 as [|x t IH]; simpl.
  - destruct (mapM f l2); reflexivity.
  - destruct (f x); simpl; auto. rewrite IH. destruct (mapM f t); simpl; auto. destruct (mapM f l2); reflexivity.
Qed.

Lemma mapM_upd {B C} (f : B -> res C) l ys i x y : mapM f l = Ok ys -> f x = Ok y ->
  mapM f (upd l i x) = Ok (upd ys i y).
Proof.
  revert ys i. induction l as [|a t IH]; intros ys i H Hx; simpl in H.
  - injection H as <-. destruct i; reflexivity.
  - destruct (f a) as [b|] eqn:Ea; [|discriminate]. simpl in H. destruct (mapM f t) as [bs|] eqn:Et; [|discriminate].
    injection H as <-. destruct i as [|i]; simpl.
    + rewrite Hx. simpl. rewrite Et. reflexivity.
    + rewrite Ea. simpl. rewrite (IH bs i eq_refl Hx). reflexivity.
Qed.

Lemma mapM_length {B C} (f : B -> res C) l ys : mapM f l = Ok ys -> length ys = length l.
Proof.
  revert ys. induction l as [|a t IH]; intros ys H; simpl in H; [injection H as <-; auto|].
  destruct (f a); [|discriminate]. simpl in H. destruct (mapM f t); [|discriminate]. injection H as <-. simpl. auto.
Qed.

Lemma mapM_nth {B C} (f : list B -> res (list C)) l ys i : f [] = Ok [] -> mapM f l = Ok ys ->
  f (nth i l []) = Ok (nth i ys []).
Proof.
  intros Hn. revert ys i. induction l as [|a t IH]; intros ys i H; simpl in H.
  - injection H as <-. destruct i; simpl; auto.
  - destruct (f a) eqn:Ea; [|discriminate]. simpl in H. destruct (mapM f t) eqn:Et; [|discriminate]. injection H as <-.
    destruct i; simpl; auto.
Qed.

Lemma distribute_commutes {A} (data : list A) labels idx : forall cl obs,
  (forall i, In i idx -> i < length data) ->
  mapM (mapM (get_item data)) cl = Ok obs ->
  distribute (get_item data) labels obs idx =
  (do r <- distribute (fun i => Ok i) labels cl idx; mapM (mapM (get_item data)) r).
Proof.
  induction idx as [|i t IH]; intros cl obs Hlt H; cbn [distribute]; [simpl; auto|].
  assert (Hlt' : forall j, In j t -> j < length data) by (intros; apply Hlt; simpl; auto).
  destruct (get_item labels i) as [[c|]|]; cbn [bind]; auto.
  destruct (get_item data i) as [x|] eqn:Ex.
  2:{ unfold get_item in Ex. specialize (Hlt i (or_introl eq_refl)). apply nth_error_Some in Hlt.
      destruct (nth_error data i); congruence. }
  cbn [bind]. unfold push. rewrite (mapM_length _ _ _ H). destruct (c <? length cl); cbn [bind]; auto.
  apply IH; auto. apply mapM_upd; auto. rewrite mapM_app.
  rewrite (mapM_nth _ _ _ c eq_refl H). simpl. rewrite Ex. reflexivity.
Qed.

Lemma label_object_commutes {A} (data : list A) labels :
  label_to_object A data labels = (do cl <- label_to_index A data labels; index_to_object A data cl).
Proof.
  unfold label_to_object, label_to_index, fresh_clusters.
  destruct (max_label labels) as [[m|]|]; simpl; auto.
  apply distribute_commutes; [intros i Hi; apply in_seq in Hi; lia|].
  induction (m + 1) as [|k IH]; simpl; auto. rewrite IH. reflexivity.
Qed.

(** *** objects back to indices *)
Section Obj.
Variable A : Type.
Variable eqb : A -> A -> bool.
Variable K : Type.
Variable keqb : K -> K -> bool.
Variable str : A -> K.

Lemma index_from_lt data obj : forall pos start i, index_from A eqb data obj pos start = Ok i -> pos <= i < pos + length data.
Proof.
  induction data as [|x t IH]; intros pos start i H; simpl in H; [discriminate|].
  destruct (andb (start <=? pos) (eqb x obj)); [injection H as <-; simpl; lia|].
  apply IH in H. simpl. lia.
Qed.

Lemma locate_lt data pos obj i p : locate A eqb K keqb str data pos obj = Ok (i, p) -> i < length data.
Proof.
  unfold locate. intros H. destruct (lookup K keqb pos (str obj)) as [q|].
  - destruct (index_from A eqb data obj 0 (q + 1)) eqn:E; [|discriminate]. injection H as <- <-.
    apply index_from_lt in E. lia.
  - destruct (index_from A eqb data obj 0 0) eqn:E; [|discriminate]. injection H as <- <-.
    apply index_from_lt in E. lia.
Qed.

Lemma label_objects_commutes data cluster : forall labels pos c, length labels = length data ->
  label_objects A eqb K keqb str data labels pos c cluster =
  (do rp <- index_objects A eqb K keqb str data pos cluster;
   do l <- mark_all labels c (fst rp); Ok (l, snd rp)).
Proof.
  induction cluster as [|obj t IH]; intros labels pos c Hl; cbn [label_objects index_objects]; [reflexivity|].
  destruct (locate A eqb K keqb str data pos obj) as [[i p]|] eqn:E; cbn [bind]; auto.
  apply locate_lt in E. cbn [fst snd]. unfold set_item at 1.
  rewrite (proj2 (Nat.ltb_lt i (length labels)) ltac:(lia)). cbn [bind].
  rewrite IH by (rewrite upd_length; auto).
  destruct (index_objects A eqb K keqb str data p t) as [rp|]; cbn [bind fst snd]; auto.
  cbn [mark_all]. unfold set_item. rewrite (proj2 (Nat.ltb_lt i (length labels)) ltac:(lia)). reflexivity.
Qed.

Lemma mark_all_length labels c g l : mark_all labels c g = Ok l -> length l = length labels.
Proof.
  revert labels. induction g as [|i t IH]; intros labels H; simpl in H; [congruence|].
  unfold set_item in H. destruct (i <? length labels); [|discriminate]. simpl in H. rewrite (IH _ H). apply upd_length.
Qed.

Lemma index_objects_lt data g : forall pos out p, index_objects A eqb K keqb str data pos g = Ok (out, p) ->
  Forall (fun i => i < length data) out.
Proof.
  induction g as [|obj t IH]; intros pos out p H; cbn [index_objects] in H; [injection H as <- _; constructor|].
  destruct (locate A eqb K keqb str data pos obj) as [[i p1]|] eqn:E; [|discriminate]. cbn [bind fst snd] in H.
  destruct (index_objects A eqb K keqb str data p1 t) as [[o q]|] eqn:E2; [|discriminate]. cbn [bind fst snd] in H.
  injection H as <- <-. constructor; [eapply locate_lt; eauto|eapply IH; eauto].
Qed.

Lemma label_clusters_commutes data cl : forall labels pos c, length labels = length data ->
  label_clusters A eqb K keqb str data labels pos c cl =
  (do r <- index_clusters A eqb K keqb str data pos cl; mark_clusters labels c r).
Proof.
  induction cl as [|g t IH]; intros labels pos c Hl; cbn [label_clusters index_clusters]; [reflexivity|].
  rewrite label_objects_commutes by auto.
  destruct (index_objects A eqb K keqb str data pos g) as [[out p]|] eqn:E; cbn [bind]; auto.
  apply index_objects_lt in E. cbn [fst snd].
  destruct (mark_all_spec c out labels ltac:(rewrite Hl; exact E)) as [l1 [E1 [L1 _]]].
  rewrite E1. cbn [bind fst snd]. rewrite IH by lia.
  destruct (index_clusters A eqb K keqb str data p t) as [r|]; cbn [bind]; auto.
  cbn [mark_clusters]. rewrite E1. reflexivity.
Qed.

Lemma object_label_commutes data cl :
  object_to_label A eqb K keqb str data cl =
  (do r <- object_to_index A eqb K keqb str data cl; index_to_label A data r).
Proof. apply label_clusters_commutes. apply repeat_length. Qed.

(** equality of objects is an equivalence that agrees with equality of their texts *)
Hypothesis eqb_refl : forall x, eqb x x = true.
Hypothesis eqb_str : forall x y, eqb x y = true <-> keqb (str x) (str y) = true.
Hypothesis eqb_sym : forall x y, eqb x y = eqb y x.
Hypothesis eqb_trans : forall x y z, eqb x y = true -> eqb y z = true -> eqb x z = true.

Definition occ (data : list A) (o : A) : list nat :=
  filter (fun i => match nth_error data i with Some x => eqb x o | None => false end) (seq 0 (length data)).
Definition count (o : A) (l : list A) : nat := length (filter (fun x => eqb x o) l).

Definition occ_from (data : list A) (o : A) (pos : nat) : list nat :=
  map (fun i => pos + i) (occ data o).

Lemma occ_from_cons x t o pos : occ_from (x :: t) o pos =
  (if eqb x o then [pos] else []) ++ occ_from t o (S pos).
Proof.
  unfold occ_from, occ. cbn [length seq filter nth_error].
  assert (E : map (fun i => pos + i) (filter (fun i => match nth_error (x :: t) i with Some x => eqb x o | None => false end) (seq 1 (length t)))
     = map (fun i => S pos + i) (filter (fun i => match nth_error t i with Some x => eqb x o | None => false end) (seq 0 (length t)))).
  { rewrite <- seq_shift. generalize (seq 0 (length t)). intros l. induction l as [|a l IH]; simpl; auto.
    destruct (nth_error t a) as [y|]; auto. destruct (eqb y o); auto. simpl. rewrite IH. f_equal. lia. }
  destruct (eqb x o); cbn [map app]; rewrite E; auto. f_equal. lia.
Qed.

Lemma index_from_occ data o : forall pos start,
  index_from A eqb data o pos start =
  match filter (fun i => start <=? i) (occ_from data o pos) with i :: _ => Ok i | [] => Raise ValueError end.
Proof.
  induction data as [|x t IH]; intros pos start; [reflexivity|].
  cbn [index_from]. rewrite occ_from_cons, filter_app, IH.
  destruct (eqb x o); [|rewrite andb_false_r; reflexivity].
  rewrite andb_true_r. cbn [filter]. destruct (start <=? pos); reflexivity.
Qed.

Lemma occ_from_0 data o : occ_from data o 0 = occ data o.
Proof. unfold occ_from. rewrite <- (map_id (occ data o)) at 2. apply map_ext. auto. Qed.

Lemma occ_sorted data o : StronglySorted lt (occ data o).
Proof. apply filter_sorted, seq_sorted. Qed.

Lemma filter_sorted_skip (l : list nat) k : StronglySorted lt l -> k < length l ->
  filter (fun i => nth k l 0 + 1 <=? i) l = skipn (S k) l.
Proof.
  intros H. revert k. induction H as [|x t Ht IH Hx]; intros k Hk; simpl in Hk; [lia|].
  rewrite Forall_forall in Hx. destruct k as [|k].
  - cbn [nth skipn filter]. replace (x + 1 <=? x) with false by (symmetry; apply Nat.leb_gt; lia).
    rewrite (filter_ext_in _ (fun _ => true)).
    + clear. induction t; simpl; congruence.
    + intros y Hy. apply Nat.leb_le. specialize (Hx y Hy). lia.
  - cbn [nth filter]. assert (Hn : In (nth k t 0) t) by (apply nth_In; lia). specialize (Hx _ Hn).
    replace (nth k t 0 + 1 <=? x) with false by (symmetry; apply Nat.leb_gt; lia).
    rewrite IH by lia. reflexivity.
Qed.

Definition pos_inv (data hist : list A) (pos : list (K * nat)) : Prop :=
  forall o, match count o hist with
            | 0 => lookup K keqb pos (str o) = None
            | S k => lookup K keqb pos (str o) = Some (nth k (occ data o) 0)
            end.

Lemma count_snoc o hist x : count o (hist ++ [x]) = count o hist + if eqb x o then 1 else 0.
Proof. unfold count. rewrite filter_app, app_length. simpl. destruct (eqb x o); reflexivity. Qed.

Lemma occ_ext data o o' : eqb o o' = true -> occ data o = occ data o'.
Proof.
  intros H. unfold occ. apply filter_ext. intros i. destruct (nth_error data i) as [x|]; auto.
  destruct (eqb x o) eqn:E1, (eqb x o') eqn:E2; auto.
  - rewrite (eqb_trans _ _ _ E1 H) in E2. discriminate.
  - rewrite eqb_sym in H. rewrite (eqb_trans _ _ _ E2 H) in E1. discriminate.
Qed.

Lemma count_ext hist o o' : eqb o o' = true -> count o hist = count o' hist.
Proof.
  intros H. unfold count. f_equal. apply filter_ext. intros x.
  destruct (eqb x o) eqn:E1, (eqb x o') eqn:E2; auto.
  - rewrite (eqb_trans _ _ _ E1 H) in E2. discriminate.
  - rewrite eqb_sym in H. rewrite (eqb_trans _ _ _ E2 H) in E1. discriminate.
Qed.

Lemma locate_spec data hist pos o : pos_inv data hist pos -> count o hist < length (occ data o) ->
  exists pos', locate A eqb K keqb str data pos o = Ok (nth (count o hist) (occ data o) 0, pos') /\
    pos_inv data (hist ++ [o]) pos'.
Proof.
  intros Hinv Hc.
  assert (E : locate A eqb K keqb str data pos o =
    Ok (nth (count o hist) (occ data o) 0, (str o, nth (count o hist) (occ data o) 0) :: pos)).
  { unfold locate. pose proof (Hinv o) as Ho. destruct (count o hist) as [|k].
    - rewrite Ho, index_from_occ, occ_from_0.
      assert (Ef : filter (fun i => 0 <=? i) (occ data o) = occ data o).
      { generalize (occ data o) as l. induction l as [|a l IHl]; [reflexivity|]. change (a :: filter (fun i => 0 <=? i) l = a :: l). rewrite IHl. reflexivity. }
      rewrite Ef. destruct (occ data o); [simpl in Hc; lia|reflexivity].
    - rewrite Ho, index_from_occ, occ_from_0, filter_sorted_skip by (try apply occ_sorted; lia).
      destruct (skipn (S k) (occ data o)) as [|i t] eqn:Es.
      + exfalso. assert (length (skipn (S k) (occ data o)) = 0) by (rewrite Es; auto). rewrite skipn_length in H. lia.
      + assert (Hi : nth (S k) (occ data o) 0 = i).
        { rewrite <- (firstn_skipn (S k) (occ data o)), app_nth2; rewrite firstn_length_le by lia; [|lia].
          rewrite Nat.sub_diag, Es. reflexivity. }
        rewrite Hi. reflexivity. }
  eexists; split; [exact E|].
  intros o'. rewrite count_snoc. cbn [lookup].
  destruct (eqb o o') eqn:Eo.
  - rewrite Nat.add_1_r. rewrite (proj1 (eqb_str o o') Eo).
    rewrite <- (count_ext hist o o' Eo), <- (occ_ext data o o' Eo). reflexivity.
  - rewrite Nat.add_0_r. destruct (keqb (str o) (str o')) eqn:Ek.
    + apply eqb_str in Ek. congruence.
    + apply Hinv.
Qed.

Fixpoint ranks (data hist objs : list A) : list nat :=
  match objs with
  | [] => []
  | o :: t => nth (count o hist) (occ data o) 0 :: ranks data (hist ++ [o]) t
  end.

Lemma ranks_app data objs1 : forall hist objs2,
  ranks data hist (objs1 ++ objs2) = ranks data hist objs1 ++ ranks data (hist ++ objs1) objs2.
Proof.
  induction objs1 as [|o t IH]; intros hist objs2; simpl; [rewrite app_nil_r; auto|].
  rewrite IH, <- app_assoc. reflexivity.
Qed.

Lemma count_app o l l' : count o (l ++ l') = count o l + count o l'.
Proof. unfold count. rewrite filter_app, app_length. reflexivity. Qed.

Lemma count_self o l : 0 < count o (o :: l).
Proof. unfold count. simpl. rewrite eqb_refl. simpl. lia. Qed.

Lemma index_objects_spec data g : forall hist pos,
  pos_inv data hist pos -> (forall o, count o (hist ++ g) <= length (occ data o)) ->
  exists pos', index_objects A eqb K keqb str data pos g = Ok (ranks data hist g, pos') /\ pos_inv data (hist ++ g) pos'.
Proof.
  induction g as [|o t IH]; intros hist pos Hinv Hb; cbn [index_objects ranks].
  - exists pos. rewrite app_nil_r. auto.
  - destruct (locate_spec data hist pos o Hinv) as [p1 [E1 H1]].
    { specialize (Hb o). rewrite count_app in Hb. pose proof (count_self o t). lia. }
    rewrite E1. cbn [bind fst snd].
    destruct (IH (hist ++ [o]) p1 H1) as [p2 [E2 H2]].
    { intros o'. rewrite <- app_assoc. apply Hb. }
    rewrite E2. cbn [bind fst snd]. exists p2. split; auto. rewrite <- app_assoc in H2. exact H2.
Qed.

Fixpoint ranks_clusters (data hist : list A) (cl : list (list A)) : list (list nat) :=
  match cl with
  | [] => []
  | g :: t => ranks data hist g :: ranks_clusters data (hist ++ g) t
  end.

Lemma index_clusters_spec data cl : forall hist pos,
  pos_inv data hist pos -> (forall o, count o (hist ++ concat cl) <= length (occ data o)) ->
  index_clusters A eqb K keqb str data pos cl = Ok (ranks_clusters data hist cl).
Proof.
  induction cl as [|g t IH]; intros hist pos Hinv Hb; cbn [index_clusters ranks_clusters]; auto.
  cbn [concat] in Hb.
  destruct (index_objects_spec data g hist pos Hinv) as [p [E H]].
  { intros o. specialize (Hb o). rewrite !count_app in *. lia. }
  rewrite E. cbn [bind fst snd]. rewrite (IH (hist ++ g) p H).
  - reflexivity.
  - intros o. rewrite <- app_assoc. apply Hb.
Qed.

Lemma concat_ranks data cl : forall hist, concat (ranks_clusters data hist cl) = ranks data hist (concat cl).
Proof.
  induction cl as [|g t IH]; intros hist; cbn [ranks_clusters concat]; auto. rewrite IH, ranks_app. reflexivity.
Qed.

Lemma occ_nth data o i : In i (occ data o) -> exists x, nth_error data i = Some x /\ eqb x o = true.
Proof.
  unfold occ. rewrite filter_In. intros [_ H]. destruct (nth_error data i) as [x|]; [exists x; auto|discriminate].
Qed.

Lemma ranks_in data objs : forall hist, (forall o, count o (hist ++ objs) <= length (occ data o)) ->
  forall i, In i (ranks data hist objs) ->
  exists o k, count o hist <= k < count o (hist ++ objs) /\ i = nth k (occ data o) 0.
Proof.
  induction objs as [|o t IH]; intros hist Hb i Hi; [destruct Hi|]. cbn [ranks] in Hi. destruct Hi as [<-|Hi].
  - exists o, (count o hist). split; auto. rewrite count_app. pose proof (count_self o t). lia.
  - destruct (IH (hist ++ [o])) with (i := i) as [o' [k [Hk E]]]; auto.
    { intros o'. rewrite <- app_assoc. apply Hb. }
    exists o', k. split; auto. rewrite <- app_assoc in Hk. rewrite count_snoc in Hk. cbn [app] in Hk. lia.
Qed.

Lemma ranks_nodup data objs : forall hist, (forall o, count o (hist ++ objs) <= length (occ data o)) ->
  NoDup (ranks data hist objs).
Proof.
  induction objs as [|o t IH]; intros hist Hb; cbn [ranks]; constructor.
  - intro Hc. destruct (ranks_in data t (hist ++ [o])) with (i := nth (count o hist) (occ data o) 0) as [o' [k [Hk E]]]; auto.
    { intros o'. rewrite <- app_assoc. apply Hb. }
    rewrite <- app_assoc in Hk. cbn [app] in Hk.
    assert (Hlt : count o hist < length (occ data o)).
    { specialize (Hb o). rewrite count_app in Hb. pose proof (count_self o t). lia. }
    assert (Hlt' : k < length (occ data o')) by (specialize (Hb o'); lia).
    pose proof (occ_nth data o _ (nth_In _ 0 Hlt)) as [x [Ex Hx]].
    pose proof (occ_nth data o' _ (nth_In _ 0 Hlt')) as [x' [Ex' Hx']].
    rewrite <- E, Ex in Ex'. injection Ex' as <-.
    assert (Heq : eqb o o' = true).
    { rewrite eqb_sym in Hx. eapply eqb_trans; eauto. }
    rewrite (occ_ext data o o' Heq) in E, Hlt.
    assert (Hn : NoDup (occ data o')) by (apply sorted_nodup, occ_sorted).
    assert (count o hist = k) by (eapply NoDup_nth; eauto).
    rewrite count_snoc, Heq, <- (count_ext hist o o' Heq) in Hk. lia.
  - apply IH. intros o'. rewrite <- app_assoc. apply Hb.
Qed.

Lemma ranks_objects data objs : forall hist, (forall o, count o (hist ++ objs) <= length (occ data o)) ->
  Forall2 (fun i o => exists x, nth_error data i = Some x /\ eqb x o = true) (ranks data hist objs) objs.
Proof.
  induction objs as [|o t IH]; intros hist Hb; cbn [ranks]; constructor.
  - apply occ_nth. apply nth_In. specialize (Hb o). rewrite count_app in Hb. pose proof (count_self o t). lia.
  - apply IH. intros o'. rewrite <- app_assoc. apply Hb.
Qed.

Lemma ranks_clusters_objects data cl : forall hist, (forall o, count o (hist ++ concat cl) <= length (occ data o)) ->
  Forall2 (Forall2 (fun i o => exists x, nth_error data i = Some x /\ eqb x o = true)) (ranks_clusters data hist cl) cl.
Proof.
  induction cl as [|g t IH]; intros hist Hb; cbn [ranks_clusters]; constructor; cbn [concat] in Hb.
  - apply ranks_objects. intros o. specialize (Hb o). rewrite !count_app in *. lia.
  - apply IH. intros o. rewrite <- app_assoc. apply Hb.
Qed.

(** enough occurrences when the objects come from distinct indices *)
Lemma objects_at_concat (data : list A) cl obs : objects_at data cl obs ->
  Forall2 (fun i x => nth_error data i = Some x) (concat cl) (concat obs).
Proof. induction 1; simpl; auto. apply Forall2_app; auto. Qed.

Lemma count_occ_bound data idx objs : Forall2 (fun i x => nth_error data i = Some x) idx objs -> NoDup idx ->
  forall o, count o objs <= length (occ data o).
Proof.
  intros H Hnd o.
  assert (E : count o objs = length (filter (fun i => match nth_error data i with Some x => eqb x o | None => false end) idx)).
  { unfold count. clear Hnd. induction H as [|i x idx' objs' Hi H IH]; auto. cbn [filter]. rewrite Hi.
    destruct (eqb x o); simpl; auto. }
  rewrite E. apply NoDup_incl_length; [apply NoDup_filter; auto|].
  intros i Hi. apply filter_In in Hi as [Hin Hx]. unfold occ. apply filter_In. split; auto.
  apply in_seq. assert (i < length data); [|lia]. apply nth_error_Some. destruct (nth_error data i); congruence.
Qed.

Lemma object_round_trip data cl : clustering (length data) cl ->
  exists obs cl', index_to_object A data cl = Ok obs /\ objects_at data cl obs /\
    object_to_index A eqb K keqb str data obs = Ok cl' /\ clustering (length data) cl' /\
    Forall2 (Forall2 (fun i o => exists x, nth_error data i = Some x /\ eqb x o = true)) cl' obs.
Proof.
  intros [Hnd Hlt]. destruct (index_to_object_spec data cl Hlt) as [obs [E Ho]].
  assert (Hb : forall o, count o ([] ++ concat obs) <= length (occ data o)).
  { intros o. simpl. eapply count_occ_bound; [apply objects_at_concat; eauto|auto]. }
  exists obs, (ranks_clusters data [] obs). split; auto. split; auto. split; [|split].
  - apply index_clusters_spec; auto. intros o. reflexivity.
  - split.
    + rewrite concat_ranks. apply ranks_nodup. exact Hb.
    + rewrite concat_ranks. apply Forall_forall. intros i Hi.
      apply ranks_in in Hi as [o [k [Hk ->]]]; [|exact Hb].
      assert (Hx : In (nth k (occ data o) 0) (occ data o)) by (apply nth_In; specialize (Hb o); lia).
      unfold occ at 2 in Hx. apply filter_In in Hx as [Hx _]. apply in_seq in Hx. lia.
  - apply ranks_clusters_objects. exact Hb.
Qed.

(** without duplicates the round trip is the identity *)
Definition all_distinct (data : list A) : Prop :=
  forall i j x y, nth_error data i = Some x -> nth_error data j = Some y -> eqb x y = true -> i = j.

Lemma object_round_trip_distinct data cl : clustering (length data) cl -> all_distinct data ->
  (do obs <- index_to_object A data cl; object_to_index A eqb K keqb str data obs) = Ok cl.
Proof.
  intros Hc Hd. destruct (object_round_trip data cl Hc) as [obs [cl' [E [Ho [E' [_ H']]]]]].
  rewrite E. cbn [bind]. rewrite E'. f_equal.
  clear E E' Hc. revert cl Ho. induction H' as [|g' ob cl' obs Hg H IH]; intros cl Ho; inversion Ho as [|g ob' cl2 obs' Hgo Ho' E1]; subst; auto.
  f_equal; [|apply IH; auto]. clear - Hd Hg Hgo. revert g Hgo.
  induction Hg as [|i o g' ob Hi Hg IH]; intros g Hgo; inversion Hgo as [|i' o' g2 ob' Hi' Hgo' E1]; subst; auto.
  f_equal; [|apply IH; auto]. destruct Hi as [x [Ex Hx]]. eapply Hd; eauto.
Qed.
End Obj.

(** ** Where conversions from labels fail *)
Lemma label_to_index_error {A} (data : list A) labels : length labels = length data ->
  (forall e, label_to_index A data labels = Raise e <->
     (labels = [] /\ e = ValueError) \/ (exists t, labels = None :: t /\ e = TypeError)).
Proof.
  intros Hl e. destruct labels as [|[c|] t].
  - unfold label_to_index, fresh_clusters. simpl. split.
    + intros H. injection H as <-. auto.
    + intros [[_ ->]|[t [H _]]]; [auto|discriminate].
  - assert (Hf : first_labelled (Some c :: t)) by (exists c, t; auto).
    destruct (label_to_index_spec data _ Hl Hf) as [cl [E _]]. rewrite E. split; [discriminate|].
    intros [[H _]|[t' [H _]]]; discriminate.
  - unfold label_to_index, fresh_clusters. cbn [max_label].
    assert (E : fold_left (fun m y => match m, y with
                                        | Some a, Some b => if a <? b then Some b else Some a
                                        | m, _ => m
                                        end) t None = None) by (clear; induction t; simpl; auto).
    rewrite E. cbn [bind]. split.
    + intros H. injection H as <-. right. exists t; auto.
    + intros [[H _]|[t' [_ ->]]]; [discriminate|auto].
Qed.
