(** Specification and proofs for OPTICS (C11, C12, C55), over an abstract neighbour searcher. *)
From Verif Require Import Base Kd_Model Dbscan_Model Dbscan_Proofs Optics_Model.

(** ** Specification *)
Section Spec.
Variable n : nat.
Variable nb : nat -> nat -> bool.     (* nb x y: y is a neighbour of x (y <> x) *)
Variable dist : nat -> nat -> Q.
Variable minpts : nat.

(** [v] is the [k]-th smallest element of [l] (k >= 1) *)
Definition kth_smallest (k : nat) (l : list Q) (v : Q) : Prop :=
  In v l /\ length (filter (fun w => Qltb w v) l) < k /\ k <= length (filter (fun w => Qle_bool w v) l).

Definition neighbours (x : nat) : list nat := filter (nb x) (seq 0 n).

(** the core distance of [x]: exists iff there are [minpts] neighbours *)
Definition core_is (x : nat) (c : option Q) : Prop :=
  match c with
  | None => length (neighbours x) < minpts
  | Some v => minpts <= length (neighbours x) /\ kth_smallest minpts (map (dist x) (neighbours x)) v
  end.

(** [v] is the reachability distance of [z] with respect to some core point of [pre] *)
Definition offer (core : nat -> option Q) (pre : list nat) (z : nat) (v : Q) : Prop :=
  exists y c, In y pre /\ core y = Some c /\ nb y z = true /\
    (dist y z <= v)%Q /\ (c <= v)%Q /\ (v = dist y z \/ v = c).

Definition least (S : Q -> Prop) (r : option Q) : Prop :=
  match r with
  | None => forall v, ~ S v
  | Some v => S v /\ forall w, S w -> (v <= w)%Q
  end.

(** the traversal order: the reachability of every object is the smallest one offered by the core
    points before it; the next object is one with the smallest reachability among those left, and
    the lowest index if none of those left is reachable *)
Definition optics_order (core reach : nat -> option Q) (order : list nat) : Prop :=
  Permutation order (seq 0 n) /\
  forall pre x post, order = pre ++ x :: post ->
    core_is x (core x) /\
    least (offer core pre x) (reach x) /\
    match reach x with
    | None => forall z, In z post -> (forall v, ~ offer core pre z v) /\ x < z
    | Some v => forall z w, In z post -> offer core pre z w -> (v <= w)%Q
    end.
End Spec.

(** ** Lists *)
Lemma sorted_ext_in {A} (R R' : A -> A -> Prop) l : (forall x y, In x l -> In y l -> R x y -> R' x y) ->
  StronglySorted R l -> StronglySorted R' l.
Proof.
  intros H Hs. induction Hs as [|x t Hs IH Hf]; constructor.
  - apply IH. intros; apply H; simpl; auto.
  - rewrite Forall_forall in *. intros y Hy. apply H; simpl; auto.
Qed.

Lemma kth_sorted l k v : StronglySorted Qle l -> nth_error l k = Some v -> kth_smallest (S k) l v.
Proof.
  intros Hs Hn. apply nth_error_split in Hn as [l1 [l2 [-> Hl]]].
  split; [apply in_app_iff; simpl; auto|].
  assert (H1 : forall w, In w l1 -> (w <= v)%Q).
  { clear Hl. induction l1 as [|a t IH]; intros w Hw; [destruct Hw|].
    inversion Hs as [|? ? Hs' Hf]; subst. destruct Hw as [<-|Hw]; [|auto].
    rewrite Forall_forall in Hf. apply Hf. apply in_app_iff; simpl; auto. }
  assert (H2 : forall w, In w l2 -> (v <= w)%Q).
  { clear Hl H1. induction l1 as [|a t IH]; intros w Hw; inversion Hs as [|? ? Hs' Hf]; subst; auto.
    rewrite Forall_forall in Hf. auto. }
  rewrite !filter_app, !app_length. cbn [filter].
  replace (Qltb v v) with false by (symmetry; apply Qltb_false; lra).
  replace (Qle_bool v v) with true by (symmetry; apply Qle_bool_iff; lra).
  assert (E2 : filter (fun w => Qltb w v) l2 = []).
  { clear -H2. induction l2 as [|a t IH]; simpl; auto.
    replace (Qltb a v) with false by (symmetry; apply Qltb_false; apply H2; simpl; auto). apply IH. intros; apply H2; simpl; auto. }
  assert (E1 : filter (fun w => Qle_bool w v) l1 = l1).
  { clear -H1. induction l1 as [|a t IH]; simpl; auto.
    replace (Qle_bool a v) with true by (symmetry; apply Qle_bool_iff; apply H1; simpl; auto). f_equal. apply IH. intros; apply H1; simpl; auto. }
  rewrite E2, E1. simpl. assert (length (filter (fun w => Qltb w v) l1) <= length l1).
  { clear. induction l1; simpl; auto. destruct (Qltb a v); simpl; lia. }
  lia.
Qed.

Lemma filter_length_perm {A} (f : A -> bool) l l' : Permutation l l' -> length (filter f l) = length (filter f l').
Proof.
  induction 1; simpl; auto; try congruence.
  - destruct (f x); simpl; auto.
  - destruct (f x), (f y); simpl; auto.
Qed.

Lemma kth_perm k l l' v : Permutation l l' -> kth_smallest k l v -> kth_smallest k l' v.
Proof.
  intros Hp [H1 [H2 H3]]. split; [eapply Permutation_in; eauto|].
  rewrite <- (filter_length_perm _ _ _ Hp), <- (filter_length_perm _ _ _ Hp). auto.
Qed.

Lemma py_max_spec a b : (a <= py_max a b)%Q /\ (b <= py_max a b)%Q /\ (py_max a b = a \/ py_max a b = b).
Proof.
  unfold py_max. destruct (Qltb a b) eqn:E.
  - apply Qltb_true in E. repeat split; auto; lra.
  - apply Qltb_false in E. repeat split; auto; lra.
Qed.

(** ** Generic part *)
Section Generic.
Variable search : nat -> list (nat * Q).
Variable minpts n : nat.
Hypothesis Hmin : 1 <= minpts.
Hypothesis Hlt : forall i p, i < n -> In p (search i) -> fst p < n.

Definition corev (x : nat) : option Q :=
  if minpts <=? length (search x) then
    match core_distance minpts (sort_key snd (search x)) with Ok c => Some c | Raise _ => None end
  else None.

Definition off (db : list nat) (z : nat) (v : Q) : Prop :=
  exists y c d, In y db /\ corev y = Some c /\ In (z, d) (search y) /\ v = py_max d c.

Lemma core_distance_ok l : minpts <= length l -> exists c, core_distance minpts (sort_key snd l) = Ok c.
Proof.
  intros H. unfold core_distance. destruct minpts as [|k]; [lia|].
  destruct (nth_error (sort_key snd l) k) eqn:E; [eauto|].
  apply nth_error_None in E. rewrite sort_key_length in E. lia.
Qed.

Record Inv (os : list obj) (db : list nat) (S : nat -> Q -> Prop) (seeds : list nat) : Prop := {
  i_len : length os = n;
  i_nd : NoDup db;
  i_lt : forall x, In x db -> x < n;
  i_proc : forall i, i < n -> (o_processed (get os i) = true <-> In i db);
  i_least : forall i, i < n -> ~ In i db -> least (S i) (o_reach (get os i));
  i_snd : NoDup seeds;
  i_seeds : forall i, In i seeds <-> i < n /\ ~ In i db /\ o_reach (get os i) <> None;
  i_sorted : StronglySorted (key_le (reach_of os)) seeds }.

Lemma get_upd_eq os i o : i < length os -> get (upd os i o) i = o.
Proof. intros; unfold get; apply upd_nth_eq; auto. Qed.
Lemma get_upd_neq os i j o : i <> j -> get (upd os i o) j = get os j.
Proof. intros; unfold get; apply upd_nth_neq; auto. Qed.

Lemma insert_seed_perm os r i seeds : Permutation (insert_seed os r i seeds) (i :: seeds).
Proof.
  induction seeds as [|s t IH]; simpl; auto. destruct (Qltb r (reach_of os s)); auto.
  rewrite IH. apply perm_swap.
Qed.

Lemma insert_seed_sorted os r i seeds : reach_of os i = r -> StronglySorted (key_le (reach_of os)) seeds ->
  StronglySorted (key_le (reach_of os)) (insert_seed os r i seeds).
Proof.
  intros Hr Hs. induction Hs as [|s t Hs IH Hf]; simpl; [repeat constructor|].
  destruct (Qltb r (reach_of os s)) eqn:E.
  - apply Qltb_true in E. constructor; [constructor; auto|]. constructor; [unfold key_le; rewrite Hr; lra|].
    rewrite Forall_forall in *. intros z Hz. specialize (Hf z Hz). unfold key_le in *. rewrite Hr. lra.
  - apply Qltb_false in E. constructor; auto. rewrite Forall_forall in *. intros z Hz.
    apply (Permutation_in _ (insert_seed_perm os r i t)) in Hz. destruct Hz as [<-|Hz]; auto.
    unfold key_le. rewrite Hr. auto.
Qed.

Lemma least_ext (S S' : Q -> Prop) r : (forall v, S v <-> S' v) -> least S r -> least S' r.
Proof.
  intros H. destruct r as [v|]; simpl.
  - intros [H1 H2]. split; [apply H; auto|]. intros w Hw. apply H2, H; auto.
  - intros H1 v Hv. apply (H1 v), H; auto.
Qed.

Lemma Inv_ext os db S S' seeds : (forall i v, i < n -> ~ In i db -> (S i v <-> S' i v)) ->
  Inv os db S seeds -> Inv os db S' seeds.
Proof.
  intros H [A B C D E F G I]. constructor; auto. intros i Hi Hn. eapply least_ext; [|apply E; auto].
  intros v. apply H; auto.
Qed.

Lemma update_spec c : forall neighbors os db S seeds,
  Inv os db S seeds -> (forall p, In p neighbors -> fst p < n) ->
  exists os' seeds', update_order_seed c neighbors os seeds = Ok (os', seeds') /\
    Inv os' db (fun i v => S i v \/ exists d, In (i, d) neighbors /\ v = py_max d c) seeds' /\
    (forall x, In x db -> get os' x = get os x) /\
    (forall x, x < n -> o_core (get os' x) = o_core (get os x)).
Proof.
  induction neighbors as [|[i d] t IH]; intros os db S seeds HI Hb.
  - exists os, seeds. split; [reflexivity|]. split; [|auto]. eapply Inv_ext; [|exact HI].
    intros; split; auto. intros [H'|[d [[] _]]]; auto.
  - cbn [update_order_seed].
    assert (Hi : i < n) by (apply (Hb (i, d)); simpl; auto).
    assert (Hb' : forall p, In p t -> fst p < n) by (intros; apply Hb; simpl; auto).
    destruct (Nat.leb_spec (length os) i) as [Hc|_]; [rewrite (i_len _ _ _ _ HI) in Hc; lia|].
    set (S1 := fun j v => S j v \/ (j = i /\ v = py_max d c)).
    assert (Hfin : forall os1 seeds1, Inv os1 db S1 seeds1 ->
       (forall x, In x db -> get os1 x = get os x) -> (forall x, x < n -> o_core (get os1 x) = o_core (get os x)) ->
       exists os' seeds', update_order_seed c t os1 seeds1 = Ok (os', seeds') /\
       Inv os' db (fun j v => S j v \/ exists d', In (j, d') ((i, d) :: t) /\ v = py_max d' c) seeds' /\
       (forall x, In x db -> get os' x = get os x) /\
       (forall x, x < n -> o_core (get os' x) = o_core (get os x))).
    { intros os1 seeds1 HI1 Hd1 Hc1. destruct (IH os1 db S1 seeds1 HI1 Hb') as [os' [seeds' [E [HI' [Hd' Hc']]]]].
      exists os', seeds'. split; auto. split; [|split].
      - eapply Inv_ext; [|exact HI']. intros j v Hj Hnj. unfold S1. split.
        + intros [[H|[-> ->]]|[d' [H ->]]]; auto; right; [exists d|exists d']; simpl; auto.
        + intros [H|[d' [[H|H] ->]]]; auto.
          * injection H as -> ->. auto.
          * right. exists d'; auto.
      - intros x Hx. rewrite Hd', Hd1; auto.
      - intros x Hx. rewrite Hc', Hc1; auto. }
    destruct HI as [Hlen Hnd Hdl Hproc Hleast Hsnd Hseeds Hsorted].
    destruct (o_processed (get os i)) eqn:Ep.
    + apply Hfin; auto. apply (Hproc i Hi) in Ep.
      apply Inv_ext with (S := S); [|constructor; auto].
      intros j v Hj Hnj. unfold S1. split; auto. intros [H|[-> _]]; [auto|contradiction].
    + assert (Hni : ~ In i db) by (intro Hc; apply (Hproc i Hi) in Hc; congruence).
      pose proof (Hleast i Hi Hni) as Hl.
      set (os1 := upd os i (set_reach (get os i) (Some (py_max d c)))).
      assert (Hne : forall j, j <> i -> get os1 j = get os j) by (intros; apply get_upd_neq; auto).
      assert (Heq : get os1 i = set_reach (get os i) (Some (py_max d c))) by (apply get_upd_eq; lia).
      assert (Hlen1 : length os1 = n) by (unfold os1; rewrite upd_length; auto).
      assert (Hproc1 : forall j, j < n -> (o_processed (get os1 j) = true <-> In j db)).
      { intros j Hj. destruct (Nat.eq_dec j i) as [->|Hji]; [rewrite Heq|rewrite Hne by auto]; [|apply Hproc; auto].
        simpl. apply Hproc; auto. }
      assert (Hcore1 : forall x, x < n -> o_core (get os1 x) = o_core (get os x)).
      { intros x Hx. destruct (Nat.eq_dec x i) as [->|Hji]; [rewrite Heq|rewrite Hne by auto]; reflexivity. }
      assert (Hdb1 : forall x, In x db -> get os1 x = get os x).
      { intros x Hx. apply Hne. intros ->. contradiction. }
      assert (Hri : reach_of os1 i = py_max d c) by (unfold reach_of; rewrite Heq; reflexivity).
      destruct (o_reach (get os i)) as [r0|] eqn:Er.
      * destruct Hl as [Hl1 Hl2]. destruct (Qltb (py_max d c) r0) eqn:El.
        -- apply Qltb_true in El. apply Hfin; auto. constructor; auto.
           ++ intros j Hj Hnj. unfold S1. destruct (Nat.eq_dec j i) as [->|Hji].
              ** rewrite Heq. simpl. split; auto. intros w [H|[_ ->]]; [|lra]. specialize (Hl2 w H). lra.
              ** rewrite Hne by auto. eapply least_ext; [|apply Hleast; auto]. intros v. split; auto.
                 intros [H|[H _]]; [auto|contradiction].
           ++ eapply Permutation_NoDup; [apply Permutation_sym, sort_key_perm|]; auto.
           ++ intros j. split.
              ** intros Hj. apply (Permutation_in _ (sort_key_perm _ _)) in Hj. apply Hseeds in Hj as [Hj [Hnj Hr]].
                 split; auto. split; auto. destruct (Nat.eq_dec j i) as [->|Hji]; [rewrite Heq; discriminate|rewrite Hne; auto].
              ** intros [Hj [Hnj Hr]]. apply (Permutation_in _ (Permutation_sym (sort_key_perm _ _))).
                 apply Hseeds. split; auto. split; auto.
                 destruct (Nat.eq_dec j i) as [->|Hji]; [rewrite Er; discriminate|rewrite Hne in Hr; auto].
           ++ apply sort_key_sorted.
        -- apply Qltb_false in El. apply Hfin; auto. constructor; auto. intros j Hj Hnj. unfold S1.
           destruct (Nat.eq_dec j i) as [->|Hji].
           ++ rewrite Er. simpl. split; auto. intros w [H|[_ ->]]; auto.
           ++ eapply least_ext; [|apply Hleast; auto]. intros v. split; auto.
              intros [H|[H _]]; [auto|contradiction].
      * assert (Hnis : ~ In i seeds) by (intro Hc; apply Hseeds in Hc; destruct Hc as [_ [_ Hc]]; auto).
        apply Hfin; auto. constructor; auto.
        ++ intros j Hj Hnj. unfold S1. destruct (Nat.eq_dec j i) as [->|Hji].
           ** rewrite Heq. simpl. split; auto. intros w [H|[_ ->]]; [destruct (Hl w H)|lra].
           ** rewrite Hne by auto. eapply least_ext; [|apply Hleast; auto]. intros v. split; auto.
              intros [H|[H _]]; [auto|contradiction].
        ++ eapply Permutation_NoDup; [apply Permutation_sym, insert_seed_perm|]. constructor; auto.
        ++ intros j. split.
           ** intros Hj. apply (Permutation_in _ (insert_seed_perm _ _ _ _)) in Hj. destruct Hj as [<-|Hj].
              { split; auto. split; auto. rewrite Heq. discriminate. }
              assert (Hji : j <> i) by (intros ->; contradiction).
              apply Hseeds in Hj as [Hj [Hnj Hr]]. rewrite Hne; auto.
           ** intros [Hj [Hnj Hr]]. apply (Permutation_in _ (Permutation_sym (insert_seed_perm _ _ _ _))).
              destruct (Nat.eq_dec j i) as [->|Hji]; [simpl; auto|]. right.
              apply Hseeds. split; auto. split; auto. rewrite Hne in Hr; auto.
        ++ apply insert_seed_sorted; auto. eapply sorted_ext_in; [|exact Hsorted].
           intros x y Hx Hy. unfold key_le, reach_of. rewrite !Hne; auto; intros ->; contradiction.
Qed.

(** history of the traversal *)
Definition chosen (os : list obj) (pre : list nat) (x : nat) : Prop :=
  match o_reach (get os x) with
  | None => forall z, z < n -> ~ In z pre -> (forall v, ~ off pre z v) /\ x <= z
  | Some v => forall z w, z < n -> ~ In z pre -> off pre z w -> (v <= w)%Q
  end.

Definition Hist (os : list obj) (db : list nat) : Prop :=
  forall pre x post, db = pre ++ x :: post ->
    o_core (get os x) = corev x /\ least (off pre x) (o_reach (get os x)) /\ chosen os pre x.

Lemma Hist_ext os os' db : (forall x, In x db -> get os' x = get os x) -> Hist os db -> Hist os' db.
Proof.
  intros H HH pre x post E. assert (Hx : In x db) by (rewrite E; apply in_app_iff; simpl; auto).
  specialize (HH pre x post E). unfold chosen in *. rewrite (H x Hx). exact HH.
Qed.

Lemma Hist_snoc os db x : Hist os db -> o_core (get os x) = corev x -> least (off db x) (o_reach (get os x)) ->
  chosen os db x -> Hist os (db ++ [x]).
Proof.
  intros HH H1 H2 H3 pre y post E.
  destruct (snoc_inv _ _ _ _ _ E) as [[_ [<- <-]]|[post' [_ E']]]; auto. eapply HH; eauto.
Qed.

Lemma off_snoc_none db x z v : corev x = None -> (off (db ++ [x]) z v <-> off db z v).
Proof.
  intros Hc. split.
  - intros [y [c [d [Hy [Hyc H]]]]]. apply in_app_iff in Hy as [Hy|[<-|[]]]; [|congruence]. exists y, c, d. auto.
  - intros [y [c [d [Hy H]]]]. exists y, c, d. split; auto. apply in_app_iff; auto.
Qed.

Lemma off_snoc_some db x z v c : corev x = Some c ->
  (off (db ++ [x]) z v <-> off db z v \/ exists d, In (z, d) (sort_key snd (search x)) /\ v = py_max d c).
Proof.
  intros Hc. split.
  - intros [y [c' [d [Hy [Hyc [Hin ->]]]]]]. apply in_app_iff in Hy as [Hy|[<-|[]]].
    + left. exists y, c', d. auto.
    + right. exists d. assert (c = c') by congruence. subst. split; auto.
      apply (Permutation_in _ (Permutation_sym (sort_key_perm _ _))). auto.
  - intros [[y [c' [d [Hy H]]]]|[d [Hin ->]]].
    + exists y, c', d. split; auto. apply in_app_iff; auto.
    + exists x, c, d. split; [apply in_app_iff; simpl; auto|]. split; auto. split; auto.
      apply (Permutation_in _ (sort_key_perm _ _)) in Hin. auto.
Qed.

(** processing the object [x]: the common part of both loops *)
Lemma visit_inv os db seeds x o : Inv os db (off db) (x :: seeds) \/ (Inv os db (off db) [] /\ seeds = []) ->
  x < n -> ~ In x db -> o_processed o = true ->
  Inv (upd os x o) (db ++ [x]) (off db) seeds.
Proof.
  intros HI Hx Hnx Ho.
  assert (Hbase : length os = n /\ NoDup db /\ (forall y, In y db -> y < n) /\
     (forall i, i < n -> (o_processed (get os i) = true <-> In i db)) /\
     (forall i, i < n -> ~ In i db -> least (off db i) (o_reach (get os i))) /\
     (NoDup seeds) /\ (forall i, In i seeds <-> i < n /\ ~ In i db /\ i <> x /\ o_reach (get os i) <> None) /\
     StronglySorted (key_le (reach_of os)) seeds).
  { destruct HI as [[A B C D E F G I]|[[A B C D E F G I] ->]].
    - inversion_clear F as [|? ? F1 F2]. inversion_clear I as [|? ? I1 I2].
      refine (conj A (conj B (conj C (conj D (conj E (conj F2 (conj _ I1))))))).
      intros i. split.
      + intros Hi. destruct (proj1 (G i)) as [G1 [G2 G3]]; [simpl; auto|]. repeat (split; auto). intros ->; contradiction.
      + intros [H1 [H2 [H3 H4]]]. destruct (proj2 (G i)) as [->|]; auto. contradiction.
    - refine (conj A (conj B (conj C (conj D (conj E (conj F (conj _ I))))))).
      intros i. split; [intros []|].
      intros [H1 [H2 [H3 H4]]]. exfalso. destruct (proj2 (G i)). auto. }
  destruct Hbase as [A [B [C [D [E [F [G I]]]]]]].
  assert (Hne : forall j, j <> x -> get (upd os x o) j = get os j) by (intros; apply get_upd_neq; auto).
  assert (Heq : get (upd os x o) x = o) by (apply get_upd_eq; lia).
  constructor; auto.
  - rewrite upd_length; auto.
  - apply NoDup_app_snoc; auto.
  - intros y Hy. apply in_app_iff in Hy as [Hy|[<-|[]]]; auto.
  - intros i Hi. rewrite in_app_iff. destruct (Nat.eq_dec i x) as [->|Hix].
    + rewrite Heq. simpl. split; [intros _; right; left; reflexivity|intros _; exact Ho].
    + rewrite Hne by auto. rewrite D by auto. simpl. split; auto. intros [H|[H|[]]]; auto. symmetry in H; contradiction.
  - intros i Hi Hn. rewrite in_app_iff in Hn. simpl in Hn. rewrite Hne; [apply E; auto|]. intros ->. auto.
  - intros i. rewrite G, in_app_iff. simpl. split.
    + intros [H1 [H2 [H3 H4]]]. rewrite Hne by auto. split; auto. split; auto. intros [H|[H|[]]]; auto.
    + intros [H1 [H2 H3]]. assert (i <> x) by (intros ->; apply H2; auto). rewrite Hne in H3 by auto. repeat (split; auto).
  - eapply sorted_ext_in; [|exact I]. intros y z Hy Hz. unfold key_le, reach_of.
    apply G in Hy. apply G in Hz. rewrite !Hne by tauto. auto.
Qed.

Lemma db_length os db S seeds : Inv os db S seeds -> length db <= n.
Proof.
  intros [A B C D E F G I]. rewrite <- (seq_length n 0). apply NoDup_incl_length; auto.
  intros x Hx. apply in_seq. specialize (C x Hx). lia.
Qed.

(** the part after an object has been appended to the database *)
Lemma core_step os db seeds x : Inv os (db ++ [x]) (off db) seeds -> x < n -> o_core (get os x) = corev x ->
  forall c, corev x = Some c ->
  exists os' seeds', update_order_seed c (sort_key snd (search x)) os seeds = Ok (os', seeds') /\
    Inv os' (db ++ [x]) (off (db ++ [x])) seeds' /\
    (forall y, In y (db ++ [x]) -> get os' y = get os y).
Proof.
  intros HI Hx Hcx c Hc.
  destruct (update_spec c (sort_key snd (search x)) os (db ++ [x]) (off db) seeds HI) as [os' [seeds' [E [HI' [H1 H2]]]]].
  - intros p Hp. apply (Permutation_in _ (sort_key_perm _ _)) in Hp. eapply Hlt; eauto.
  - exists os', seeds'. split; auto. split; auto. eapply Inv_ext; [|exact HI'].
    intros i v Hi Hni. symmetry. apply off_snoc_some. auto.
Qed.

Lemma seed_loop_spec : forall fuel os db seeds, n - length db <= fuel ->
  Inv os db (off db) seeds -> Hist os db ->
  exists os' db', seed_loop search minpts fuel os db seeds = Ok (os', db ++ db') /\
    Inv os' (db ++ db') (off (db ++ db')) [] /\ Hist os' (db ++ db').
Proof.
  induction fuel as [|fuel IH]; intros os db seeds Hf HI HH.
  - destruct seeds as [|x seeds].
    + exists os, []. rewrite app_nil_r. auto.
    + exfalso. pose proof (db_length _ _ _ _ HI). 
      assert (Hx : In x (x :: seeds)) by (simpl; auto). apply (i_seeds _ _ _ _ HI) in Hx as [Hx [Hnx _]].
      assert (length (db ++ [x]) <= n).
      { rewrite <- (seq_length n 0). apply NoDup_incl_length.
        - apply NoDup_app_snoc; auto. apply (i_nd _ _ _ _ HI).
        - intros y Hy. apply in_seq. apply in_app_iff in Hy as [Hy|[<-|[]]]; [apply (i_lt _ _ _ _ HI) in Hy|]; lia. }
      rewrite app_length in H0. simpl in H0. lia.
  - destruct seeds as [|x seeds]; [exists os, []; rewrite app_nil_r; auto|].
    cbn [seed_loop].
    assert (Hx : In x (x :: seeds)) by (simpl; auto). apply (i_seeds _ _ _ _ HI) in Hx as [Hx [Hnx Hrx]].
    set (os1 := upd os x (set_processed (get os x))).
    assert (Hlen : length os = n) by apply (i_len _ _ _ _ HI).
    assert (E1 : get os1 x = set_processed (get os x)) by (apply get_upd_eq; lia).
    (* the final object after its core distance is set *)
    assert (Hvisit : forall cv, cv = corev x ->
       Inv (upd os1 x (set_core (get os1 x) cv)) (db ++ [x]) (off db) seeds /\
       Hist (upd os1 x (set_core (get os1 x) cv)) (db ++ [x])).
    { intros cv Hcv. set (o := set_core (get os1 x) cv).
      assert (Eo : upd os1 x o = upd os x o).
      { apply upd_upd. }
      rewrite Eo. assert (Ho : o_processed o = true) by (unfold o; rewrite E1; reflexivity).
      assert (HI2 : Inv (upd os x o) (db ++ [x]) (off db) seeds) by (apply visit_inv; auto).
      split; auto.
      assert (Ex : get (upd os x o) x = o) by (apply get_upd_eq; lia).
      apply Hist_snoc.
      - eapply Hist_ext; [|exact HH]. intros y Hy. apply get_upd_neq. intros ->; contradiction.
      - rewrite Ex. unfold o. auto.
      - rewrite Ex. unfold o. rewrite E1. simpl. apply (i_least _ _ _ _ HI); auto.
      - unfold chosen. rewrite Ex. unfold o. rewrite E1. simpl.
        destruct (o_reach (get os x)) as [v|] eqn:Er; [|congruence].
        intros z w Hz Hnz Hoff. pose proof (i_least _ _ _ _ HI z Hz Hnz) as Hlz.
        destruct (o_reach (get os z)) as [vz|] eqn:Ez; [|destruct (Hlz w Hoff)].
        destruct Hlz as [_ Hlz]. specialize (Hlz w Hoff).
        assert (Hzs : In z (x :: seeds)) by (apply (i_seeds _ _ _ _ HI); rewrite Ez; repeat split; auto; discriminate).
        destruct Hzs as [<-|Hzs]; [rewrite Er in Ez; injection Ez as ->; auto|].
        pose proof (i_sorted _ _ _ _ HI) as Hs. inversion Hs as [|? ? _ Hfa]; subst.
        rewrite Forall_forall in Hfa. specialize (Hfa z Hzs). unfold key_le, reach_of in Hfa.
        rewrite Er, Ez in Hfa. lra. }
    assert (Hfuel : n - length (db ++ [x]) <= fuel) by (rewrite app_length; simpl; lia).
    destruct (Nat.leb_spec minpts (length (search x))) as [Hm|Hm].
    + destruct (core_distance_ok (search x) Hm) as [c Ec]. rewrite Ec. cbn [bind].
      assert (Hcv : corev x = Some c).
      { unfold corev. replace (minpts <=? length (search x)) with true by (symmetry; apply Nat.leb_le; auto). rewrite Ec. auto. }
      destruct (Hvisit (Some c)) as [HI2 HH2]; auto.
      set (os2 := upd os1 x (set_core (get os1 x) (Some c))) in *.
      destruct (core_step os2 db seeds x HI2 Hx) with (c := c) as [os3 [seeds3 [E3 [HI3 H3]]]]; auto.
      { unfold os2. rewrite get_upd_eq; [simpl; auto|]. unfold os1. rewrite upd_length. lia. }
      rewrite E3. cbn [bind fst snd].
      destruct (IH os3 (db ++ [x]) seeds3 Hfuel HI3) as [os' [db' [E [HI' HH']]]].
      { eapply Hist_ext; eauto. }
      exists os', (x :: db'). replace (db ++ x :: db') with ((db ++ [x]) ++ db') by (rewrite <- app_assoc; reflexivity).
      split; [exact E|]. auto.
    + assert (Hcv : corev x = None).
      { unfold corev. replace (minpts <=? length (search x)) with false; auto. symmetry; apply Nat.leb_gt; auto. }
      destruct (Hvisit None) as [HI2 HH2]; auto.
      set (os2 := upd os1 x (set_core (get os1 x) None)) in *.
      destruct (IH os2 (db ++ [x]) seeds Hfuel) as [os' [db' [E [HI' HH']]]]; auto.
      { eapply Inv_ext; [|exact HI2]. intros i v Hi Hni. symmetry. apply off_snoc_none; auto. }
      exists os', (x :: db'). replace (db ++ x :: db') with ((db ++ [x]) ++ db') by (rewrite <- app_assoc; reflexivity).
      split; [exact E|]. auto.
Qed.

Lemma expand_spec x os db : Inv os db (off db) [] -> Hist os db -> x < n -> ~ In x db ->
  (forall j, j < x -> In j db) ->
  exists os' db', expand_cluster_order search minpts x os db = Ok (os', db ++ x :: db') /\
    Inv os' (db ++ x :: db') (off (db ++ x :: db')) [] /\ Hist os' (db ++ x :: db').
Proof.
  intros HI HH Hx Hnx Hbelow. unfold expand_cluster_order.
  assert (Hlen : length os = n) by apply (i_len _ _ _ _ HI).
  set (os1 := upd os x (set_processed (get os x))).
  set (os2 := upd os1 x (set_reach (get os1 x) None)).
  assert (E1 : get os1 x = set_processed (get os x)) by (apply get_upd_eq; lia).
  assert (E2 : get os2 x = set_reach (get os1 x) None) by (apply get_upd_eq; unfold os1; rewrite upd_length; lia).
  assert (Hnone : forall z, z < n -> ~ In z db -> forall v, ~ off db z v).
  { intros z Hz Hnz. pose proof (i_least _ _ _ _ HI z Hz Hnz) as Hl.
    destruct (o_reach (get os z)) eqn:Ez; auto.
    exfalso. apply (proj2 (i_seeds _ _ _ _ HI z)). rewrite Ez. repeat split; auto; discriminate. }
  assert (Hvisit : forall cv, cv = corev x ->
     Inv (upd os2 x (set_core (get os2 x) cv)) (db ++ [x]) (off db) [] /\
     Hist (upd os2 x (set_core (get os2 x) cv)) (db ++ [x])).
  { intros cv Hcv. set (o := set_core (get os2 x) cv).
    assert (Eo : upd os2 x o = upd os x o).
    { unfold os2, os1. rewrite !upd_upd. reflexivity. }
    rewrite Eo. assert (Ho : o_processed o = true) by (unfold o; rewrite E2, E1; reflexivity).
    assert (HI2 : Inv (upd os x o) (db ++ [x]) (off db) []) by (apply visit_inv; auto).
    split; auto.
    assert (Ex : get (upd os x o) x = o) by (apply get_upd_eq; lia).
    apply Hist_snoc.
    - eapply Hist_ext; [|exact HH]. intros y Hy. apply get_upd_neq. intros ->; contradiction.
    - rewrite Ex. unfold o. auto.
    - rewrite Ex. unfold o. rewrite E2. simpl. apply Hnone; auto.
    - unfold chosen. rewrite Ex. unfold o. rewrite E2. simpl. intros z Hz Hnz. split; [apply Hnone; auto|].
      destruct (Nat.le_gt_cases x z); auto. exfalso. auto. }
  destruct (Nat.leb_spec minpts (length (search x))) as [Hm|Hm].
  - destruct (core_distance_ok (search x) Hm) as [c Ec]. rewrite Ec. cbn [bind].
    assert (Hcv : corev x = Some c).
    { unfold corev. replace (minpts <=? length (search x)) with true by (symmetry; apply Nat.leb_le; auto). rewrite Ec. auto. }
    destruct (Hvisit (Some c)) as [HI2 HH2]; auto.
    set (os3 := upd os2 x (set_core (get os2 x) (Some c))) in *.
    destruct (core_step os3 db [] x HI2 Hx) with (c := c) as [os4 [seeds4 [E4 [HI4 H4]]]]; auto.
    { unfold os3. rewrite get_upd_eq; [simpl; auto|]. unfold os2, os1. rewrite !upd_length. lia. }
    rewrite E4. cbn [bind fst snd].
    destruct (seed_loop_spec (length os3) os4 (db ++ [x]) seeds4) as [os' [db' [E [HI' HH']]]]; auto.
    { rewrite (i_len _ _ _ _ HI2). lia. }
    { eapply Hist_ext; eauto. }
    exists os', db'. replace (db ++ x :: db') with ((db ++ [x]) ++ db') by (rewrite <- app_assoc; reflexivity).
    auto.
  - assert (Hcv : corev x = None).
    { unfold corev. replace (minpts <=? length (search x)) with false; auto. symmetry; apply Nat.leb_gt; auto. }
    destruct (Hvisit None) as [HI2 HH2]; auto.
    eexists _, []. split; [reflexivity|]. split; auto.
    eapply Inv_ext; [|exact HI2]. intros i v Hi Hni. symmetry. apply off_snoc_none; auto.
Qed.

Lemma traverse_spec : forall k a os db, a + k = n -> Inv os db (off db) [] -> Hist os db ->
  (forall j, j < a -> In j db) ->
  exists os' db', traverse search minpts (seq a k) os db = Ok (os', db') /\
    Inv os' db' (off db') [] /\ Hist os' db' /\ (forall j, j < n -> In j db').
Proof.
  induction k as [|k IH]; intros a os db Ha HI HH Hb.
  - exists os, db. split; [reflexivity|]. split; auto. split; auto. intros j Hj. apply Hb. lia.
  - cbn [seq traverse]. destruct (o_processed (get os a)) eqn:Ep.
    + apply (i_proc _ _ _ _ HI) in Ep; [|lia]. apply IH; auto; try lia.
      intros j Hj. destruct (Nat.eq_dec j a) as [->|]; auto. apply Hb. lia.
    + assert (Hna : ~ In a db) by (intro Hc; apply (i_proc _ _ _ _ HI) in Hc; [congruence|lia]).
      destruct (expand_spec a os db HI HH) as [os1 [db1 [E [HI1 HH1]]]]; auto; try lia.
      rewrite E. cbn [bind fst snd]. apply IH; auto; try lia.
      intros j Hj. apply in_app_iff. destruct (Nat.eq_dec j a) as [->|]; [simpl; auto|]. left. apply Hb. lia.
Qed.

Lemma traverse_start :
  exists os db, traverse search minpts (seq 0 n) (repeat obj0 n) [] = Ok (os, db) /\
    length os = n /\ Permutation db (seq 0 n) /\ Hist os db.
Proof.
  destruct (traverse_spec n 0 (repeat obj0 n) []) as [os [db [E [HI [HH Hall]]]]]; auto; try lia.
  - assert (Hg : forall i, get (repeat obj0 n) i = obj0).
    { intros i. unfold get. clear. revert i. induction n; intros [|i]; simpl; auto. }
    constructor; auto; try (constructor; fail).
    + apply repeat_length.
    + intros x [].
    + intros i Hi. rewrite Hg. simpl. split; [discriminate|intros []].
    + intros i Hi _. rewrite Hg. simpl. intros v [y [c [d [[] _]]]].
    + intros i. rewrite Hg. simpl. split; [intros []|]. intros [_ [_ Hc]]. congruence.
  - intros pre x post Hc. destruct pre; discriminate.
  - exists os, db. split; auto. split; [apply (i_len _ _ _ _ HI)|]. split; auto.
    apply NoDup_Permutation; [apply (i_nd _ _ _ _ HI)|apply seq_NoDup|].
    intros x. rewrite in_seq. split.
    + intros Hx. apply (i_lt _ _ _ _ HI) in Hx. lia.
    + intros Hx. apply Hall. lia.
Qed.
End Generic.

(** ** The result over a neighbourhood relation *)
Section ResultSpec.
Variable n : nat.
Variable nb : nat -> nat -> bool.
Variable dist : nat -> nat -> Q.
Variable minpts : nat.

(** the clusters extracted from the ordering: grown from a core point [p] (its lowest index), they
    contain exactly the core points density-connected to [p], and border points of those *)
Definition optics_cluster (c : list nat) : Prop :=
  exists p t, c = p :: t /\ core n nb minpts p /\
    (forall x, In x t -> p < x) /\
    (forall x, core n nb minpts x -> (In x c <-> linked n nb minpts p x)) /\
    (forall x, In x c -> ~ core n nb minpts x -> exists y, In y c /\ core n nb minpts y /\ nb y x = true).

Definition optics_clusters (clusters : list (list nat)) (noise order : list nat) : Prop :=
  Permutation (concat clusters ++ noise) (seq 0 n) /\
  Forall optics_cluster clusters /\
  StronglySorted lt (map (hd 0) clusters) /\
  (* noise: not core, and no core point before it in the ordering has it in its neighbourhood *)
  (forall pre x post, order = pre ++ x :: post ->
     (In x noise <-> ~ core n nb minpts x /\ forall y, In y pre -> core n nb minpts y -> nb y x = false)).
End ResultSpec.

Section Result.
Variable search : nat -> list (nat * Q).
Variable n minpts : nat.
Variable nb : nat -> nat -> bool.
Variable dist : nat -> nat -> Q.
Variable eps : Q.
Hypothesis Hmin : 1 <= minpts.
Hypothesis Hsearch : forall i, i < n ->
  Permutation (search i) (map (fun j => (j, dist i j)) (filter (nb i) (seq 0 n))).
Hypothesis Heps : forall i j, nb i j = true -> (dist i j <= eps)%Q.

Lemma search_in i j d : i < n -> (In (j, d) (search i) <-> j < n /\ nb i j = true /\ d = dist i j).
Proof.
  intros Hi. split.
  - intros H. apply (Permutation_in _ (Hsearch i Hi)) in H. apply in_map_iff in H as [k [E H]].
    injection E as -> ->. apply filter_In in H as [H1 H2]. apply in_seq in H1. repeat split; auto; lia.
  - intros [Hj [Hn ->]]. apply (Permutation_in _ (Permutation_sym (Hsearch i Hi))). apply in_map_iff.
    exists j. split; auto. apply filter_In. split; auto. apply in_seq; lia.
Qed.

Lemma search_len i : i < n -> length (search i) = length (neighbours n nb i).
Proof. intros Hi. rewrite (Permutation_length (Hsearch i Hi)), map_length. reflexivity. Qed.

Lemma Hlt' : forall i p, i < n -> In p (search i) -> fst p < n.
Proof. intros i [j d] Hi Hp. apply search_in in Hp; auto. simpl. tauto. Qed.

Notation corev := (corev search minpts).
Notation off := (off search minpts).

Lemma sort_snd (l : list (nat * Q)) : StronglySorted Qle (map snd (sort_key snd l)).
Proof.
  pose proof (sort_key_sorted snd l) as H. induction H as [|x t Hs IH Hf]; simpl; constructor; auto.
  rewrite Forall_forall in *. intros q Hq. apply in_map_iff in Hq as [y [<- Hy]]. apply (Hf y Hy).
Qed.

Lemma corev_is x : x < n -> core_is n nb dist minpts x (corev x).
Proof.
  intros Hx. unfold corev. pose proof (search_len x Hx) as Hl.
  destruct (Nat.leb_spec minpts (length (search x))) as [Hm|Hm]; [|simpl; lia].
  destruct (core_distance_ok minpts Hmin (search x) Hm) as [c Ec]. rewrite Ec. simpl. split; [lia|].
  unfold core_distance in Ec. destruct minpts as [|k]; [lia|].
  destruct (nth_error (sort_key snd (search x)) k) as [p|] eqn:En; [|discriminate]. apply Ok_inj in Ec. subst c.
  apply kth_perm with (l := map snd (sort_key snd (search x))).
  - eapply Permutation_trans; [apply Permutation_map, sort_key_perm|].
    eapply Permutation_trans; [apply Permutation_map, (Hsearch x Hx)|]. rewrite map_map. simpl. apply Permutation_refl.
  - apply kth_sorted; [apply sort_snd|]. rewrite nth_error_map, En. reflexivity.
Qed.

Lemma corev_core x : x < n -> (corev x <> None <-> core n nb minpts x).
Proof.
  intros Hx. pose proof (corev_is x Hx) as H. unfold core. unfold neighbours, core_is in H.
  destruct (corev x); simpl in H; split; try (intros; congruence).
  - intros _. split; auto. apply H.
  - intros [_ Hc]. unfold neighbours in H. lia.
Qed.

Lemma corev_le x c : x < n -> corev x = Some c -> (c <= eps)%Q.
Proof.
  intros Hx E. pose proof (corev_is x Hx) as H. rewrite E in H. simpl in H. destruct H as [_ [H _]].
  apply in_map_iff in H as [y [<- Hy]]. apply filter_In in Hy as [_ Hy]. auto.
Qed.

Lemma off_offer cf pre z v : (forall x, In x pre -> x < n /\ cf x = corev x) -> off pre z v -> offer nb dist cf pre z v.
Proof.
  intros Hp [y [c [d [Hy [Hc [Hin ->]]]]]]. destruct (Hp y Hy) as [Hyn Ecf].
  apply search_in in Hin as [Hz [Hn ->]]; auto.
  exists y, c. destruct (py_max_spec (dist y z) c) as [H1 [H2 H3]]. repeat split; auto. congruence.
Qed.

Lemma offer_off cf pre z w : (forall x, In x pre -> x < n /\ cf x = corev x) -> z < n ->
  offer nb dist cf pre z w -> exists v, off pre z v /\ (v == w)%Q.
Proof.
  intros Hp Hz [y [c [Hy [Hc [Hn [H1 [H2 H3]]]]]]]. destruct (Hp y Hy) as [Hyn Ecf].
  exists (py_max (dist y z) c). split.
  - exists y, c, (dist y z). split; auto. split; [congruence|]. split; auto. apply search_in; auto.
  - destruct (py_max_spec (dist y z) c) as [G1 [G2 [G3|G3]]]; rewrite G3 in *; destruct H3 as [->| ->]; lra.
Qed.

Lemma off_le pre z v : (forall x, In x pre -> x < n) -> off pre z v -> (v <= eps)%Q.
Proof.
  intros Hp [y [c [d [Hy [Hc [Hin ->]]]]]]. apply search_in in Hin as [Hz [Hn ->]]; auto.
  pose proof (corev_le y c (Hp y Hy) Hc). pose proof (Heps y z Hn).
  destruct (py_max_spec (dist y z) c) as [_ [_ [->| ->]]]; auto.
Qed.

Lemma linked_l a b : linked n nb minpts a b -> core n nb minpts a.
Proof. intros H. induction H; auto. Qed.
Lemma linked_r a b : linked n nb minpts a b -> core n nb minpts b.
Proof. intros H. destruct H; auto. Qed.

Section Extract.
Variable os : list obj.
Variable order : list nat.
Hypothesis Hperm : Permutation order (seq 0 n).
Hypothesis HH : Hist search minpts n os order.

Lemma order_lt x : In x order -> x < n.
Proof. intros H. apply (Permutation_in _ Hperm) in H. apply in_seq in H. lia. Qed.

Lemma order_nd : NoDup order.
Proof. eapply Permutation_NoDup; [apply Permutation_sym, Hperm|apply seq_NoDup]. Qed.

Definition sep (c c' : list nat) : Prop := forall y z, In y c -> core n nb minpts y -> In z c' -> nb y z = false.

Record J (pre rest : list nat) (cl : list (list nat)) (no : list nat) : Prop := {
  j_perm : Permutation (concat cl ++ no) pre;
  j_cl : Forall (fun c => exists p t, c = p :: t /\ core n nb minpts p /\
            (forall x, In x t -> p < x) /\
            (forall x, In x c -> core n nb minpts x -> linked n nb minpts p x) /\
            (forall x, In x c -> ~ core n nb minpts x -> exists y, In y c /\ core n nb minpts y /\ nb y x = true)) cl;
  j_no : forall x, In x no -> ~ core n nb minpts x;
  j_sep : forall l1 c l2 c' l3, cl = l1 ++ c :: l2 ++ c' :: l3 -> sep c c';
  j_rest : forall c, In c (removelast cl) -> sep c rest;
  j_hd : forall c z, In c cl -> In z rest -> hd 0 c < z;
  j_sorted : StronglySorted lt (map (hd 0) cl);
  j_noise : forall p1 x p2, pre = p1 ++ x :: p2 ->
     (In x no <-> ~ core n nb minpts x /\ forall y, In y p1 -> core n nb minpts y -> nb y x = false) }.

Lemma sorted_snoc_lt l x : StronglySorted lt l -> (forall y, In y l -> y < x) -> StronglySorted lt (l ++ [x]).
Proof. apply sorted_snoc. Qed.

Lemma core_dec x : core n nb minpts x \/ ~ core n nb minpts x.
Proof.
  unfold core. destruct (Nat.lt_ge_cases x n); [|right; lia].
  destruct (Nat.le_gt_cases minpts (length (filter (nb x) (seq 0 n)))); [left|right]; auto. lia.
Qed.

Lemma step_J pre x rest cl no : order = pre ++ x :: rest -> J pre (x :: rest) cl no ->
  let '(cl', no') := extract_step eps os (cl, no) x in J (pre ++ [x]) rest cl' no'.
Proof.
  intros E HJ. destruct (HH _ _ _ E) as [Hcore [Hleast Hch]].
  assert (Hx : x < n) by (apply order_lt; rewrite E; apply in_app_iff; simpl; auto).
  assert (Hpre : forall y, In y pre -> y < n) by (intros y Hy; apply order_lt; rewrite E; apply in_app_iff; auto).
  assert (Hrest : forall y, In y rest -> y < n) by (intros y Hy; apply order_lt; rewrite E; apply in_app_iff; simpl; auto).
  pose proof order_nd as Hnd. rewrite E in Hnd.
  assert (Hxp : ~ In x pre).
  { intro Hc. apply NoDup_app_inv in Hnd as [_ [_ Hnd]]. apply (Hnd x); simpl; auto. }
  assert (Hxr : ~ In x rest).
  { apply NoDup_app_inv in Hnd as [_ [Hnd _]]. inversion Hnd; auto. }
  assert (Hrp : forall z, In z rest -> ~ In z pre).
  { intros z Hz Hc. apply NoDup_app_inv in Hnd as [_ [_ Hnd]]. apply (Hnd z); simpl; auto. }
  assert (Hoff : forall y z, In y pre -> core n nb minpts y -> z < n -> nb y z = true -> exists v, off pre z v).
  { intros y z Hy Hyc Hz Hn. apply corev_core in Hyc; [|auto]. destruct (corev y) as [c|] eqn:Ec; [|congruence].
    exists (py_max (dist y z) c), y, c, (dist y z). split; auto. split; auto. split; auto. apply search_in; auto. }
  assert (Hnoise_old : forall no', (forall z, z <> x -> (In z no' <-> In z no)) ->
     (In x no' <-> ~ core n nb minpts x /\ forall y, In y pre -> core n nb minpts y -> nb y x = false) ->
     forall p1 z p2, pre ++ [x] = p1 ++ z :: p2 ->
     (In z no' <-> ~ core n nb minpts z /\ forall y, In y p1 -> core n nb minpts y -> nb y z = false)).
  { intros no' H1 H2 p1 z p2 E2. destruct (snoc_inv _ _ _ _ _ E2) as [[_ [<- <-]]|[p2' [_ E3]]]; [exact H2|].
    rewrite H1; [apply (j_noise _ _ _ _ HJ p1 z p2' E3)|]. intros ->. apply Hxp. rewrite E3. apply in_app_iff; simpl; auto. }
  unfold extract_step. unfold chosen in Hch.
  destruct (o_reach (get os x)) as [v|] eqn:Er.
  - (* appended to the current cluster *)
    destruct Hleast as [Hv Hleast]. unfold above.
    replace (Qltb eps v) with false by (symmetry; apply Qltb_false; exact (off_le pre x v Hpre Hv)).
    destruct Hv as [y [cy [d [Hy [Hyc [Hyx _]]]]]]. apply search_in in Hyx as [_ [Hyx _]]; [|auto].
    assert (Hyco : core n nb minpts y) by (apply corev_core; [auto|congruence]).
    assert (Hycl : In y (concat cl)).
    { apply (Permutation_in _ (Permutation_sym (j_perm _ _ _ _ HJ))) in Hy. apply in_app_iff in Hy as [Hy|Hy]; auto.
      destruct (j_no _ _ _ _ HJ y Hy Hyco). }
    destruct cl as [|c0 cl0]; [destruct Hycl|].
    destruct (exists_last (l := c0 :: cl0)) as [cl1 [c Ecl]]; [discriminate|].
    rewrite Ecl in HJ, Hycl. unfold append_last. rewrite Ecl.
    rewrite removelast_last, last_last.
    assert (Hyc1 : In y c).
    { rewrite concat_app, in_app_iff in Hycl. destruct Hycl as [Hycl|Hycl]; [|simpl in Hycl; rewrite app_nil_r in Hycl; auto].
      exfalso. apply in_concat in Hycl as [c' [Hc' Hyc']].
      assert (H : In c' (removelast (cl1 ++ [c]))) by (rewrite removelast_last; auto).
      pose proof (j_rest _ _ _ _ HJ c' H y x Hyc' Hyco) as Hs. rewrite Hs in Hyx; [discriminate|simpl; auto]. }
    pose proof (j_cl _ _ _ _ HJ) as Hcl. apply Forall_app in Hcl as [Hcl1 Hclc].
    apply Forall_inv in Hclc as [p [t [Ec [Hp [Hpt [Hlk Hbord]]]]]].
    assert (Hpx : p < x).
    { pose proof (j_hd _ _ _ _ HJ c x) as Hh. rewrite Ec in Hh. simpl in Hh. apply Hh; auto. apply in_app_iff; simpl; auto. }
    constructor.
    + rewrite concat_app. simpl. rewrite app_nil_r.
      pose proof (j_perm _ _ _ _ HJ) as P. rewrite concat_app in P. simpl in P. rewrite app_nil_r in P.
      rewrite <- P. rewrite <- !app_assoc. apply Permutation_app_head, Permutation_app_head. simpl. apply Permutation_cons_append.
    + apply Forall_app. split; auto. constructor; auto. exists p, (t ++ [x]). rewrite Ec. split; [reflexivity|]. split; auto.
      split; [|split].
      * intros z Hz. apply in_app_iff in Hz as [Hz|[<-|[]]]; auto.
      * intros z Hz Hzc. apply (in_app_iff (p :: t) [x] z) in Hz as [Hz|[<-|[]]]; [apply Hlk; [rewrite Ec; auto|auto]|].
        apply linked_step with y; auto.
      * intros z Hz Hzc. apply (in_app_iff (p :: t) [x] z) in Hz as [Hz|[<-|[]]].
        -- destruct (Hbord z) as [w [Hw Hw']]; [rewrite Ec; auto|auto|]. rewrite Ec in Hw. exists w. split; auto.
           apply (in_app_iff (p :: t)); auto.
        -- exists y. split; auto. rewrite Ec in Hyc1. apply (in_app_iff (p :: t)); auto.
    + apply (j_no _ _ _ _ HJ).
    + intros l1 a l2 b l3 E2.
      destruct (snoc_inv (cl1) (l1 ++ a :: l2) l3 (c ++ [x]) b) as [[-> [E3 E4]]|[l3' [-> E3]]].
      { rewrite E2. rewrite <- app_assoc. reflexivity. }
      * subst b. intros u w Hu Huc Hw. apply in_app_iff in Hw as [Hw|[<-|[]]].
        -- apply (j_sep _ _ _ _ HJ l1 a l2 c []) with (y := u) (z := w); auto. rewrite E3, <- app_assoc. reflexivity.
        -- apply (j_rest _ _ _ _ HJ a) with (y := u) (z := x); auto; [|simpl; auto].
           rewrite removelast_last, E3. apply in_app_iff; simpl; auto.
      * apply (j_sep _ _ _ _ HJ l1 a l2 b (l3' ++ [c])). rewrite E3, <- !app_assoc. simpl. rewrite <- ?app_assoc. reflexivity.
    + rewrite removelast_last. intros a Ha u w Hu Huc Hw.
      apply (j_rest _ _ _ _ HJ a) with (y := u) (z := w); auto; [rewrite removelast_last; auto|simpl; auto].
    + intros a z Ha Hz. apply in_app_iff in Ha as [Ha|[<-|[]]].
      * apply (j_hd _ _ _ _ HJ a z); [apply in_app_iff; auto|simpl; auto].
      * pose proof (j_hd _ _ _ _ HJ c z) as Hh. rewrite Ec in *. simpl in *. apply Hh; auto. apply in_app_iff; simpl; auto.
    + pose proof (j_sorted _ _ _ _ HJ) as Hs. rewrite map_app in *. rewrite Ec in *. exact Hs.
    + apply Hnoise_old; [tauto|]. split.
      * intros Hc. exfalso. apply Hxp. apply (Permutation_in _ (j_perm _ _ _ _ HJ)). apply in_app_iff; auto.
      * intros [_ Hc]. rewrite (Hc y) in Hyx; auto. discriminate.
  - assert (Hn : forall z, In z (x :: rest) -> forall y, In y pre -> core n nb minpts y -> nb y z = false).
    { intros z Hz y Hy Hyc. destruct (nb y z) eqn:En; auto. exfalso.
      assert (Hzn : z < n) by (destruct Hz as [<-|Hz]; auto).
      assert (Hzp : ~ In z pre) by (destruct Hz as [<-|Hz]; auto).
      destruct (Hoff y z Hy Hyc Hzn En) as [v Hv]. destruct (Hch z Hzn Hzp) as [Hc _]. apply (Hc v Hv). }
    assert (Hlow : forall z, In z rest -> x < z).
    { intros z Hz. destruct (Hch z (Hrest z Hz) (Hrp z Hz)) as [_ Hc]. destruct (Nat.eq_dec x z) as [->|]; [contradiction|lia]. }
    cbn [above]. rewrite Hcore. destruct (corev x) as [c|] eqn:Ec.
    + (* a new cluster *)
      unfold core_within. replace (Qle_bool c eps) with true by (symmetry; apply Qle_bool_iff; eapply corev_le; eauto).
      assert (Hxc : core n nb minpts x) by (apply corev_core; [auto|congruence]).
      assert (Hclpre : forall a u, In a cl -> In u a -> In u pre).
      { intros a u Ha Hu. apply (Permutation_in _ (j_perm _ _ _ _ HJ)). apply in_app_iff. left. apply in_concat. eauto. }
      constructor.
      * rewrite concat_app. simpl. rewrite <- app_assoc. simpl. rewrite <- (j_perm _ _ _ _ HJ).
        rewrite <- app_assoc. apply Permutation_app_head, Permutation_cons_append.
      * apply Forall_app. split; [apply (j_cl _ _ _ _ HJ)|]. constructor; auto. exists x, []. split; auto. split; auto.
        split; [intros ? []|]. split.
        -- intros z [<-|[]] _. constructor; auto.
        -- intros z [<-|[]] Hc. contradiction.
      * apply (j_no _ _ _ _ HJ).
      * intros l1 a l2 b l3 E2.
        destruct (snoc_inv cl (l1 ++ a :: l2) l3 [x] b) as [[-> [E3 E4]]|[l3' [-> E3]]].
        { rewrite E2. rewrite <- app_assoc. reflexivity. }
        -- subst b. intros u w Hu Huc [<-|[]]. apply Hn; simpl; auto. apply (Hclpre a); auto.
           rewrite E3. apply in_app_iff; simpl; auto.
        -- apply (j_sep _ _ _ _ HJ l1 a l2 b l3'). rewrite E3, <- !app_assoc. reflexivity.
      * rewrite removelast_last. intros a Ha u w Hu Huc Hw. apply Hn; simpl; auto. apply (Hclpre a); auto.
      * intros a z Ha Hz. apply in_app_iff in Ha as [Ha|[<-|[]]]; [apply (j_hd _ _ _ _ HJ); simpl; auto|simpl; auto].
      * rewrite map_app. simpl. apply sorted_snoc_lt; [apply (j_sorted _ _ _ _ HJ)|].
        intros u Hu. apply in_map_iff in Hu as [a [<- Ha]]. apply (j_hd _ _ _ _ HJ); simpl; auto.
      * apply Hnoise_old; [tauto|]. split.
        -- intros Hc. exfalso. apply Hxp. apply (Permutation_in _ (j_perm _ _ _ _ HJ)). apply in_app_iff; auto.
        -- intros [Hc _]. contradiction.
    + assert (Hxc : ~ core n nb minpts x) by (intro Hc; apply corev_core in Hc; auto).
      cbn [core_within]. constructor.
      * rewrite app_assoc. apply Permutation_app_tail. apply (j_perm _ _ _ _ HJ).
      * apply (j_cl _ _ _ _ HJ).
      * intros z Hz. apply in_app_iff in Hz as [Hz|[<-|[]]]; auto. apply (j_no _ _ _ _ HJ); auto.
      * apply (j_sep _ _ _ _ HJ).
      * intros a Ha u w Hu Huc Hw. apply (j_rest _ _ _ _ HJ a Ha); simpl; auto.
      * intros a z Ha Hz. apply (j_hd _ _ _ _ HJ); simpl; auto.
      * apply (j_sorted _ _ _ _ HJ).
      * apply Hnoise_old.
        -- intros z Hz. rewrite in_app_iff. simpl. split; auto. intros [H|[H|[]]]; auto. symmetry in H. contradiction.
        -- rewrite in_app_iff. simpl. split; auto. intros _. split; auto. intros y Hy Hyc. apply Hn; simpl; auto.
Qed.

Lemma fold_J : forall rest pre cl no, order = pre ++ rest -> J pre rest cl no ->
  let '(cl', no') := fold_left (extract_step eps os) rest (cl, no) in J order [] cl' no'.
Proof.
  induction rest as [|x rest IH]; intros pre cl no E HJ.
  - simpl. rewrite app_nil_r in E. rewrite E at 1. exact HJ.
  - cbn [fold_left]. pose proof (step_J pre x rest cl no E HJ) as HS.
    destruct (extract_step eps os (cl, no) x) as [cl' no']. apply (IH (pre ++ [x])); auto.
    rewrite E, <- app_assoc. reflexivity.
Qed.

Lemma extract_spec : (forall i j, i < n -> j < n -> nb i j = nb j i) ->
  let '(cl, no) := extract_clusters eps os order in optics_clusters n nb minpts cl no order.
Proof.
  intros Hsym. unfold extract_clusters. pose proof (fold_J order [] [] [] eq_refl) as HJ.
  destruct (fold_left (extract_step eps os) order ([], [])) as [cl no].
  assert (H0 : J [] order [] []).
  { constructor; simpl.
    - constructor.
    - constructor.
    - intros ? [].
    - intros [|] ? ? ? ? Hc; discriminate.
    - intros ? [].
    - intros ? ? [].
    - constructor.
    - intros [|] ? ? Hc; discriminate. }
  specialize (HJ H0). clear H0.
  assert (Hp : Permutation (concat cl ++ no) (seq 0 n)) by (rewrite (j_perm _ _ _ _ HJ); auto).
  assert (Hin : forall x, core n nb minpts x -> exists c, In c cl /\ In x c).
  { intros x Hx. assert (Hxi : In x (concat cl ++ no)).
    { apply (Permutation_in _ (Permutation_sym Hp)). apply in_seq. destruct Hx. lia. }
    apply in_app_iff in Hxi as [Hxi|Hxi]; [apply in_concat; auto|]. destruct (j_no _ _ _ _ HJ x Hxi Hx). }
  assert (Hsame : forall c c' y z, In c cl -> In c' cl -> In y c -> In z c' ->
            core n nb minpts y -> core n nb minpts z -> nb y z = true -> In z c).
  { intros c c' y z Hc Hc' Hy Hz Hyc Hzc Hyz.
    apply in_split in Hc as [l1 [l2 E]]. rewrite E in Hc'. apply in_app_iff in Hc' as [Hc'|[<-|Hc']]; auto; exfalso.
    - apply in_split in Hc' as [m1 [m2 E']]. rewrite E', <- app_assoc in E. simpl in E.
      pose proof (j_sep _ _ _ _ HJ _ _ _ _ _ E z y Hz Hzc Hy) as Hs.
      rewrite Hsym in Hs; [congruence| |]; [destruct Hzc; auto|destruct Hyc; auto].
    - apply in_split in Hc' as [m1 [m2 E']]. rewrite E' in E.
      pose proof (j_sep _ _ _ _ HJ _ _ _ _ _ E y z Hy Hyc Hz) as Hs. congruence. }
  split; auto. split; [|split].
  - apply Forall_forall. intros c Hc. pose proof (j_cl _ _ _ _ HJ) as Hcl. rewrite Forall_forall in Hcl.
    destruct (Hcl c Hc) as [p [t [E [Hpc [Hlow [Hlk Hb]]]]]]. exists p, t. split; auto. split; auto. split; auto.
    split; auto. intros x Hx. split; [intros Hxin; apply Hlk; auto|].
    intros HL. assert (HL' : forall a b, linked n nb minpts a b -> a = p -> In b c).
    { intros a b H. induction H as [a Ha|a b d Hab IHab Hd Hbd]; intros ->; [rewrite E; simpl; auto|].
      destruct (Hin d Hd) as [c' [Hc' Hdc']]. eapply (Hsame c c' b d); eauto. eapply linked_r; eauto. }
    eapply HL'; eauto.
  - apply (j_sorted _ _ _ _ HJ).
  - apply (j_noise _ _ _ _ HJ).
Qed.
End Extract.

Definition core_of (o : outcome) (x : nat) : option Q := o_core (get (r_objects o) x).
Definition rch_of (o : outcome) (x : nat) : option Q := o_reach (get (r_objects o) x).

Lemma hist_order os order : Permutation order (seq 0 n) -> Hist search minpts n os order ->
  optics_order n nb dist minpts (fun x => o_core (get os x)) (fun x => o_reach (get os x)) order.
Proof.
  intros Hp HH. split; auto. intros pre x post E. destruct (HH pre x post E) as [Hc [Hl Hch]].
  assert (Hcore : forall y, In y order -> y < n /\ o_core (get os y) = corev y).
  { intros y Hy. split; [eapply order_lt; eauto|]. apply in_split in Hy as [a [b E']]. apply (HH a y b E'). }
  assert (Hpre : forall y, In y pre -> y < n /\ o_core (get os y) = corev y).
  { intros y Hy. apply Hcore. rewrite E. apply in_app_iff; auto. }
  assert (Hx : x < n) by (apply Hcore; rewrite E; apply in_app_iff; simpl; auto).
  assert (Hnd : NoDup order) by (eapply order_nd; eauto).
  assert (Hpost : forall z, In z post -> z < n /\ ~ In z pre /\ z <> x).
  { intros z Hz. split; [apply Hcore; rewrite E; apply in_app_iff; simpl; auto|].
    rewrite E in Hnd. apply NoDup_app_inv in Hnd as [_ [N1 N2]]. split.
    - intro Hc'. apply (N2 z Hc'). simpl; auto.
    - intros ->. inversion N1; auto. }
  split; [rewrite Hc; apply corev_is; auto|]. split.
  - destruct (o_reach (get os x)) as [v|]; simpl in *.
    + destruct Hl as [H1 H2]. split; [eapply off_offer; eauto|].
      intros w Hw. destruct (offer_off _ pre x w Hpre Hx Hw) as [v' [Hv' Ev']]. specialize (H2 v' Hv'). lra.
    + intros w Hw. destruct (offer_off _ pre x w Hpre Hx Hw) as [v' [Hv' Ev']]. apply (Hl v' Hv').
  - unfold chosen in Hch. destruct (o_reach (get os x)) as [v|].
    + intros z w Hz Hw. destruct (Hpost z Hz) as [P1 [P2 P3]].
      destruct (offer_off _ pre z w Hpre P1 Hw) as [v' [Hv' Ev']]. specialize (Hch z v' P1 P2 Hv'). lra.
    + intros z Hz. destruct (Hpost z Hz) as [P1 [P2 P3]]. destruct (Hch z P1 P2) as [H1 H2]. split; [|lia].
      intros w Hw. destruct (offer_off _ pre z w Hpre P1 Hw) as [v' [Hv' Ev']]. apply (H1 v' Hv').
Qed.

Lemma extract_perm os order : 
  let '(cl, no) := extract_clusters eps os order in Permutation (concat cl ++ no) order /\ no_empty cl.
Proof.
  unfold extract_clusters.
  assert (H : forall l cl no, no_empty cl -> let '(cl', no') := fold_left (extract_step eps os) l (cl, no) in
     Permutation (concat cl' ++ no') (concat cl ++ no ++ l) /\ no_empty cl').
  { induction l as [|x t IH]; intros cl no Hne; cbn [fold_left].
    - rewrite app_nil_r. auto.
    - assert (Hone : let '(cl', no') := extract_step eps os (cl, no) x in
        Permutation (concat cl' ++ no') (concat cl ++ no ++ [x]) /\ no_empty cl').
      { unfold extract_step. destruct (above eps (o_reach (get os x))).
        - destruct (core_within eps (o_core (get os x))).
          + split; [|apply Forall_app; split; auto; constructor; auto; discriminate].
            rewrite concat_app. simpl. rewrite <- app_assoc. apply Permutation_app_head. simpl. apply Permutation_cons_append.
          + split; auto.
        - destruct cl as [|c0 cl0]; [split; auto|].
          destruct (exists_last (l := c0 :: cl0)) as [cl1 [c Ecl]]; [discriminate|].
          unfold append_last. rewrite Ecl in *. rewrite removelast_last, last_last. split.
          + rewrite !concat_app. simpl. rewrite !app_nil_r, <- !app_assoc. do 2 apply Permutation_app_head.
            simpl. apply Permutation_cons_append.
          + apply Forall_app in Hne as [H1 H2]. apply Forall_app. split; auto. constructor; auto.
            intro Hc. apply app_eq_nil in Hc as [_ Hc]. discriminate. }
      destruct (extract_step eps os (cl, no) x) as [cl' no']. destruct Hone as [P1 N1].
      specialize (IH cl' no' N1). destruct (fold_left (extract_step eps os) t (cl', no')) as [cl2 no2].
      destruct IH as [P2 N2]. split; auto. rewrite P2.
      replace (concat cl ++ no ++ x :: t) with ((concat cl ++ no ++ [x]) ++ t).
      + rewrite <- P1. rewrite <- app_assoc. apply Permutation_refl.
      + rewrite <- !app_assoc. reflexivity. }
  specialize (H order [] [] (Forall_nil _)). destruct (fold_left (extract_step eps os) order ([], [])). exact H.
Qed.

Lemma allocate_spec : exists o, allocate_clusters search minpts eps n = Ok o /\
  length (r_objects o) = n /\
  optics_order n nb dist minpts (core_of o) (rch_of o) (r_order o) /\
  Permutation (concat (r_clusters o) ++ r_noise o) (seq 0 n) /\ no_empty (r_clusters o) /\
  ((forall i j, i < n -> j < n -> nb i j = nb j i) -> optics_clusters n nb minpts (r_clusters o) (r_noise o) (r_order o)).
Proof.
  destruct (traverse_start search minpts n Hmin Hlt') as [os [db [E [Hl [Hp HH]]]]].
  unfold allocate_clusters. rewrite E. cbn [bind fst snd].
  pose proof (extract_perm os db) as HP.
  pose proof (fun Hs => extract_spec os db Hp HH Hs) as HS.
  destruct (extract_clusters eps os db) as [cl no]. eexists. split; [reflexivity|]. simpl.
  split; auto. split; [apply hist_order; auto|]. destruct HP as [P N]. split; [rewrite P; auto|]. split; auto.
Qed.
End Result.
