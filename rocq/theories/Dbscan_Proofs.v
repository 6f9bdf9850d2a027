(** Specification and proofs for DBSCAN (C09, C10). *)
From Verif Require Import Base Search_Model Kd_Model Kd_Proofs Dbscan_Model.

(** ** Specification, over a neighbourhood relation [nb] on [0..n-1] *)
Section Spec.
Variable n : nat.
Variable nb : nat -> nat -> bool.   (* nb x y: y is a neighbour of x, y <> x *)
Variable minpts : nat.

Definition core (x : nat) : Prop := x < n /\ minpts <= length (filter (nb x) (seq 0 n)).

(** density connection: a chain of core points *)
Inductive linked : nat -> nat -> Prop :=
| linked_refl x : core x -> linked x x
| linked_step x y z : linked x y -> core z -> nb y z = true -> linked x z.

(** the cluster grown from the core point [p] *)
Definition is_component (p : nat) (c : list nat) : Prop :=
  core p /\
  (forall x, core x -> (In x c <-> linked p x)) /\
  (forall x, In x c -> core x -> p <= x) /\
  (forall x, In x c -> ~ core x -> exists y, In y c /\ core y /\ nb y x = true).

Definition dbscan_result (clusters : list (list nat)) (noise : list nat) : Prop :=
  (* every point exactly once *)
  Permutation (concat clusters ++ noise) (seq 0 n) /\
  (* clusters are the density components, listed by their first core point *)
  Forall (fun c => exists p t, c = p :: t /\ is_component p c) clusters /\
  StronglySorted lt (map (hd 0) clusters) /\
  (* a border point goes to the earliest cluster with a core neighbour *)
  (forall pre c post x, clusters = pre ++ c :: post -> In x c -> ~ core x ->
     forall c' y, In c' pre -> In y c' -> core y -> nb y x = false) /\
  (* noise: non-core points without core neighbours, ascending *)
  (forall x, In x noise <-> x < n /\ ~ core x /\ (forall y, core y -> nb y x = false)) /\
  StronglySorted lt noise.
End Spec.

(** ** Generic part *)
Section Generic.
Variable search : nat -> list nat.
Variable minpts n : nat.
Hypothesis Hnd : forall i, i < n -> NoDup (search i).
Hypothesis Hlt : forall i j, i < n -> In j (search i) -> j < n.
Hypothesis Hirr : forall i, i < n -> ~ In i (search i).

Definition nbr (x y : nat) : bool := mem y (search x).
Definition corep (x : nat) : Prop := x < n /\ minpts <= length (search x).

Lemma mem_true x l : mem x l = true <-> In x l.
Proof.
  unfold mem. rewrite existsb_exists. split.
  - intros [y [Hy E]]. apply Nat.eqb_eq in E. subst; auto.
  - intros H. exists x. split; auto. apply Nat.eqb_refl.
Qed.

Lemma mem_false x l : mem x l = false <-> ~ In x l.
Proof. rewrite <- mem_true. destruct (mem x l); split; congruence. Qed.

Lemma nbr_count x : x < n -> length (filter (nbr x) (seq 0 n)) = length (search x).
Proof.
  intros Hx. apply Permutation_length, NoDup_Permutation; [apply NoDup_filter, seq_NoDup|apply Hnd; auto|].
  intros y. rewrite filter_In, in_seq. unfold nbr. rewrite mem_true. split; [tauto|].
  intros H. specialize (Hlt _ _ Hx H). split; [lia|auto].
Qed.

Lemma core_corep x : core n nbr minpts x <-> corep x.
Proof. unfold core, corep. split; intros [H1 H2]; split; auto; rewrite nbr_count in * by auto; auto. Qed.

Definition vis (f : flags) (i : nat) : bool := nth i (visited f) false.
Definition bel (f : flags) (i : nat) : bool := nth i (belong f) false.
Definition wf (f : flags) : Prop := length (visited f) = n /\ length (belong f) = n.

Lemma upd_true_nth (l : list bool) i j : i < length l -> nth j (upd l i true) false = (i =? j) || nth j l false.
Proof.
  intros H. rewrite upd_nth. rewrite (proj2 (Nat.ltb_lt _ _) H), andb_true_r. destruct (i =? j); reflexivity.
Qed.

(** state of the expansion of [p] started with flags [f0]: [don] iterated, [todo] not yet *)
Record linv (p : nat) (f0 : flags) (don todo : list nat) (f : flags) (cluster : list nat) : Prop := mkL {
  l_wf : wf f;
  l_nd : NoDup (p :: don ++ todo);
  l_lt : forall x, In x (don ++ todo) -> x < n;
  l_vis : forall x, vis f x = true <-> vis f0 x = true \/ x = p \/ In x don;
  l_bel : forall x, bel f x = true <-> bel f0 x = true \/ x = p \/ In x don;
  l_clu : cluster = p :: filter (fun x => negb (bel f0 x)) don;
  l_par : forall x, In x (don ++ todo) -> exists q, (q = p \/ In q don) /\ (vis f0 q = false) /\
            linked n nbr minpts p q /\ nbr q x = true;
  l_clo : forall x y, (x = p \/ In x don) -> vis f0 x = false -> corep x -> nbr x y = true ->
            y = p \/ In y (don ++ todo)
}.

Lemma expand_loop_spec p f0 (Hp : p < n) (Hp0 : vis f0 p = false) (Hbv : forall x, bel f0 x = true -> vis f0 x = true) fuel :
  forall don todo f cluster, linv p f0 don todo f cluster -> n <= length don + fuel ->
  exists f' don' cluster', expand_loop search minpts fuel p todo (don ++ todo) f cluster = Ok (f', cluster') /\
    linv p f0 don' [] f' cluster'.
Proof.
  induction fuel as [|fuel IH]; intros don todo f cluster HI Hf.
  - destruct todo as [|i t].
    + exists f, don, cluster. split; auto.
    + exfalso. destruct HI as [_ Hn Hl _ _ _ _ _].
      assert (Hi : length (p :: don ++ i :: t) <= n).
      { rewrite <- (seq_length n 0). apply NoDup_incl_length; auto.
        intros x [<-|Hx]; apply in_seq; [lia|specialize (Hl x Hx); lia]. }
      simpl in Hi. rewrite app_length in Hi. simpl in Hi. lia.
  - destruct todo as [|i t].
    + exists f, don, cluster. split; auto.
    + destruct HI as [[Hwv Hwb] Hn Hl Hv Hb Hc Hpar Hclo].
      assert (Hi : i < n) by (apply Hl; apply in_app_iff; simpl; auto).
      assert (Hip : i <> p).
      { inversion Hn as [|a b Ha Hb']; subst. intros ->. apply Ha. apply in_app_iff; simpl; auto. }
      assert (Hid : ~ In i don).
      { inversion Hn as [|a b Ha Hb']; subst. apply NoDup_remove_2 in Hb'. rewrite in_app_iff in Hb'. tauto. }
      cbn [expand_loop]. replace (length (visited f) <=? i) with false by (symmetry; apply Nat.leb_gt; lia).
      fold (vis f i). fold (bel f i).
      set (added := if minpts <=? length (search i)
                    then filter (fun k => negb (mem k (don ++ i :: t)) && negb (k =? p)) (search i) else []).
      (* belonging flag and cluster after the iteration *)
      assert (Hbel : exists bl cl, (if bel f i then (belong f, cluster) else (upd (belong f) i true, cluster ++ [i])) = (bl, cl) /\
         length bl = n /\ (forall x, nth x bl false = true <-> bel f0 x = true \/ x = p \/ In x (don ++ [i])) /\
         cl = p :: filter (fun x => negb (bel f0 x)) (don ++ [i])).
      { destruct (bel f i) eqn:Eb.
        - exists (belong f), cluster. split; auto. split; auto.
          assert (E0 : bel f0 i = true) by (apply Hb in Eb; destruct Eb as [|[|]]; tauto).
          split.
          + intros x. fold (bel f x). rewrite Hb, in_app_iff. simpl. split; [tauto|].
            intros [H|[H|[H|[<-|[]]]]]; tauto.
          + rewrite filter_app. cbn [filter]. rewrite E0. cbn [negb]. rewrite app_nil_r. exact Hc.
        - exists (upd (belong f) i true), (cluster ++ [i]). split; auto. split; [rewrite upd_length; auto|].
          assert (E0 : bel f0 i = false).
          { destruct (bel f0 i) eqn:E; auto. rewrite <- Eb. symmetry. apply Hb. auto. }
          split.
          + intros x. rewrite upd_true_nth by lia. rewrite orb_true_iff, Nat.eqb_eq, in_app_iff. fold (bel f x).
            rewrite Hb. simpl. split; [intros [->|H]; tauto|intros [H|[H|[H|[<-|[]]]]]; tauto].
          + rewrite filter_app. cbn [filter]. rewrite E0. cbn [negb]. rewrite Hc. reflexivity. }
      destruct Hbel as [bl [cl [Ebl [Lbl [Nbl Ecl]]]]].
      destruct (vis f i) eqn:Ev.
      * (* already visited *)
        rewrite Ebl. replace (don ++ i :: t) with ((don ++ [i]) ++ t) by (rewrite <- app_assoc; reflexivity).
        apply IH; [|rewrite app_length; simpl; lia].
        assert (E0 : vis f0 i = true) by (apply Hv in Ev; destruct Ev as [|[|]]; tauto).
        constructor; auto.
        -- split; auto.
        -- rewrite <- app_assoc. exact Hn.
        -- rewrite <- app_assoc. exact Hl.
        -- intros x. cbn [visited]. unfold vis at 1. cbn [visited]. fold (vis f x). rewrite Hv, in_app_iff. simpl.
           split; [tauto|]. intros [H|[H|[H|[<-|[]]]]]; tauto.
        -- intros x Hx. rewrite <- app_assoc in Hx. destruct (Hpar x Hx) as [q [Hq H]]. exists q.
           split; auto. rewrite in_app_iff. tauto.
        -- intros x y Hx Hx0 Hxc Hxy. rewrite <- app_assoc. rewrite in_app_iff in Hx. simpl in Hx.
           destruct Hx as [->|[Hx|[->|[]]]]; [eauto|eauto|congruence].
      * (* newly visited *)
        rewrite Ebl.
        assert (E0 : vis f0 i = false).
        { destruct (vis f0 i) eqn:E; auto. rewrite <- Ev. symmetry. apply Hv. auto. }
        assert (Hadd : forall k, In k added -> corep i /\ nbr i k = true /\ ~ In k (don ++ i :: t) /\ k <> p).
        { intros k Hk. unfold added in Hk. destruct (minpts <=? length (search i)) eqn:Em; [|destruct Hk].
          apply Nat.leb_le in Em. apply filter_In in Hk as [Hk1 Hk2]. apply andb_true_iff in Hk2 as [Hk2 Hk3].
          apply negb_true_iff in Hk2, Hk3. apply mem_false in Hk2. apply Nat.eqb_neq in Hk3.
          split; [split; auto|]. split; [unfold nbr; apply mem_true; auto|]. auto. }
        replace (don ++ i :: t) with ((don ++ [i]) ++ t) in * by (rewrite <- app_assoc; reflexivity).
        replace (((don ++ [i]) ++ t) ++ added) with ((don ++ [i]) ++ (t ++ added)) by (rewrite <- !app_assoc; reflexivity).
        apply IH; [|rewrite app_length; simpl; lia].
        constructor; auto.
        -- split; auto. cbn [visited]. rewrite upd_length; auto.
        -- rewrite app_assoc. change (NoDup ((p :: (don ++ [i]) ++ t) ++ added)). apply NoDup_app_intro; auto.
           ++ unfold added. destruct (minpts <=? length (search i)); [apply NoDup_filter, Hnd; auto|constructor].
           ++ intros x [<-|Hx] Hc'; destruct (Hadd _ Hc') as [_ [_ [H1 H2]]]; auto.
        -- intros x Hx. rewrite app_assoc in Hx. apply in_app_iff in Hx as [Hx|Hx]; auto.
           destruct (Hadd _ Hx) as [_ [H _]]. unfold nbr in H. apply mem_true in H. eauto.
        -- intros x. unfold vis at 1. cbn [visited]. rewrite upd_true_nth by lia.
           rewrite orb_true_iff, Nat.eqb_eq, in_app_iff. fold (vis f x). rewrite Hv. simpl.
           split; [intros [->|H]; tauto|intros [H|[H|[H|[<-|[]]]]]; tauto].
        -- intros x Hx. rewrite app_assoc in Hx. apply in_app_iff in Hx as [Hx|Hx].
           ++ destruct (Hpar x Hx) as [q [Hq H]]. exists q. split; auto. rewrite in_app_iff. tauto.
           ++ destruct (Hadd _ Hx) as [Hic [Hik _]]. exists i. split; [right; apply in_app_iff; simpl; auto|].
              split; auto. split; auto.
              destruct (Hpar i) as [q [Hq [Hq0 [Hlk Hqi]]]]; [rewrite <- app_assoc; apply in_app_iff; simpl; auto|].
              apply linked_step with (y := q); auto. apply core_corep; auto.
        -- intros x y Hx Hx0 Hxc Hxy. rewrite app_assoc, in_app_iff. rewrite in_app_iff in Hx. simpl in Hx.
           destruct Hx as [->|[Hx|[<-|[]]]].
           ++ destruct (Hclo p y) as [H|H]; auto.
           ++ destruct (Hclo x y) as [H|H]; auto.
           ++ destruct (Nat.eq_dec y p) as [->|Hyp]; auto. right.
              destruct (in_dec Nat.eq_dec y ((don ++ [i]) ++ t)) as [H|H]; auto. right.
              unfold added. destruct Hxc as [_ Hxc]. rewrite (proj2 (Nat.leb_le _ _) Hxc).
              apply filter_In. split; [apply mem_true; auto|]. apply andb_true_iff. split; apply negb_true_iff.
              ** apply mem_false. rewrite <- app_assoc in H. exact H.
              ** apply Nat.eqb_neq; auto.
Qed.

Lemma expand_cluster_spec p f0 : p < n -> wf f0 -> vis f0 p = false -> (forall x, bel f0 x = true -> vis f0 x = true) ->
  (~ corep p /\ exists f, expand_cluster search minpts n p f0 = Ok (f, None) /\ wf f /\
     (forall x, vis f x = true <-> vis f0 x = true \/ x = p) /\ (forall x, bel f x = bel f0 x)) \/
  (corep p /\ exists f don cluster, expand_cluster search minpts n p f0 = Ok (f, Some cluster) /\
     linv p f0 don [] f cluster).
Proof.
  intros Hp [Hwv Hwb] Hp0 Hbv. unfold expand_cluster. cbn [visited belong].
  destruct (minpts <=? length (search p)) eqn:Em.
  - right. apply Nat.leb_le in Em. assert (Hcp : corep p) by (split; auto). split; auto.
    destruct (expand_loop_spec p f0 Hp Hp0 Hbv n [] (search p)
      (mkFlags (upd (visited f0) p true) (upd (belong f0) p true)) [p]) as [f [don [cl [E H]]]].
    + constructor.
      * split; cbn [visited belong]; rewrite upd_length; auto.
      * simpl. constructor; auto.
      * simpl. intros x Hx. eauto.
      * intros x. unfold vis at 1. cbn [visited]. rewrite upd_true_nth by lia.
        rewrite orb_true_iff, Nat.eqb_eq. fold (vis f0 x). simpl. intuition.
      * intros x. unfold bel at 1. cbn [belong]. rewrite upd_true_nth by lia.
        rewrite orb_true_iff, Nat.eqb_eq. fold (bel f0 x). simpl. intuition.
      * reflexivity.
      * simpl. intros x Hx. exists p. split; auto. split; auto. split.
        -- constructor. apply core_corep; auto.
        -- unfold nbr. apply mem_true; auto.
      * simpl. intros x y [->|[]] _ _ H. right. unfold nbr in H. apply mem_true; auto.
    + simpl. lia.
    + simpl app in E. rewrite E. cbn [bind fst snd]. exists f, don, cl. auto.
  - left. apply Nat.leb_gt in Em. split; [intros [_ H]; lia|]. eexists; split; [reflexivity|].
    split; [split; cbn [visited belong]; auto; rewrite upd_length; auto|]. split; auto.
    intros x. unfold vis at 1. cbn [visited]. rewrite upd_true_nth by lia.
    rewrite orb_true_iff, Nat.eqb_eq. fold (vis f0 x). intuition.
Qed.

(** *** Partition: no symmetry needed *)
Record ginv (f : flags) (clusters : list (list nat)) : Prop := mkG {
  g_wf : wf f;
  g_bv : forall x, bel f x = true -> vis f x = true;
  g_bel : forall x, bel f x = true <-> In x (concat clusters);
  g_nd : NoDup (concat clusters)
}.

Lemma vis_lt f x : wf f -> vis f x = true -> x < n.
Proof.
  intros [H _] Hv. destruct (le_lt_dec n x); auto. unfold vis in Hv. rewrite nth_overflow in Hv by lia. discriminate.
Qed.

Lemma expand_partition p f0 don f cluster clusters : ginv f0 clusters -> vis f0 p = false ->
  linv p f0 don [] f cluster -> ginv f (clusters ++ [cluster]).
Proof.
  intros [Hw Hbv Hbel Hcn] Hp0 [Lw Ln Ll Lv Lb Lc Lp Lcl]. rewrite app_nil_r in *.
  assert (Hcon : concat (clusters ++ [cluster]) = concat clusters ++ cluster).
  { rewrite concat_app. simpl. rewrite app_nil_r. reflexivity. }
  assert (Hclu : forall x, In x cluster <-> x = p \/ (In x don /\ bel f0 x = false)).
  { intros x. rewrite Lc. simpl. rewrite filter_In, negb_true_iff. intuition. }
  assert (Hpb : bel f0 p = false).
  { destruct (bel f0 p) eqn:E; auto. apply Hbv in E. congruence. }
  constructor; auto.
  - intros x Hx. apply Lv. apply Lb in Hx. destruct Hx as [Hx|Hx]; auto.
  - intros x. rewrite Lb, Hcon, in_app_iff, Hclu, <- Hbel. destruct (bel f0 x); intuition.
  - rewrite Hcon. apply NoDup_app_intro; auto.
    + rewrite Lc. inversion Ln as [|a b Ha Hb]; subst. constructor; [|apply NoDup_filter; auto].
      rewrite filter_In. tauto.
    + intros x Hx Hc. apply Hbel in Hx. apply Hclu in Hc. destruct Hc as [->|[_ Hc]]; congruence.
Qed.

(** *** Full specification: symmetric neighbourhoods *)
Section Sym.
Hypothesis Hsym : forall i j, i < n -> j < n -> In j (search i) -> In i (search j).

Lemma nbr_sym x y : x < n -> nbr x y = true -> nbr y x = true.
Proof. unfold nbr. rewrite !mem_true. intros Hx H. apply Hsym; eauto. Qed.

Lemma linked_core x y : linked n nbr minpts x y -> core n nbr minpts x /\ core n nbr minpts y.
Proof. induction 1; tauto. Qed.

Lemma linked_trans x y z : linked n nbr minpts x y -> linked n nbr minpts y z -> linked n nbr minpts x z.
Proof. intros H1 H2. revert x H1. induction H2 as [y H|y w z H IH Hz Hn]; intros x H1; auto. apply linked_step with w; auto. Qed.

Lemma linked_sym x y : linked n nbr minpts x y -> linked n nbr minpts y x.
Proof.
  induction 1 as [x H|x y z Hxy IH Hz Hyz]; [constructor; auto|].
  apply linked_trans with y; auto. destruct (linked_core _ _ Hxy) as [_ Hy].
  eapply linked_step; [constructor; exact Hz|exact Hy|]. apply nbr_sym; auto. destruct Hy; auto.
Qed.

Record sinv (k : nat) (f : flags) (clusters : list (list nat)) : Prop := mkS {
  s_g : ginv f clusters;
  s_done : forall x, x < k -> x < n -> vis f x = true;
  s_core : forall x y, corep x -> vis f x = true -> nbr x y = true \/ y = x -> bel f y = true;
  s_comp : Forall (fun c => exists p t, c = p :: t /\ is_component n nbr minpts p c) clusters;
  s_hd : StronglySorted lt (map (hd 0) clusters);
  s_hdlt : forall c, In c clusters -> hd 0 c < k;
  s_border : forall pre c post x, clusters = pre ++ c :: post -> In x c -> ~ core n nbr minpts x ->
     forall c' y, In c' pre -> In y c' -> core n nbr minpts y -> nbr y x = false
}.

Lemma expand_sinv p f0 don f cluster clusters : sinv p f0 clusters -> p < n -> corep p -> vis f0 p = false ->
  linv p f0 don [] f cluster -> sinv (S p) f (clusters ++ [cluster]).
Proof.
  intros [Hg Hdone Hcore Hcomp Hhd Hhdlt Hborder] Hp Hpc Hp0 HL.
  pose proof (expand_partition p f0 don f cluster clusters Hg Hp0 HL) as Hg'.
  destruct Hg as [Hw Hbv Hbel Hcn]. destruct HL as [Lw Ln Ll Lv Lb Lc Lp Lcl]. rewrite app_nil_r in *.
  assert (Hpcore : core n nbr minpts p) by (apply core_corep; auto).
  (* no core point linked to p was visited before *)
  assert (Hfresh : forall x, linked n nbr minpts p x -> vis f0 x = false).
  { intros x Hx. destruct (vis f0 x) eqn:E; auto. exfalso.
    assert (Hback : forall y z, linked n nbr minpts y z -> vis f0 y = true -> vis f0 z = true).
    { intros y z H. induction H as [|y w z H IH Hz Hn']; auto. intros Hy. specialize (IH Hy).
      apply Hbv. apply (Hcore w z); auto. apply core_corep. apply (linked_core _ _ H). }
    pose proof (Hback x p (linked_sym _ _ Hx) E). congruence. }
  assert (Hdc : forall x, In x don -> core n nbr minpts x -> linked n nbr minpts p x).
  { intros x Hx Hxc. destruct (Lp x Hx) as [q [_ [_ [Hq Hqx]]]]. eapply linked_step; eauto. }
  assert (Hall : forall x, linked n nbr minpts p x -> x = p \/ In x don).
  { assert (G : forall a x, linked n nbr minpts a x -> a = p -> x = p \/ In x don).
    { intros a x H. induction H as [|a y z H IH Hz Hyz]; intros Ea; auto. specialize (IH Ea). subst a.
      apply (Lcl y z); auto. apply core_corep. apply (linked_core _ _ H). }
    intros x Hx. eapply G; eauto. }
  assert (Hclu : forall x, In x cluster <-> x = p \/ (In x don /\ bel f0 x = false)).
  { intros x. rewrite Lc. simpl. rewrite filter_In, negb_true_iff. intuition. }
  assert (Hccl : forall x, core n nbr minpts x -> (In x cluster <-> linked n nbr minpts p x)).
  { intros x Hx. rewrite Hclu. split.
    - intros [->|[H _]]; [constructor; auto|auto].
    - intros H. destruct (Hall x H) as [->|Hd]; auto. right. split; auto.
      destruct (bel f0 x) eqn:E; auto. apply Hbv in E. rewrite (Hfresh x H) in E. discriminate. }
  constructor; auto.
  - intros x Hx Hxn. apply Lv. destruct (Nat.eq_dec x p); auto. left. apply Hdone; lia.
  - intros x y Hx Hv Hxy. apply Lb. apply Lv in Hv.
    destruct (vis f0 x) eqn:E0.
    + left. eapply Hcore; eauto.
    + right. destruct Hv as [Hv|Hv]; [congruence|]. destruct Hxy as [Hxy| ->]; [|auto].
      apply (Lcl x y); auto.
  - apply Forall_app. split; auto. constructor; auto. exists p, (filter (fun x => negb (bel f0 x)) don). split; auto.
    split; auto. split; auto. split.
    + intros x Hx Hxc. apply Hccl in Hx; auto. specialize (Hfresh x Hx).
      destruct (le_lt_dec p x); auto. rewrite Hdone in Hfresh; auto; [discriminate|]. destruct Hxc; auto.
    + intros x Hx Hnc. apply Hclu in Hx. destruct Hx as [->|[Hx _]]; [contradiction|].
      destruct (Lp x Hx) as [q [_ [_ [Hq Hqx]]]]. exists q.
      destruct (linked_core _ _ Hq) as [_ Hqc]. split; auto. apply Hccl; auto.
  - rewrite map_app. simpl. apply sorted_snoc; auto. intros y Hy. apply in_map_iff in Hy as [c [<- Hc]].
    rewrite Lc. simpl. auto.
  - intros c Hc. apply in_app_iff in Hc as [Hc|[<-|[]]]; [specialize (Hhdlt c Hc); lia|]. rewrite Lc. simpl. lia.
  - intros pre c post x Hs Hx Hnc c' y Hc' Hy Hyc. apply snoc_inv in Hs as [[-> [<- <-]]|[post' [-> Hs]]].
    + destruct (nbr y x) eqn:E; auto. exfalso.
      assert (Hb0 : bel f0 x = true).
      { apply (Hcore y x); auto; [apply core_corep; auto|]. apply Hbv, Hbel. apply in_concat. eauto. }
      apply Hclu in Hx. destruct Hx as [->|[_ Hx]]; [|congruence]. apply Hbv in Hb0. congruence.
    + eapply Hborder; eauto.
Qed.

Lemma scan_sinv : forall m k f clusters, sinv k f clusters -> k + m = n ->
  exists f' clusters', scan search minpts n (seq k m) f clusters = Ok (f', clusters') /\ sinv n f' clusters'.
Proof.
  induction m as [|m IH]; intros k f clusters HS Hk.
  - rewrite Nat.add_0_r in Hk. subst k. exists f, clusters. simpl. auto.
  - cbn [seq scan]. fold (vis f k). destruct (vis f k) eqn:Ev.
    + apply IH; [|lia]. destruct HS as [Hg Hdone Hcore Hcomp Hhd Hhdlt Hborder]. constructor; auto.
      intros x Hx Hxn. destruct (Nat.eq_dec x k) as [->|]; auto. apply Hdone; lia.
      intros c Hc. specialize (Hhdlt c Hc). lia.
    + assert (Hkn : k < n) by lia.
      destruct (expand_cluster_spec k f Hkn (g_wf _ _ (s_g _ _ _ HS)) Ev (g_bv _ _ (s_g _ _ _ HS)))
        as [[Hnc [f' [E [Hw' [Hv' Hb']]]]]|[Hc [f' [don [cluster [E HL]]]]]]; rewrite E; cbn [bind fst snd].
      * apply IH; [|lia]. destruct HS as [[Hw Hbv Hbel Hcn] Hdone Hcore Hcomp Hhd Hhdlt Hborder]. constructor; auto.
        -- constructor; auto.
           ++ intros x Hx. apply Hv'. left. apply Hbv. rewrite <- Hb'. auto.
           ++ intros x. rewrite Hb'. apply Hbel.
        -- intros x Hx Hxn. apply Hv'. destruct (Nat.eq_dec x k); auto. left. apply Hdone; lia.
        -- intros x y Hx Hv Hxy. rewrite Hb'. apply Hv' in Hv as [Hv| ->]; [eauto|contradiction].
        -- intros c Hc. specialize (Hhdlt c Hc). lia.
      * apply IH; [|lia]. eapply expand_sinv; eauto.
Qed.

Lemma process_spec clusters0 noise0 : exists clusters noise,
  process search minpts n clusters0 noise0 = Ok (clusters0 ++ clusters, noise0 ++ noise) /\
  dbscan_result n nbr minpts clusters noise.
Proof.
  assert (Hscan0 : forall idx f cl0, scan search minpts n idx f cl0 =
     do r <- scan search minpts n idx f []; Ok (fst r, cl0 ++ snd r)).
  { induction idx as [|i t IH]; intros f cl0; cbn [scan]; [simpl; rewrite app_nil_r; auto|].
    destruct (nth i (visited f) false); auto.
    destruct (expand_cluster search minpts n i f) as [[f' [c|]]|]; cbn [bind fst snd]; auto.
    rewrite IH. rewrite (IH f' ([] ++ [c])). destruct (scan search minpts n t f' []) as [r|]; cbn [bind fst snd]; auto.
    simpl. rewrite <- app_assoc. reflexivity. }
  unfold process. rewrite Hscan0.
  destruct (scan_sinv n 0 (mkFlags (repeat false n) (repeat false n)) []) as [f [clusters [E HS]]]; auto.
  - assert (Hv0 : forall x, nth x (repeat false n) false = false).
    { intros x. destruct (le_lt_dec n x); [apply nth_overflow; rewrite repeat_length; auto|]. apply nth_repeat. }
    constructor.
    + constructor.
      * split; apply repeat_length.
      * intros x H. unfold bel in H. cbn [belong] in H. rewrite Hv0 in H. discriminate.
      * intros x. unfold bel. cbn [belong]. rewrite Hv0. simpl. split; [discriminate|tauto].
      * constructor.
    + intros; lia.
    + intros x y _ H. unfold vis in H. cbn [visited] in H. rewrite Hv0 in H. discriminate.
    + constructor.
    + constructor.
    + intros c [].
    + intros pre c post x H. destruct pre; discriminate.
  - rewrite E. cbn [bind fst snd]. exists clusters, (filter (fun i => negb (nth i (belong f) false)) (seq 0 n)).
    split; auto.
    destruct HS as [[Hw Hbv Hbel Hcn] Hdone Hcore Hcomp Hhd Hhdlt Hborder].
    assert (Hnoise : forall x, In x (filter (fun i => negb (nth i (belong f) false)) (seq 0 n)) <-> x < n /\ bel f x = false).
    { intros x. rewrite filter_In, in_seq, negb_true_iff. fold (bel f x). intuition lia. }
    split; [|split; [auto|split; [auto|split; [auto|split]]]].
    + apply NoDup_Permutation; [|apply seq_NoDup|].
      * apply NoDup_app_intro; auto; [apply NoDup_filter, seq_NoDup|].
        intros x Hx Hc. apply Hbel in Hx. apply Hnoise in Hc. destruct Hc; congruence.
      * intros x. rewrite in_app_iff, <- Hbel, Hnoise, in_seq. split.
        -- intros [H|H]; [|lia]. apply Hbv in H. apply vis_lt in H; auto. lia.
        -- intros H. destruct (bel f x) eqn:Eb; auto. right. split; [lia|auto].
    + intros x. rewrite Hnoise. split.
      * intros [Hx Hb]. split; auto. split.
        -- intros Hc. assert (Hb' : bel f x = true); [|congruence].
           apply (Hcore x x); [apply core_corep; exact Hc|apply Hdone; auto|auto].
        -- intros y Hy. destruct (nbr y x) eqn:Exy; auto.
           assert (Hb' : bel f x = true); [|congruence].
           apply (Hcore y x); [apply core_corep; exact Hy|apply Hdone; destruct Hy; auto|auto].
      * intros [Hx [Hnc Hno]]. split; auto. destruct (bel f x) eqn:Eb; auto. exfalso.
        apply Hbel in Eb. apply in_concat in Eb as [c [Hc Hxc]]. rewrite Forall_forall in Hcomp.
        destruct (Hcomp c Hc) as [p [t [_ [_ [_ [_ H]]]]]].
        destruct (H x Hxc Hnc) as [y [_ [Hy Hyx]]]. rewrite (Hno y Hy) in Hyx. discriminate.
    + apply filter_sorted, seq_sorted.
Qed.
End Sym.

(** *** Partition without symmetry *)
Lemma scan_partition : forall m k f clusters, ginv f clusters -> no_empty clusters -> k + m = n ->
  exists f' clusters', scan search minpts n (seq k m) f clusters = Ok (f', clusters') /\ ginv f' clusters' /\ no_empty clusters'.
Proof.
  induction m as [|m IH]; intros k f clusters HG Hne Hk; [exists f, clusters; simpl; auto|].
  cbn [seq scan]. fold (vis f k). destruct (vis f k) eqn:Ev; [apply IH; auto; lia|].
  assert (Hkn : k < n) by lia.
  destruct (expand_cluster_spec k f Hkn (g_wf _ _ HG) Ev (g_bv _ _ HG))
    as [[Hnc [f' [E [Hw' [Hv' Hb']]]]]|[Hc [f' [don [cluster [E HL]]]]]]; rewrite E; cbn [bind fst snd].
  - apply IH; auto; [|lia]. destruct HG as [Hw Hbv Hbel Hcn]. constructor; auto.
    + intros x Hx. apply Hv'. left. apply Hbv. rewrite <- Hb'. auto.
    + intros x. rewrite Hb'. apply Hbel.
  - apply IH; [eapply expand_partition; eauto| |lia]. apply Forall_app. split; auto. constructor; auto.
    rewrite (l_clu _ _ _ _ _ _ HL). discriminate.
Qed.

Lemma process_partition : exists clusters noise,
  process search minpts n [] [] = Ok (clusters, noise) /\
  Permutation (concat clusters ++ noise) (seq 0 n) /\ no_empty clusters.
Proof.
  unfold process.
  destruct (scan_partition n 0 (mkFlags (repeat false n) (repeat false n)) []) as [f [clusters [E [HG Hne]]]]; auto.
  - assert (Hv0 : forall x, nth x (repeat false n) false = false).
    { intros x. destruct (le_lt_dec n x); [apply nth_overflow; rewrite repeat_length; auto|]. apply nth_repeat. }
    constructor.
    + split; apply repeat_length.
    + intros x H. unfold bel in H. cbn [belong] in H. rewrite Hv0 in H. discriminate.
    + intros x. unfold bel. cbn [belong]. rewrite Hv0. simpl. split; [discriminate|tauto].
    + constructor.
  - constructor.
  - rewrite E. cbn [bind fst snd]. eexists; eexists. split; [reflexivity|]. split; auto.
    destruct HG as [Hw Hbv Hbel Hcn].
    assert (Hnoise : forall x, In x (filter (fun i => negb (nth i (belong f) false)) (seq 0 n)) <-> x < n /\ bel f x = false).
    { intros x. rewrite filter_In, in_seq, negb_true_iff. fold (bel f x). intuition lia. }
    apply NoDup_Permutation; [|apply seq_NoDup|].
    + apply NoDup_app_intro; auto; [apply NoDup_filter, seq_NoDup|].
      intros x Hx Hc. apply Hbel in Hx. apply Hnoise in Hc. destruct Hc; congruence.
    + intros x. rewrite in_app_iff, <- Hbel, Hnoise, in_seq. split.
      * intros [H|H]; [|lia]. apply Hbv in H. apply vis_lt in H; auto. lia.
      * intros H. destruct (bel f x) eqn:Eb; auto. right. split; [lia|auto].
Qed.
End Generic.
