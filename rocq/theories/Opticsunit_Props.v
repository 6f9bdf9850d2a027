(** C274: OPTICS does not depend on the unit of distance, nor, for points, on the origin of the coordinates. *)
From Verif Require Import Base Search_Model Kd_Model Dbscan_Model Optics_Model Kmeans_Model Scaled_Proofs Unit_Props.
Local Open Scope nat_scope.

(** ** specification *)
(** the same state of an object, its distances multiplied by [m] *)
Definition same_obj (m : Q) (o o' : obj) : Prop := o_processed o' = o_processed o /\ times_opt m (o_core o) (o_core o') /\ times_opt m (o_reach o) (o_reach o').
(** the same clusters, noise and order of the points *)
Definition same_outcome (m : Q) (r r' : outcome) : Prop :=
  r_clusters r' = r_clusters r /\ r_noise r' = r_noise r /\ r_order r' = r_order r /\ Forall2 (same_obj m) (r_objects r) (r_objects r').
Definition same_ordering (m : Q) (l l' : list Q) : Prop := Forall2 (fun a a' => a' == m * a)%Q l l'.
Definition same_matrix (m : Q) (M M' : list (list Q)) : Prop := Forall2 (same_ordering m) M M'.

(** ** the traversal *)
Section Run.
Variable m : Q.
Hypothesis Hm : (0 < m)%Q.
Definition nb_same (a b : nat * Q) : Prop := fst b = fst a /\ times m (snd a) (snd b).

Lemma both_get os os' i : Forall2 (same_obj m) os os' -> same_obj m (get os i) (get os' i).
Proof. unfold get. intro H. revert i. induction H; intros [|i]; cbn [nth]; auto; repeat split. Qed.
Lemma both_upd os os' i o o' : Forall2 (same_obj m) os os' -> same_obj m o o' -> Forall2 (same_obj m) (upd os i o) (upd os' i o').
Proof. intros H Ho. revert i. induction H; intros [|i]; cbn [upd]; constructor; auto. Qed.
Lemma both_reach os os' i : Forall2 (same_obj m) os os' -> times m (reach_of os i) (reach_of os' i).
Proof. intro H. destruct (both_get os os' i H) as (_ & _ & R). unfold reach_of. destruct (o_reach (get os i)), (o_reach (get os' i)); cbn [times_opt] in R; try contradiction; auto. unfold times. ring. Qed.
Lemma both_max a b a' b' : times m a a' -> times m b b' -> times m (py_max a b) (py_max a' b').
Proof. intros A B. unfold py_max. rewrite (scale_ltb m Hm a b a' b' A B). destruct (Qltb a b); assumption. Qed.
Lemma both_insert os os' r r' i : Forall2 (same_obj m) os os' -> times m r r' -> forall seeds, insert_seed os' r' i seeds = insert_seed os r i seeds.
Proof. intros H R. induction seeds as [|x t IH]; cbn [insert_seed]; [reflexivity|]. rewrite (scale_ltb m Hm _ _ _ _ R (both_reach os os' x H)), IH. reflexivity. Qed.
Lemma sort_same {A} (f f' : A -> Q) : (forall x, times m (f x) (f' x)) -> forall l, sort_key f' l = sort_key f l.
Proof.
  intro H. assert (I : forall x l, ins_key f' x l = ins_key f x l) by (intros x; induction l as [|y t IH]; cbn [ins_key]; [reflexivity|]; rewrite (scale_leb m Hm _ _ _ _ (H x) (H y)), IH; reflexivity).
  unfold sort_key. induction l as [|x t IH]; cbn [fold_right]; [reflexivity|]. now rewrite IH, I.
Qed.
Lemma sort_pairs l l' : Forall2 nb_same l l' -> Forall2 nb_same (sort_key snd l) (sort_key snd l').
Proof.
  assert (I : forall x x' l l', nb_same x x' -> Forall2 nb_same l l' -> Forall2 nb_same (ins_key snd x l) (ins_key snd x' l')).
  { intros x x' k k' Hx Hk. induction Hk as [|y y' k k' Hy Hk IH]; cbn [ins_key]; [constructor; auto|]. rewrite (scale_leb m Hm _ _ _ _ (proj2 Hx) (proj2 Hy)). destruct (Qle_bool (snd x) (snd y)); repeat constructor; auto; apply Hx || apply Hy. }
  unfold sort_key. induction 1 as [|x x' l l' Hx Hl IH]; cbn [fold_right]; [constructor|]. apply I; assumption.
Qed.
Definition states (r r' : list obj * list nat) : Prop := Forall2 (same_obj m) (fst r) (fst r') /\ snd r' = snd r.
Lemma with_reach o o' r r' : same_obj m o o' -> times_opt m r r' -> same_obj m (set_reach o r) (set_reach o' r').
Proof. intros (A & B & C0) R. repeat split; assumption. Qed.
Lemma with_core o o' r r' : same_obj m o o' -> times_opt m r r' -> same_obj m (set_core o r) (set_core o' r').
Proof. intros (A & B & C0) R. repeat split; assumption. Qed.
Lemma with_processed o o' : same_obj m o o' -> same_obj m (set_processed o) (set_processed o').
Proof. intros (A & B & C0). repeat split; assumption. Qed.
Lemma both_seed core core' : times m core core' -> forall nb nb', Forall2 nb_same nb nb' -> forall os os' seeds, Forall2 (same_obj m) os os' ->
  same_run states (update_order_seed core nb os seeds) (update_order_seed core' nb' os' seeds).
Proof.
  intros HC. induction 1 as [|[i d] [j d'] nb nb' (Hi & Hd) Hnb IH]; intros os os' seeds H; cbn [update_order_seed]; [split; [exact H|reflexivity]|]. cbn [fst snd] in Hi, Hd. subst j.
  rewrite (both_length _ _ _ H). destruct (length os <=? i); [reflexivity|]. destruct (both_get os os' i H) as (P & Q0 & R). rewrite P. destruct (o_processed (get os i)); [apply IH; exact H|].
  pose proof (both_max d core d' core' Hd HC) as M0. pose proof (both_get os os' i H) as G.
  assert (H1 : Forall2 (same_obj m) (upd os i (set_reach (get os i) (Some (py_max d core)))) (upd os' i (set_reach (get os' i) (Some (py_max d' core'))))) by (apply both_upd; [exact H|]; apply with_reach; [exact G|exact M0]).
  destruct (o_reach (get os i)) as [r|], (o_reach (get os' i)) as [r'|]; cbn [times_opt] in R; try contradiction.
  - rewrite (scale_ltb m Hm _ _ _ _ M0 R). destruct (Qltb (py_max d core) r); [|apply IH; exact H].
    rewrite (sort_same _ _ (fun x => both_reach _ _ x H1)). apply IH. exact H1.
  - rewrite (both_insert _ _ _ _ i H1 M0). apply IH. exact H1.
Qed.
Lemma both_nth nb nb' k : Forall2 nb_same nb nb' -> match nth_error nb k, nth_error nb' k with Some x, Some y => nb_same x y | None, None => True | _, _ => False end.
Proof. intro H. revert k. induction H as [|x y l l' Hx Hl IH]; intros [|k]; cbn [nth_error]; [exact I|exact I|exact Hx|apply IH]. Qed.
Lemma both_rev nb nb' : Forall2 nb_same nb nb' -> Forall2 nb_same (rev nb) (rev nb').
Proof. induction 1 as [|x y l l' Hx Hl IH]; cbn [rev]; [constructor|]. apply Forall2_app; [exact IH|]. constructor; [exact Hx|constructor]. Qed.
Lemma both_core minpts nb nb' : Forall2 nb_same nb nb' -> same_run (times m) (core_distance minpts nb) (core_distance minpts nb').
Proof.
  intro H. unfold core_distance. destruct minpts as [|k].
  - destruct (both_rev nb nb' H) as [|x y l l' Hx _]; [reflexivity|apply Hx].
  - pose proof (both_nth nb nb' k H) as K. destruct (nth_error nb k), (nth_error nb' k); try contradiction; [apply K|reflexivity].
Qed.

(** indices stay within the list of objects *)
Lemma insert_bound os r i n : forall seeds, i < n -> Forall (fun j => j < n) seeds -> Forall (fun j => j < n) (insert_seed os r i seeds).
Proof. intros seeds Hi. induction 1 as [|x t Hx Ht IH]; cbn [insert_seed]; [repeat constructor; exact Hi|]. destruct (Qltb r (reach_of os x)); repeat constructor; auto. Qed.
Lemma seed_bound core : forall nb os seeds a b, update_order_seed core nb os seeds = Ok (a, b) -> Forall (fun j => j < length os) seeds -> length a = length os /\ Forall (fun j => j < length os) b.
Proof.
  induction nb as [|[i d] nb IH]; intros os seeds a b E H; cbn [update_order_seed] in E; [injection E as <- <-; auto|]. destruct (Nat.leb_spec (length os) i) as [|Hi]; [discriminate|].
  destruct (o_processed (get os i)); [apply (IH _ _ _ _ E H)|]. destruct (o_reach (get os i)) as [r|].
  - destruct (Qltb (py_max d core) r); [|apply (IH _ _ _ _ E H)]. apply IH in E; rewrite upd_length in *; [exact E|]. apply (Permutation_Forall (Permutation_sym (sort_key_perm _ seeds))). exact H.
  - apply IH in E; rewrite upd_length in *; [exact E|]. apply insert_bound; assumption.
Qed.

Variables (search search' : nat -> list (nat * Q)) (minpts n : nat).
Hypothesis Hsearch : forall i, i < n -> Forall2 nb_same (search i) (search' i).
Lemma both_loop : forall fuel os os' db seeds, Forall2 (same_obj m) os os' -> length os = n -> Forall (fun j => j < n) seeds -> same_run states (seed_loop search minpts fuel os db seeds) (seed_loop search' minpts fuel os' db seeds).
Proof.
  induction fuel as [|fuel IH]; intros os os' db [|i seeds] H L B; cbn [seed_loop]; try (split; [exact H|reflexivity]); [reflexivity|].
  apply Forall_cons_iff in B as (Hi & Bs). pose proof (Hsearch i Hi) as Hsi. rewrite (both_length _ _ _ Hsi).
  assert (H1 : Forall2 (same_obj m) (upd os i (set_processed (get os i))) (upd os' i (set_processed (get os' i)))) by (apply both_upd; [exact H|]; apply with_processed, both_get, H).
  destruct (minpts <=? length (search i)).
  - pose proof (sort_pairs _ _ Hsi) as S. pose proof (both_core minpts _ _ S) as C0.
    destruct (core_distance minpts (sort_key snd (search i))) as [c|e], (core_distance minpts (sort_key snd (search' i))) as [c'|e']; cbn [same_run bind] in C0 |- *; try exact C0; try (destruct C0; fail).
    pose proof (both_seed c c' C0 _ _ S _ _ seeds (both_upd _ _ i _ _ H1 (with_core _ _ (Some c) (Some c') (both_get _ _ i H1) C0))) as U.
    pose proof (seed_bound c (sort_key snd (search i)) (upd (upd os i (set_processed (get os i))) i (set_core (get (upd os i (set_processed (get os i))) i) (Some c))) seeds) as V.
    destruct (update_order_seed c (sort_key snd (search i)) _ seeds) as [[a b]|e], (update_order_seed c' (sort_key snd (search' i)) _ seeds) as [[a' b']|e']; cbn [same_run bind] in U |- *; try exact U; try (destruct U; fail).
    destruct U as (U1 & U2). cbn [fst snd] in *. subst b'. rewrite !upd_length, L in V. destruct (V a b eq_refl Bs) as (V1 & V2). apply IH; assumption.
  - apply IH; [|rewrite !upd_length; exact L|exact Bs]. apply both_upd; [exact H1|]. apply with_core; [apply both_get, H1|exact I].
Qed.
Lemma both_expand i os os' db : i < n -> length os = n -> Forall2 (same_obj m) os os' -> same_run states (expand_cluster_order search minpts i os db) (expand_cluster_order search' minpts i os' db).
Proof.
  intros Hi Ln H. unfold expand_cluster_order. specialize (Hsearch i Hi) as Hsi. rewrite (both_length _ _ _ Hsi).
  assert (H1 : Forall2 (same_obj m) (upd os i (set_processed (get os i))) (upd os' i (set_processed (get os' i)))) by (apply both_upd; [exact H|]; apply with_processed, both_get, H).
  assert (L1 : length (upd os i (set_processed (get os i))) = n) by (rewrite upd_length; exact Ln).
  set (o1 := upd os i (set_processed (get os i))) in *. set (o1' := upd os' i (set_processed (get os' i))) in *.
  assert (H2 : Forall2 (same_obj m) (upd o1 i (set_reach (get o1 i) None)) (upd o1' i (set_reach (get o1' i) None))) by (apply both_upd; [exact H1|]; apply with_reach; [apply both_get, H1|exact I]).
  assert (L2 : length (upd o1 i (set_reach (get o1 i) None)) = n) by (rewrite upd_length; exact L1).
  set (o2 := upd o1 i (set_reach (get o1 i) None)) in *. set (o2' := upd o1' i (set_reach (get o1' i) None)) in *.
  destruct (minpts <=? length (search i)).
  - pose proof (sort_pairs _ _ Hsi) as S. pose proof (both_core minpts _ _ S) as C0.
    destruct (core_distance minpts (sort_key snd (search i))) as [c|e], (core_distance minpts (sort_key snd (search' i))) as [c'|e']; cbn [same_run bind] in C0 |- *; try exact C0; try (destruct C0; fail).
    pose proof (both_upd _ _ i _ _ H2 (with_core _ _ (Some c) (Some c') (both_get _ _ i H2) C0)) as H3.
    assert (L3 : length (upd o2 i (set_core (get o2 i) (Some c))) = n) by (rewrite upd_length; exact L2).
    set (o3 := upd o2 i (set_core (get o2 i) (Some c))) in *. set (o3' := upd o2' i (set_core (get o2' i) (Some c'))) in *. rewrite (both_length _ _ _ H3).
    pose proof (both_seed c c' C0 _ _ S _ _ [] H3) as U. pose proof (seed_bound c (sort_key snd (search i)) o3 []) as V.
    destruct (update_order_seed c (sort_key snd (search i)) o3 []) as [[a b]|e], (update_order_seed c' (sort_key snd (search' i)) o3' []) as [[a' b']|e']; cbn [same_run bind] in U |- *; try exact U; try (destruct U; fail).
    destruct U as (U1 & U2). cbn [fst snd] in *. subst b'. rewrite L3 in V. destruct (V a b eq_refl (Forall_nil _)) as (V1 & V2). apply both_loop; assumption.
  - split; [|reflexivity]. cbn [fst]. apply both_upd; [exact H2|]. apply with_core; [apply both_get, H2|exact I].
Qed.
Lemma loop_length : forall fuel os db seeds a b, seed_loop search minpts fuel os db seeds = Ok (a, b) -> Forall (fun j => j < length os) seeds -> length a = length os.
Proof.
  induction fuel as [|fuel IH]; intros os db [|i seeds] a b E B; cbn [seed_loop] in E; try (injection E as <- <-; reflexivity); [discriminate|]. inversion B as [|? ? Hi Bs]; subst.
  destruct (minpts <=? length (search i)).
  - destruct (core_distance minpts (sort_key snd (search i))) as [c|e]; [|discriminate]. cbn [bind] in E.
    destruct (update_order_seed c (sort_key snd (search i)) _ seeds) as [[x y]|e] eqn:Eu in E; [|discriminate]. cbn [bind fst snd] in E. apply seed_bound in Eu; rewrite !upd_length in *; [|exact Bs]. destruct Eu as (Eu & Ey). apply IH in E; rewrite Eu in *; assumption.
  - apply IH in E; rewrite !upd_length in *; assumption.
Qed.
Lemma expand_length i os db a b : expand_cluster_order search minpts i os db = Ok (a, b) -> length a = length os.
Proof.
  unfold expand_cluster_order. destruct (minpts <=? length (search i)).
  - destruct (core_distance minpts (sort_key snd (search i))) as [c|e]; [|discriminate]. cbn [bind].
    destruct (update_order_seed c (sort_key snd (search i)) _ []) as [[x y]|e] eqn:Eu; [|discriminate]. cbn [bind fst snd]. apply seed_bound in Eu; rewrite !upd_length in *; [|constructor]. destruct Eu as (Eu & Ey). intro E. apply loop_length in E; rewrite Eu in *; assumption.
  - intro E. injection E as <- <-. now rewrite !upd_length.
Qed.
Lemma both_traverse : forall idx os os' db, Forall (fun j => j < n) idx -> length os = n -> Forall2 (same_obj m) os os' -> same_run states (traverse search minpts idx os db) (traverse search' minpts idx os' db).
Proof.
  induction idx as [|i t IH]; intros os os' db B L H; cbn [traverse]; [split; [exact H|reflexivity]|]. apply Forall_cons_iff in B as (Hi & Bt). destruct (both_get os os' i H) as (P & _). rewrite P. destruct (o_processed (get os i)); [apply IH; auto|].
  pose proof (both_expand i os os' db Hi L H) as U. pose proof (expand_length i os db) as V.
  destruct (expand_cluster_order search minpts i os db) as [[a b]|e], (expand_cluster_order search' minpts i os' db) as [[a' b']|e']; cbn [same_run bind] in U |- *; try exact U; try (destruct U; fail).
  destruct U as (U1 & U2). cbn [fst snd] in *. subst b'. apply IH; [exact Bt|rewrite (V a b eq_refl); exact L|exact U1].
Qed.
Lemma both_extract eps eps' os os' : times m eps eps' -> Forall2 (same_obj m) os os' -> forall db, extract_clusters eps' os' db = extract_clusters eps os db.
Proof.
  intros E H db. unfold extract_clusters. assert (S : forall s i, extract_step eps' os' s i = extract_step eps os s i).
  { intros [cl no] i. unfold extract_step. destruct (both_get os os' i H) as (_ & A & B).
    assert (X : above eps' (o_reach (get os' i)) = above eps (o_reach (get os i))) by (unfold above; destruct (o_reach (get os i)), (o_reach (get os' i)); cbn [times_opt] in B; try contradiction; auto; apply (scale_ltb m Hm); assumption).
    assert (Y : core_within eps' (o_core (get os' i)) = core_within eps (o_core (get os i))) by (unfold core_within; destruct (o_core (get os i)), (o_core (get os' i)); cbn [times_opt] in A; try contradiction; auto; apply (scale_leb m Hm); assumption).
    now rewrite X, Y. }
  generalize (@nil (list nat), @nil nat). induction db as [|i t IH]; intro s; cbn [fold_left]; [reflexivity|]. now rewrite S, IH.
Qed.
Lemma both_allocate eps eps' : times m eps eps' -> same_run (same_outcome m) (allocate_clusters search minpts eps n) (allocate_clusters search' minpts eps' n).
Proof.
  intro E. unfold allocate_clusters. assert (H0 : Forall2 (same_obj m) (repeat obj0 n) (repeat obj0 n)) by (clear; induction n; cbn [repeat]; constructor; auto; repeat split).
  pose proof (both_traverse (seq 0 n) _ _ [] ltac:(apply Forall_forall; intros j Hj; apply in_seq in Hj; lia) (repeat_length _ _) H0) as U.
  destruct (traverse search minpts (seq 0 n) (repeat obj0 n) []) as [[a b]|e], (traverse search' minpts (seq 0 n) (repeat obj0 n) []) as [[a' b']|e']; cbn [same_run bind] in U |- *; try exact U; try (destruct U; fail).
  destruct U as (U1 & U2). cbn [fst snd] in *. subst b'. rewrite (both_extract eps eps' a a' E U1 b). destruct (extract_clusters eps a b) as [cl no]. cbn. repeat split; auto.
Qed.
End Run.

(** ** the search of a radius for an amount of clusters *)
Section Amount.
Variable m : Q.
Hypothesis Hm : (0 < m)%Q.
Lemma both_ordering o o' : same_outcome m o o' -> same_ordering m (get_ordering o) (get_ordering o').
Proof.
  intros (A & _ & _ & B). unfold get_ordering, same_ordering. rewrite A. induction (concat (r_clusters o)) as [|i t IH]; cbn [flat_map]; [constructor|]. apply Forall2_app; [|exact IH].
  destruct (both_get m _ _ i B) as (_ & _ & R). destruct (o_reach (get (r_objects o) i)), (o_reach (get (r_objects o') i)); cbn [times_opt] in R; try contradiction; repeat constructor; assumption.
Qed.
Definition scan_same (a b : scan_st) : Prop :=
  s_amount b = s_amount a /\ s_start b = s_start a /\ s_pick b = s_pick a /\ s_similar b = s_similar a /\ s_borders b = s_borders a /\ times_opt m (s_prev_cluster a) (s_prev_cluster b) /\ times_opt m (s_prev a) (s_prev b).
Lemma times_eqb a b a' b' : times m a a' -> times m b b' -> Qeq_bool a' b' = Qeq_bool a b.
Proof.
  unfold times. intros A B. apply Bool.eq_iff_eq_true. rewrite !Qeq_bool_iff, A, B. split; intro H; [|rewrite H; reflexivity]. apply (Qmult_inj_l a b m); [|exact H]. intro Z. rewrite Z in Hm. apply (Qlt_irrefl 0 Hm).
Qed.
Lemma both_step radius radius' a b k d d' : times m radius radius' -> times m d d' -> scan_same a b -> scan_same (amount_step radius a k d) (amount_step radius' b k d').
Proof.
  intros R D. destruct a as [a1 a2 a3 a4 a5 a6 a7], b as [b1 b2 b3 b4 b5 b6 b7]. intros (E1 & E2 & E3 & E4 & E5 & E6 & E7). cbn in E1, E2, E3, E4, E5. subst. cbn [s_prev_cluster s_prev] in E6, E7.
  unfold amount_step. rewrite (scale_leb m Hm _ _ _ _ R D). cbn [s_amount s_start s_pick s_similar s_prev_cluster s_prev s_borders].
  assert (W : (match b6 with None => a4 | Some p => if Qeq_bool d' p then a4 else false end) = (match a6 with None => a4 | Some p => if Qeq_bool d p then a4 else false end)) by (destruct a6, b6; cbn [times_opt] in E7; try contradiction; auto; now rewrite (times_eqb _ _ _ _ D E7)).
  destruct (Qle_bool radius d).
  - destruct (negb a2); cbn [s_amount s_start s_pick s_similar s_prev_cluster s_prev s_borders].
    + repeat split; auto.
    + destruct a5 as [pc|], b5 as [pc'|]; cbn [times_opt] in E6; try contradiction; [|cbn; repeat split; auto].
      rewrite (scale_ltb m Hm _ _ _ _ D E6), (scale_ltb m Hm _ _ _ _ E6 D). destruct (Qltb d pc && negb a3); [cbn; repeat split; auto|]. destruct (Qltb pc d && a3); cbn; repeat split; auto.
  - cbn. repeat split; auto.
Qed.
Lemma both_scan radius radius' : times m radius radius' -> forall l l', same_ordering m l l' -> forall k a b, scan_same a b -> scan_same (amount_loop radius k l a) (amount_loop radius' k l' b).
Proof. intros R. induction 1 as [|d d' l l' D L IH]; intros k a b H; cbn [amount_loop]; [exact H|]. apply IH. apply both_step; assumption. Qed.
Lemma both_amount l l' radius radius' : same_ordering m l l' -> times m radius radius' -> extract_cluster_amount l' radius' = extract_cluster_amount l radius.
Proof.
  intros L R. unfold extract_cluster_amount. pose proof (both_scan radius radius' R l l' L 0 (mkScan 1 false false true None None []) (mkScan 1 false false true None None []) ltac:(repeat split)) as (E1 & _ & _ & E4 & E5 & _ & E7).
  set (a := amount_loop radius 0 l _) in *. set (b := amount_loop radius' 0 l' _) in *. rewrite E1, E4, E5. destruct (s_similar a); [|reflexivity].
  destruct (s_prev a), (s_prev b); cbn [times_opt] in E7; try contradiction; [|reflexivity]. now rewrite (scale_ltb m Hm _ _ _ _ R E7).
Qed.
Lemma both_bisect l l' wanted : same_ordering m l l' -> forall k lo lo' up up', times m lo lo' -> times m up up' -> same_run (times_opt m) (bisect l wanted k lo up) (bisect l' wanted k lo' up').
Proof.
  intro L. induction k as [|k IH]; intros lo lo' up up' A B; cbn [bisect]; [exact I|].
  assert (R : times m ((lo + up) / 2) ((lo' + up') / 2)) by (unfold times in *; rewrite A, B; field).
  rewrite (both_amount l l' _ _ L R). destruct (extract_cluster_amount l ((lo + up) / 2)) as [[a b]|e]; [|reflexivity]. cbn [bind fst].
  destruct (a =? wanted)%Z; [exact R|]. destruct (a =? 0)%Z; [exact I|]. destruct (wanted <? a)%Z; apply IH; assumption.
Qed.
Lemma both_list_max l l' : same_ordering m l l' -> same_run (times m) (list_max l) (list_max l').
Proof.
  destruct 1 as [|x x' l l' X L]; [reflexivity|]. cbn [list_max same_run]. revert x x' X. induction L as [|y y' l l' Y L IH]; intros x x' X; cbn [fold_left]; [exact X|]. apply IH. apply both_max; assumption.
Qed.
Lemma both_radius l l' wanted k : same_ordering m l l' -> same_run (times_opt m) (connectivity_radius l wanted k) (connectivity_radius l' wanted k).
Proof.
  intro L. unfold connectivity_radius. pose proof (both_list_max l l' L) as M0. destruct (list_max l) as [x|e], (list_max l') as [x'|e']; cbn [same_run bind] in M0 |- *; try exact M0; try (destruct M0; fail).
  rewrite (both_amount l l' x x' L M0). destruct (extract_cluster_amount l x) as [[a b]|e]; [|reflexivity]. cbn [bind fst]. destruct (a <=? wanted)%Z; [|exact I]. apply both_bisect; auto. unfold times. ring.
Qed.
Lemma nth_row M M' i : same_matrix m M M' -> same_ordering m (nth i M []) (nth i M' []).
Proof. intro H. revert i. induction H; intros [|i]; cbn [nth]; auto; constructor. Qed.
Lemma both_neighbors M M' eps eps' i : same_matrix m M M' -> times m eps eps' -> Forall2 (nb_same m) (neighbors_matrix M eps i) (neighbors_matrix M' eps' i).
Proof.
  intros H E. unfold neighbors_matrix. pose proof (nth_row M M' i H) as R. rewrite (both_length _ _ _ R). set (r := nth i M []) in *. set (r' := nth i M' []) in *.
  assert (N : forall j, times m (nth j r 0%Q) (nth j r' 0%Q)) by (intro j; apply times_nth; exact R).
  rewrite (filter_ext (fun j => Qle_bool (nth j r' 0%Q) eps' && negb (j =? i)) (fun j => Qle_bool (nth j r 0%Q) eps && negb (j =? i))) by (intro j; now rewrite (scale_leb m Hm _ _ _ _ (N j) E)).
  induction (filter _ _) as [|j t IH]; cbn [map]; constructor; [split; [reflexivity|apply N]|exact IH].
Qed.
End Amount.

(** distance matrices, with and without a requested amount of clusters: the clusters, the noise and the order are the
    same, the distances of the objects, the final radius and the ordering are multiplied *)
Definition same_matrix_run (m : Q) (r r' : outcome * Q * list Q) : Prop := same_outcome m (fst (fst r)) (fst (fst r')) /\ (snd (fst r') == m * snd (fst r))%Q /\ same_ordering m (snd r) (snd r').
Theorem C274_matrix m M M' eps minpts amount : (0 < m)%Q -> same_matrix m M M' -> same_run (same_matrix_run m) (optics_matrix M eps minpts amount) (optics_matrix M' (m * eps) minpts amount).
Proof.
  intros Hm H. assert (E : times m eps (m * eps)) by reflexivity. unfold optics_matrix. rewrite (both_length _ _ _ H), (scale_ltb0 m Hm _ _ E). destruct (length M =? 0); [reflexivity|]. destruct (Qltb eps 0); [reflexivity|].
  destruct (match amount with Some a => (a <=? 0)%Z | None => false end); [reflexivity|].
  pose proof (both_allocate m Hm (neighbors_matrix M eps) (neighbors_matrix M' (m * eps)) minpts (length M) (fun i _ => both_neighbors m Hm M M' _ _ i H E) eps (m * eps) E) as U.
  destruct (allocate_clusters (neighbors_matrix M eps) minpts eps (length M)) as [o|e], (allocate_clusters (neighbors_matrix M' (m * eps)) minpts (m * eps) (length M)) as [o'|e']; cbn [same_run bind] in U |- *; try exact U; try (destruct U; fail).
  pose proof (both_ordering m o o' U) as OR. destruct amount as [a|]; [|split; [exact U|split; [exact E|exact OR]]].
  rewrite (proj1 U). destruct (a =? Z.of_nat (length (r_clusters o)))%Z; [split; [exact U|split; [exact E|exact OR]]|].
  pose proof (both_radius m Hm _ _ a 100 OR) as R.
  destruct (connectivity_radius (get_ordering o) a 100) as [x|e], (connectivity_radius (get_ordering o') a 100) as [x'|e']; cbn [same_run bind] in R |- *; try exact R; try (destruct R; fail).
  destruct x as [x|], x' as [x'|]; cbn [times_opt] in R; try contradiction; [|split; [exact U|split; [exact E|exact OR]]].
  pose proof (both_allocate m Hm (neighbors_matrix M x) (neighbors_matrix M' x') minpts (length M) (fun i _ => both_neighbors m Hm M M' _ _ i H R) x x' R) as V.
  destruct (allocate_clusters (neighbors_matrix M x) minpts x (length M)) as [q|e], (allocate_clusters (neighbors_matrix M' x') minpts x' (length M)) as [q'|e']; cbn [same_run bind] in V |- *; try exact V; try (destruct V; fail).
  split; [exact V|]. split; [exact R|exact OR].
Qed.
Print Assumptions C274_matrix.

(** ** points: the tree of neighbours *)
Section Points.
Variables (s : Q) (v : point).
Hypothesis Hs : (0 < s)%Q.
Definition it_same (x y : item nat) : Prop := pl y = pl x /\ moved s v (pt x) (pt y).
Lemma coord_leb p q p' q' d : d < length v -> moved s v p q -> moved s v p' q' -> Qle_bool (coord q d) (coord q' d) = Qle_bool (coord p d) (coord p' d).
Proof. intros Hd (_ & _ & A) (_ & _ & B). apply Bool.eq_iff_eq_true. rewrite !Qle_bool_iff, (A d Hd), (B d Hd). split; intro; nra. Qed.
Lemma coord_ltb p q p' q' d : d < length v -> moved s v p q -> moved s v p' q' -> Qltb (coord q d) (coord q' d) = Qltb (coord p d) (coord p' d).
Proof. intros Hd A B. unfold Qltb. f_equal. apply coord_leb; assumption. Qed.
Lemma both_sort d l l' : d < length v -> Forall2 it_same l l' -> Forall2 it_same (sort_by d l) (sort_by d l').
Proof.
  intro Hd. assert (I : forall x x' k k', it_same x x' -> Forall2 it_same k k' -> Forall2 it_same (ins_by d x k) (ins_by d x' k')).
  { intros x x' k k' Hx Hk. induction Hk as [|y y' k k' Hy Hk IH]; cbn [ins_by]; [constructor; auto|]. rewrite (coord_leb (pt x) (pt x') (pt y) (pt y') d Hd (proj2 Hx) (proj2 Hy)). destruct (Qle_bool (coord (pt x) d) (coord (pt y) d)); constructor; auto. }
  unfold sort_by. induction 1 as [|x x' l l' Hx Hl IH]; cbn [fold_right]; [constructor|]. apply I; assumption.
Qed.
Lemma both_item l l' k : Forall2 it_same l l' -> match nth_error l k, nth_error l' k with Some x, Some y => it_same x y | None, None => True | _, _ => False end.
Proof. intro H. revert k. induction H as [|x y l l' Hx Hl IH]; intros [|k]; cbn [nth_error]; [exact I|exact I|exact Hx|apply IH]. Qed.
Lemma both_left d l l' r : d < length v -> Forall2 it_same l l' ->
  find_left_element (fun n1 n2 => Qltb (coord (pt n1) d) (coord (pt n2) d)) l' r = find_left_element (fun n1 n2 => Qltb (coord (pt n1) d) (coord (pt n2) d)) l r.
Proof.
  intros Hd H. unfold find_left_element. pose proof (both_item l l' r H) as K. pose proof H as H0. destruct H as [|x x' t t' Hx Ht]; [reflexivity|]. set (l := x :: t) in *. set (l' := x' :: t') in *.
  destruct (nth_error l r) as [y|], (nth_error l' r) as [y'|]; try contradiction; [|reflexivity].
  generalize ((r - 0) / 2) as mid. generalize 0 as lo. generalize r at 2 4 as up. generalize r as fuel. clear r.
  induction fuel as [|fuel IH]; intros up lo mid; cbn [fle_loop]; [reflexivity|]. destruct (lo <? up); [|reflexivity].
  pose proof (both_item l l' mid H0) as K2. destruct (nth_error l mid) as [z|], (nth_error l' mid) as [z'|]; try contradiction; [|reflexivity].
  rewrite (coord_ltb (pt z) (pt z') (pt y) (pt y') d Hd (proj2 K2) (proj2 K)). apply IH.
Qed.
Inductive tree_same : tree nat -> tree nat -> Prop :=
| leaf_same : tree_same KLeaf KLeaf
| node_same l l' x x' d r r' : tree_same l l' -> it_same x x' -> d < length v -> tree_same r r' -> tree_same (KNode l x d r) (KNode l' x' d r').
Lemma both_firstn {A B} (R : A -> B -> Prop) k : forall l l', Forall2 R l l' -> Forall2 R (firstn k l) (firstn k l').
Proof. induction k as [|k IH]; intros l l' H; cbn [firstn]; [constructor|]. destruct H; constructor; auto. Qed.
Lemma both_skipn {A B} (R : A -> B -> Prop) k : forall l l', Forall2 R l l' -> Forall2 R (skipn k l) (skipn k l').
Proof. induction k as [|k IH]; intros l l' H; cbn [skipn]; [exact H|]. destruct H; [constructor|auto]. Qed.
Lemma both_create : forall fuel l l' depth, Forall2 it_same l l' -> same_run tree_same (create_tree fuel (length v) l depth) (create_tree fuel (length v) l' depth).
Proof.
  induction fuel as [|fuel IH]; intros l l' depth H.
  - destruct H; cbn; [constructor|reflexivity].
  - destruct H as [|x x' t t' Hx Ht]; [constructor|]. assert (H : Forall2 it_same (x :: t) (x' :: t')) by (constructor; assumption). cbn [create_tree]. destruct (Nat.eqb_spec (length v) 0) as [|Hz]; [reflexivity|].
    pose proof (Nat.mod_upper_bound depth (length v) Hz) as Hd. set (d := depth mod length v) in *. pose proof (both_sort d _ _ Hd H) as S. set (a := sort_by d (x :: t)) in *. set (b := sort_by d (x' :: t')) in *. clearbody a b.
    rewrite (both_length _ _ _ S), (both_left d a b _ Hd S). destruct (find_left_element _ a (length a / 2)) as [k|e]; [|reflexivity]. cbn [bind].
    pose proof (both_item a b k S) as K. destruct (nth_error a k) as [y|], (nth_error b k) as [y'|]; try contradiction; [|reflexivity].
    pose proof (IH _ _ (depth + 1) (both_firstn _ k _ _ S)) as L. destruct (create_tree fuel (length v) (firstn k a) (depth + 1)) as [tl|e], (create_tree fuel (length v) (firstn k b) (depth + 1)) as [tl'|e']; cbn [same_run bind] in L |- *; try exact L; try (destruct L; fail).
    pose proof (IH _ _ (depth + 1) (both_skipn _ (k + 1) _ _ S)) as R. destruct (create_tree fuel (length v) (skipn (k + 1) a) (depth + 1)) as [tr|e], (create_tree fuel (length v) (skipn (k + 1) b) (depth + 1)) as [tr'|e']; cbn [same_run bind] in R |- *; try exact R; try (destruct R; fail).
    constructor; assumption.
Qed.
Definition near_same (a b : Q * item nat) : Prop := times (s * s) (fst a) (fst b) /\ it_same (snd a) (snd b).
Lemma both_nearest p p' dist : moved s v p p' -> forall t t', tree_same t t' -> forall best best', Forall2 near_same best best' ->
  Forall2 near_same (nearest_nodes p dist (dist * dist) t best) (nearest_nodes p' (s * dist) (s * dist * (s * dist)) t' best').
Proof.
  intros Hp. induction 1 as [|l l' x x' d r r' Hl IHl Hx Hd Hr IHr]; intros best best' B; cbn [nearest_nodes]; [exact B|].
  assert (E1 : Qle_bool (coord (pt x') d - s * dist) (coord p' d) = Qle_bool (coord (pt x) d - dist) (coord p d)).
  { destruct Hx as (_ & _ & _ & X). destruct Hp as (_ & _ & Y). apply Bool.eq_iff_eq_true. rewrite !Qle_bool_iff, (X d Hd), (Y d Hd). split; intro; nra. }
  assert (E2 : Qltb (coord p' d) (coord (pt x') d + s * dist) = Qltb (coord p d) (coord (pt x) d + dist)).
  { unfold Qltb. f_equal. destruct Hx as (_ & _ & _ & X). destruct Hp as (_ & _ & Y). apply Bool.eq_iff_eq_true. rewrite !Qle_bool_iff, (X d Hd), (Y d Hd). split; intro; nra. }
  assert (E3 : times (s * s) (sqdist p (pt x)) (sqdist p' (pt x'))) by (apply (moved_sqdist s v); [exact Hp|apply Hx]).
  assert (E4 : Qle_bool (sqdist p' (pt x')) (s * dist * (s * dist)) = Qle_bool (sqdist p (pt x)) (dist * dist)) by (apply (scale_leb (s * s) ltac:(nra)); [exact E3|ring]).
  rewrite E1, E2, E4.
  assert (B1 : Forall2 near_same (match r with KLeaf => best | _ => if Qle_bool (coord (pt x) d - dist) (coord p d) then nearest_nodes p dist (dist * dist) r best else best end)
                                 (match r' with KLeaf => best' | _ => if Qle_bool (coord (pt x) d - dist) (coord p d) then nearest_nodes p' (s * dist) (s * dist * (s * dist)) r' best' else best' end)).
  { destruct Hr; [exact B|]. destruct (Qle_bool (coord (pt x) d - dist) (coord p d)); [apply IHr; exact B|exact B]. }
  set (b1 := match r with KLeaf => best | _ => _ end) in *. set (b1' := match r' with KLeaf => best' | _ => _ end) in *. clearbody b1 b1'.
  assert (B2 : Forall2 near_same (match l with KLeaf => b1 | _ => if Qltb (coord p d) (coord (pt x) d + dist) then nearest_nodes p dist (dist * dist) l b1 else b1 end)
                                 (match l' with KLeaf => b1' | _ => if Qltb (coord p d) (coord (pt x) d + dist) then nearest_nodes p' (s * dist) (s * dist * (s * dist)) l' b1' else b1' end)).
  { destruct Hl; [exact B1|]. destruct (Qltb (coord p d) (coord (pt x) d + dist)); [apply IHl; exact B1|exact B1]. }
  set (b2 := match l with KLeaf => b1 | _ => _ end) in *. set (b2' := match l' with KLeaf => b1' | _ => _ end) in *. clearbody b2 b2'.
  destruct (Qle_bool (sqdist p (pt x)) (dist * dist)); [|exact B2]. apply Forall2_app; [exact B2|]. constructor; [|constructor]. split; [exact E3|exact Hx].
Qed.
Lemma both_indexed data data' : Forall2 (moved s v) data data' -> Forall2 it_same (indexed data) (indexed data').
Proof.
  intro H. unfold indexed. rewrite (both_length _ _ _ H). generalize 0 at 1 2 as k. induction H as [|p q l l' Hp Hl IH]; intro k; cbn [length seq combine map]; [constructor|]. constructor; [split; [reflexivity|exact Hp]|apply IH].
Qed.
Lemma both_points k k' data data' eps i : Forall2 (moved s v) data data' -> i < length data -> tree_same (root k) (root k') ->
  Forall2 (nb_same (s * s)) (neighbors_points k data eps i) (neighbors_points k' data' (s * eps) i).
Proof.
  intros H Hi T. unfold neighbors_points. assert (N : Forall2 near_same (find_nearest_dist_nodes k (nth i data []) eps) (find_nearest_dist_nodes k' (nth i data' []) (s * eps))).
  { unfold find_nearest_dist_nodes. pose proof (both_nearest _ _ eps (nth_moved s v data data' H i Hi) _ _ T [] [] (Forall2_nil _)) as W. destruct T; [constructor|exact W]. }
  induction N as [|a b l l' Hab Hl IH]; cbn [filter map]; [constructor|]. destruct Hab as (A & B & C0). rewrite B. destruct (negb (pl (snd a) =? i)); [|exact IH]. cbn [map]. constructor; [|exact IH]. split; [exact B|exact A].
Qed.
End Points.

(** the objects keep squares of distances in the model of the branch for points *)
Theorem C274_points s v data data' eps minpts : (0 < s)%Q -> Forall2 (moved s v) data data' -> same_run (same_outcome (s * s)) (optics_points data eps minpts) (optics_points data' (s * eps) minpts).
Proof.
  intros Hs H. assert (P : (0 < s * s)%Q) by nra. unfold optics_points. pose proof (both_length _ _ _ H) as L. unfold point in *. rewrite L, (scale_ltb0 s Hs eps (s * eps) ltac:(reflexivity)). destruct (Nat.eqb_spec (length data) 0) as [|Hn]; [reflexivity|]. destruct (Qltb eps 0); [reflexivity|].
  pose proof (both_indexed s v data data' H) as X. pose proof (both_length _ _ _ X) as LX. unfold build.
  destruct X as [|x x' t t' Hx Ht]; [reflexivity|]. assert (X : Forall2 (it_same s v) (x :: t) (x' :: t')) by (constructor; assumption).
  destruct Hx as (_ & D1 & D2 & _). rewrite D1, D2. rewrite LX. pose proof (both_create s v Hs (length (x :: t)) _ _ 0 X) as T.
  destruct (create_tree (length (x :: t)) (length v) (x :: t) 0) as [tr|e], (create_tree (length (x :: t)) (length v) (x' :: t') 0) as [tr'|e']; cbn [same_run bind] in T |- *; try exact T; try (destruct T; fail).
  apply (both_allocate (s * s) P); [|unfold times; ring]. intros i Hi. apply (both_points s v Hs); assumption.
Qed.
Print Assumptions C274_points.

(** ** concrete cases: two groups and a single point; the unit is three times smaller and the origin is elsewhere *)
Definition pts : list point := [[0; 0]; [0; 1]; [1; 1]; [10; 0]; [10; 1]; [11; 0]; [30; 30]]%Q.
Definition pts' : list point := map (fun p => [3 * coord p 0 + 5; 3 * coord p 1 + (-7)]%Q) pts.
Lemma pts_moved : Forall2 (moved 3 [5; -7]%Q) pts pts'.
Proof. unfold pts', pts. cbn [map]. repeat (constructor; [split; [reflexivity|split; [reflexivity|]]; intros [|[|d]] Hd; [reflexivity|reflexivity|cbn in Hd; lia]|]). constructor. Qed.
Definition found (r : res outcome) : option (list (list nat) * list nat) := match r with Ok o => Some (r_clusters o, r_noise o) | Raise _ => None end.
Example C274_points_case : same_run (same_outcome (3 * 3)) (optics_points pts (3 # 2) 2) (optics_points pts' (3 * (3 # 2)) 2) /\ found (optics_points pts (3 # 2) 2) = Some ([[0; 1; 2]; [3; 5; 4]], [6]).
Proof. split; [apply (C274_points 3 [5; -7]%Q); [reflexivity|exact pts_moved]|vm_compute; reflexivity]. Qed.
Definition dists (k : Q) : list (list Q) := map (fun a => map (fun b => k * Qabs (a - b))%Q [0; 1; 2; 10; 11; 13]%Q) [0; 1; 2; 10; 11; 13]%Q.
Lemma dists_same k : same_matrix k (dists 1) (dists k).
Proof. unfold same_matrix, same_ordering, dists. cbn [map]. repeat (constructor; [repeat (constructor; [ring|]); constructor|]). constructor. Qed.
(** a radius of 20 gives one cluster, two are requested *)
Definition found_matrix (r : res (outcome * Q * list Q)) : option (list (list nat)) := match r with Ok (o, _, _) => Some (r_clusters o) | Raise _ => None end.
Example C274_matrix_case : same_run (same_matrix_run 3) (optics_matrix (dists 1) 20 1 (Some 2%Z)) (optics_matrix (dists 3) (3 * 20) 1 (Some 2%Z)) /\ found_matrix (optics_matrix (dists 1) 20 1 (Some 2%Z)) = Some [[0; 1; 2]; [3; 4; 5]].
Proof. split; [apply C274_matrix; [reflexivity|apply dists_same]|vm_compute; reflexivity]. Qed.
(** the radius is a length: left as it is, another unit gives other clusters *)
Theorem C274_radius_refuted : exists data data' eps, Forall2 (moved 3 [5; -7]%Q) data data' /\ exists r r', found (optics_points data eps 2) = Some r /\ found (optics_points data' eps 2) = Some r' /\ r' <> r.
Proof. exists pts, pts', (3 # 2). split; [exact pts_moved|]. exists ([[0; 1; 2]; [3; 5; 4]], [6]), ([], [0; 1; 2; 3; 4; 5; 6]). split; [vm_compute; reflexivity|]. split; [vm_compute; reflexivity|discriminate]. Qed.
Print Assumptions C274_radius_refuted.
