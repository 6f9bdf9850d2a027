(** CURE: specification and proofs. *)
From Verif Require Import Base Kmeans_Model Kmeans_Proofs Kmedoids_Proofs Kd_Model Kd_Proofs Cure_Model.

(** * Specification *)
(** a representative is a point of the cluster moved towards the mean *)
Definition shrunk (dim : nat) (compression : Q) (pts : list point) (mean r : point) : Prop :=
  length r = dim /\ exists p, In p pts /\ forall d, d < dim -> (coord r d == coord p d + compression * (coord mean d - coord p d))%Q.

(** * Helpers *)
Definition count (p : point) (c : nat) (l : list (item nat)) : nat := length (filter (rule_payload Nat.eqb p c) l).
Definition cnt (p : point) (ps : list point) : nat := length (filter (fun x => peqb x p) ps).

Lemma count_cons p c x l : count p c (x :: l) = (if peqb (pt x) p && (pl x =? c) then 1 else 0) + count p c l.
Proof. unfold count, rule_payload. simpl. destruct (peqb (pt x) p && (pl x =? c)); reflexivity. Qed.

Lemma count_perm p c l l' : Permutation l l' -> count p c l = count p c l'.
Proof. intros H. unfold count. apply Permutation_length, filter_perm, H. Qed.

Lemma count_app p c l l' : count p c (l ++ l') = count p c l + count p c l'.
Proof. unfold count. rewrite filter_app, app_length. reflexivity. Qed.

Lemma peqb_refl p : peqb p p = true.
Proof. apply peqb_true. unfold peq. induction p; constructor; auto. reflexivity. Qed.

Lemma peqb_congr a b p : peq a b -> peqb a p = peqb b p.
Proof.
  intros H. destruct (peqb a p) eqn:E1, (peqb b p) eqn:E2; auto.
  - apply peqb_true in E1. assert (peq b p) by (eapply peq_trans; [apply peq_sym; eauto|auto]). apply peqb_true in H0. congruence.
  - apply peqb_true in E2. assert (peq a p) by (eapply peq_trans; eauto). apply peqb_true in H0. congruence.
Qed.

Lemma count_pos p c l : 0 < count p c l <-> exists x, In x l /\ rule_payload Nat.eqb p c x = true.
Proof.
  unfold count. split.
  - intros H. destruct (filter _ l) as [|x t] eqn:E; [simpl in H; lia|]. exists x. apply filter_In. rewrite E. left; auto.
  - intros [x H]. apply filter_In in H. destruct (filter _ l); [contradiction|simpl; lia].
Qed.

Section Tree.
Variable D : nat.
Hypothesis HD : 0 < D.

Lemma delete_spec ps : forall k l c, good D k l -> (forall p, count p c l = cnt p ps) ->
  exists k' l', delete_points k ps c = Ok k' /\ good D k' l' /\ (forall p q, q <> c -> count p q l' = count p q l) /\ (forall p, count p c l' = 0).
Proof.
  induction ps as [|p ps IH]; intros k l c Hg Hc; cbn [delete_points].
  - exists k, l. repeat (split; [auto|]). exact Hc.
  - unfold remove_payload. destruct (remove_rule_good D HD (rule_payload Nat.eqb p c) k l p Hg (rule_payload_at Nat.eqb p c)) as [(x & k1 & l1 & Hr & Hp & E & G)|[Hno _]].
    + rewrite E. cbn [bind]. unfold rule_payload in Hr. apply andb_true_iff in Hr as [Hx Hq]. apply peqb_true in Hx. apply Nat.eqb_eq in Hq.
      destruct (IH k1 l1 c G) as (k' & l' & E' & G' & H1 & H2).
      * intros p'. specialize (Hc p'). rewrite (count_perm _ _ _ _ Hp), count_cons, Hq, Nat.eqb_refl, andb_true_r, (peqb_congr _ _ p' Hx) in Hc.
        unfold cnt in *. simpl in Hc. destruct (peqb p p'); simpl in Hc; lia.
      * exists k', l'. split; auto. split; auto. split; auto. intros p' q Hqc. rewrite H1 by auto. rewrite (count_perm _ _ _ _ Hp), count_cons, Hq.
        destruct (Nat.eqb_spec c q); [congruence|]. rewrite andb_false_r. reflexivity.
    + exfalso. specialize (Hc p). assert (Hpos : 0 < count p c l). { rewrite Hc. unfold cnt. simpl. rewrite peqb_refl. simpl. lia. }
      apply count_pos in Hpos as (x & Hin & Hr). rewrite (Hno x Hin) in Hr. discriminate.
Qed.

Lemma insert_points_spec ps : forall k l c, good D k l -> Forall (fun p => length p = D) ps ->
  exists l', good D (insert_points k ps c) l' /\ forall p q, count p q l' = count p q l + (if q =? c then cnt p ps else 0).
Proof.
  induction ps as [|p ps IH]; intros k l c Hg Hd; unfold insert_points; cbn [fold_left].
  - exists l. split; auto. intros. destruct (q =? c); unfold cnt; simpl; lia.
  - pose proof (Forall_inv Hd) as Hp. pose proof (Forall_inv_tail Hd) as Hps. cbn beta in Hp. destruct (IH _ _ c (insert_good D HD k l (mkItem p c) Hg Hp) Hps) as (l' & G & H).
    exists l'. split; [exact G|]. intros p' q. rewrite H, count_cons. cbn [pt pl]. rewrite (Nat.eqb_sym c q). unfold cnt. simpl.
    destruct (q =? c), (peqb p p'); simpl; lia.
Qed.

Lemma nearest_sound (p : point) (s : Q) (t : tree nat) : forall best d x, In (d, x) (nearest_nodes_sq p s t best) -> In (d, x) best \/ In x (elements t).
Proof.
  induction t as [|l IHl y dd r IHr]; intros best d x H; cbn [nearest_nodes_sq] in H; auto. cbn [elements]. rewrite in_app_iff. simpl.
  set (b1 := match r with KLeaf => best | _ => _ end) in H. set (b2 := match l with KLeaf => b1 | _ => _ end) in H.
  assert (H1 : In (d, x) b1 -> In (d, x) best \/ In x (elements r)).
  { unfold b1. destruct r; auto. destruct (le_root _ _); auto. }
  assert (H2 : In (d, x) b2 -> In (d, x) b1 \/ In x (elements l)).
  { unfold b2. destruct l; auto. destruct (lt_root _ _); auto. }
  destruct (Qle_bool (sqdist p (pt y)) s).
  - apply in_app_iff in H as [H|[E|[]]]; [|injection E as <- <-; auto]. apply H2 in H as [H|H]; auto. apply H1 in H as [H|H]; auto.
  - apply H2 in H as [H|H]; auto. apply H1 in H as [H|H]; auto.
Qed.

Lemma closest_sound k c rep s c' d : closest_cluster k c rep s = (Some c', d) -> c' <> c /\ exists x, In x (elements (root k)) /\ pl x = c'.
Proof.
  unfold closest_cluster. set (Good := fun acc : option nat * option Q => forall c', fst acc = Some c' -> c' <> c /\ exists x, In x (elements (root k)) /\ pl x = c').
  assert (Hin : forall L acc, (forall y, In y L -> In (snd y) (elements (root k))) -> Good acc ->
    Good (fold_left (fun acc cand => if olt (Some (fst cand)) (snd acc) && negb (pl (snd cand) =? c) then (Some (pl (snd cand)), Some (fst cand)) else acc) L acc)).
  { induction L as [|y L IH]; intros acc HL Hg; cbn [fold_left]; auto. apply IH; [intros; apply HL; right; auto|].
    destruct (olt _ _ && negb _) eqn:E; auto. intros c0 E0. cbn [fst] in E0. injection E0 as <-. apply andb_true_iff in E as [_ E]. apply negb_true_iff, Nat.eqb_neq in E.
    split; auto. exists (snd y). split; auto. apply HL. left; auto. }
  assert (Hout : forall L acc, Good acc -> Good (fold_left (fun acc p => fold_left (fun acc cand => if olt (Some (fst cand)) (snd acc) && negb (pl (snd cand) =? c) then (Some (pl (snd cand)), Some (fst cand)) else acc) (nearest_nodes_sq p s (root k) []) acc) L acc)).
  { induction L as [|p L IH]; intros acc Hg; cbn [fold_left]; auto. apply IH. apply Hin; auto. intros [dd x] Hy. apply nearest_sound in Hy as [[]|Hy]. exact Hy. }
  intros E. assert (G : Good (Some c', d)). { rewrite <- E. apply Hout. intros c0 E0. discriminate. }
  apply G. reflexivity.
Qed.
End Tree.

Lemma remove_first_spec x l : In x l -> exists l', remove_first x l = Ok l' /\ Permutation l (x :: l').
Proof.
  induction l as [|y t IH]; intros H; [contradiction|]. simpl. destruct (Nat.eqb_spec y x) as [->|Hn]; [eauto|].
  destruct H as [->|H]; [congruence|]. destruct (IH H) as (l' & E & P). rewrite E. cbn [bind]. eexists. split; eauto. rewrite P. apply perm_swap.
Qed.

Lemma insert_cluster_perm h c q : Permutation (insert_cluster h c q) (c :: q).
Proof.
  induction q as [|x t IH]; simpl; auto. destruct (olt _ _); auto. rewrite IH. apply perm_swap.
Qed.

Lemma relocate_all_spec h cs : forall q, (forall c, In c cs -> In c q) -> exists q', relocate_all h q cs = Ok q' /\ Permutation q q'.
Proof.
  induction cs as [|c cs IH]; intros q H; cbn [relocate_all]; [eauto|].
  destruct (remove_first_spec c q ltac:(apply H; left; auto)) as (q1 & E & P). unfold relocate_cluster. rewrite E. cbn [bind].
  assert (P' : Permutation q (insert_cluster h c q1)) by (rewrite insert_cluster_perm; auto).
  destruct (IH (insert_cluster h c q1)) as (q' & E' & P'').
  - intros x Hx. apply (Permutation_in _ P'). apply H. right; auto.
  - exists q'. split; auto. rewrite P'. exact P''.
Qed.

(** * Objects *)
Section Objects.
Variable data : list point.
Variable NR : nat.
Variable compression : Q.
Hypothesis HNR : 1 <= NR.
Notation D := (dimension data).
Hypothesis HD : 0 < D.
Hypothesis Hdim : uniform D data.

Record oinv (c : ccl) : Prop := {
  o_idx : cidx c <> [];
  o_range : forall i, In i (cidx c) -> i < length data;
  o_pts : cpts c = map (fun i => nth i data []) (cidx c);
  o_mean : is_mean D (cpts c) (cmean c);
  o_rep : crep c <> [];
  o_reps : length (crep c) <= NR;
  o_shrunk : Forall (shrunk D compression (cpts c) (cmean c)) (crep c) }.

Lemma set_closest_oinv c a b : oinv c -> oinv (set_closest c a b).
Proof. intros [H1 H2 H3 H4 H5 H6]. constructor; auto. Qed.

Lemma singleton_oinv i : i < length data -> oinv (singleton data i).
Proof.
  intros Hi. assert (Hl : length (nth i data []) = D) by (apply Hdim, nth_In; auto). unfold singleton. constructor; cbn [cpts cidx cmean crep]; try discriminate; auto.
  - intros j [<-|[]]; auto.
  - split; auto. intros d Hd. simpl. ring.
  - constructor; auto. split; auto. exists (nth i data []). split; [left; auto|]. intros d Hd. ring.
Qed.

Lemma all_equal_spec l : all_equal l = true -> forall p, In p l -> peq p (nth 0 l []).
Proof.
  induction l as [|a [|b t] IH]; intros H p Hp; [contradiction| |].
  - destruct Hp as [<-|[]]. apply peqb_true, peqb_refl.
  - cbn [all_equal] in H. apply andb_true_iff in H as [H1 H2]. apply peqb_true in H1. destruct Hp as [<-|Hp]; [apply peqb_true, peqb_refl|].
    specialize (IH H2 p Hp). simpl in IH |- *. eapply peq_trans; eauto.
Qed.

Lemma qsum_const {A} (f : A -> Q) v l : (forall x, In x l -> (f x == v)%Q) -> (qsum (map f l) == inject_Z (Z.of_nat (length l)) * v)%Q.
Proof.
  induction l as [|x t IH]; intros H; [simpl; ring|]. cbn [map qsum length]. rewrite IH by (intros; apply H; right; auto). rewrite (H x ltac:(left; auto)).
  rewrite Nat2Z.inj_succ. unfold Z.succ. rewrite inject_Z_plus. ring.
Qed.

Lemma merged_mean_is c1 c2 : oinv c1 -> oinv c2 -> is_mean D (cpts c1 ++ cpts c2) (merged_mean c1 c2).
Proof.
  intros O1 O2. unfold merged_mean. destruct (all_equal (cpts c1 ++ cpts c2)) eqn:E.
  - set (pts := cpts c1 ++ cpts c2) in *.
    assert (Hin : In (nth 0 pts []) pts). { apply nth_In. unfold pts. rewrite (o_pts _ O1), app_length, map_length. pose proof (o_idx _ O1). destruct (cidx c1); [congruence|simpl; lia]. }
    split.
    + unfold pts in Hin. rewrite (o_pts _ O1), (o_pts _ O2), <- map_app in Hin. apply in_map_iff in Hin as (i & Ei & Hi). unfold pts. rewrite (o_pts _ O1), (o_pts _ O2), <- map_app, <- Ei.
      apply Hdim, nth_In. apply in_app_iff in Hi as [Hi|Hi]; [apply (o_range _ O1)|apply (o_range _ O2)]; auto.
    + intros d Hd. rewrite (qsum_const (fun p => coord p d) (coord (nth 0 pts []) d)); [reflexivity|]. intros p Hp. apply peq_coord, all_equal_spec; auto.
  - destruct (o_mean _ O1) as [L1 M1]. destruct (o_mean _ O2) as [L2 M2]. split; [rewrite map_length, seq_length; auto|]. intros d Hd.
    unfold coord at 1. rewrite L1. rewrite nth_map_seq0 by auto. rewrite map_app, qsum_app, <- M1, <- M2 by auto. rewrite app_length, Nat2Z.inj_add, inject_Z_plus.
    field. rewrite <- inject_Z_plus, <- Nat2Z.inj_add. rewrite (o_pts _ O1), map_length. pose proof (o_idx _ O1). destruct (cidx c1); [congruence|]. unfold Qeq. simpl. lia.
Qed.

Lemma farthest_some mean pts tmp : pts <> [] -> exists p, farthest_point mean pts tmp = Some p /\ In p pts.
Proof.
  intros Hne. unfold farthest_point. set (g := fun p : point => match tmp with [] => sqdist p mean | _ => match min_by (fun d => d) (map (fun q => sqdist p q) tmp) with Some d => d | None => 0%Q end end).
  assert (Hg : forall p, (0 <= g p)%Q).
  { intros p. unfold g. destruct tmp as [|q t]; [apply sqdist_nonneg|]. destruct (min_by _ _) as [d|] eqn:E; [|apply Qle_refl].
    apply min_by_spec in E as [H _]. apply in_map_iff in H as (r & <- & _). apply sqdist_nonneg. }
  assert (G : forall l acc, (forall p, In p l -> In p pts) -> (exists p, snd acc = Some p /\ In p pts) ->
    exists p, snd (fold_left (fun acc p => if Qle_bool (fst acc) (g p) then (g p, Some p) else acc) l acc) = Some p /\ In p pts).
  { induction l as [|a l IH]; intros acc Hl Ha; cbn [fold_left]; auto. apply IH; [intros; apply Hl; right; auto|].
    destruct (Qle_bool _ _); auto. exists a. split; auto. apply Hl. left; auto. }
  change (exists p, snd (fold_left (fun acc p => if Qle_bool (fst acc) (g p) then (g p, Some p) else acc) pts (0%Q, None)) = Some p /\ In p pts).
  clearbody g. destruct pts as [|a t]; [congruence|]. cbn [fold_left fst]. rewrite (proj2 (Qle_bool_iff 0 (g a)) (Hg a)). apply G; [intros; right; auto|]. exists a. split; auto. left; auto.
Qed.

Lemma choose_spec n mean pts : pts <> [] -> forall tmp, (forall p, In p tmp -> In p pts) ->
  (forall p, In p (choose_points n mean pts tmp) -> In p pts) /\ length (choose_points n mean pts tmp) <= n + length tmp /\
  (1 <= n \/ tmp <> [] -> choose_points n mean pts tmp <> []).
Proof.
  intros Hne. induction n as [|n IH]; intros tmp Ht; cbn [choose_points].
  - split; auto. split; [lia|]. intros [H|H]; auto. lia.
  - destruct (farthest_some mean pts tmp Hne) as (p & E & Hp). rewrite E. destruct (existsb _ tmp) eqn:Ex.
    + destruct (IH tmp Ht) as (A & B & C). split; auto. split; [lia|]. intros _. apply C. right. intros ->. discriminate.
    + destruct (IH (tmp ++ [p])) as (A & B & C).
      * intros q Hq. apply in_app_iff in Hq as [Hq|[<-|[]]]; auto.
      * split; auto. rewrite app_length in B. simpl in B. split; [lia|]. intros _. apply C. right. destruct tmp; discriminate.
Qed.

Lemma merge_oinv c1 c2 : oinv c1 -> oinv c2 -> oinv (merge_clusters NR compression c1 c2).
Proof.
  intros O1 O2. pose proof (merged_mean_is c1 c2 O1 O2) as Hm. unfold merge_clusters.
  assert (Hne : cpts c1 ++ cpts c2 <> []). { rewrite (o_pts _ O1). pose proof (o_idx _ O1). destruct (cidx c1); [congruence|discriminate]. }
  destruct (choose_spec NR (merged_mean c1 c2) (cpts c1 ++ cpts c2) Hne [] ltac:(intros p [])) as (A & B & C). simpl in B.
  constructor; cbn [cpts cidx cmean crep].
  - pose proof (o_idx _ O1). destruct (cidx c1); [congruence|discriminate].
  - intros i Hi. apply in_app_iff in Hi as [Hi|Hi]; [apply (o_range _ O1)|apply (o_range _ O2)]; auto.
  - rewrite (o_pts _ O1), (o_pts _ O2), map_app. reflexivity.
  - exact Hm.
  - intros E. apply map_eq_nil in E. apply C in E; auto.
  - rewrite map_length. lia.
  - rewrite Forall_forall. intros r Hr. apply in_map_iff in Hr as (p & <- & Hp). destruct Hm as [Lm _]. split; [unfold shrink; rewrite map_length, seq_length; auto|].
    exists p. split; auto. intros d Hd. unfold shrink, coord at 1. rewrite nth_map_seq0 by lia. reflexivity.
Qed.

(** * The loop over the queue *)
Definition same_obj (a b : ccl) : Prop := cpts a = cpts b /\ cidx a = cidx b /\ cmean a = cmean b /\ crep a = crep b.

Lemma same_oinv a b : same_obj a b -> oinv a -> oinv b.
Proof. intros (E1 & E2 & E3 & E4) [H1 H2 H3 H4 H5 H6]. constructor; rewrite <- ?E1, <- ?E2, <- ?E3, <- ?E4; auto. Qed.

Definition gone (o : option nat) (c1 c2 : nat) : Prop := o = Some c1 \/ o = Some c2.

Lemma items_loop_spec k merged c1 c2 m live : (forall x, In x (elements (root k)) -> In (pl x) live) -> In m live ->
  forall q h mc md req, NoDup q -> (forall i, In i q -> i < length h /\ i <> m) ->
  let '(h', mc', md', req') := items_loop k merged c1 c2 m q h mc md req in
    length h' = length h /\ (forall i, same_obj (obj h i) (obj h' i)) /\
    (forall i, ~ In i q -> obj h' i = obj h i) /\
    (forall i, In i q -> (~ gone (cclosest (obj h i)) c1 c2 /\ obj h' i = obj h i) \/ (exists c, cclosest (obj h' i) = Some c /\ In c live /\ c <> i)) /\
    (mc' = mc \/ exists i, In i q /\ mc' = Some i) /\
    (forall i, In i req' -> In i req \/ In i q).
Proof.
  intros Hk Hm. induction q as [|it q IH]; intros h mc md req Hnd Hq; cbn [items_loop].
  - split; [auto|]. split; [intros; repeat split; auto|]. split; [auto|]. split; [intros i []|]. split; [auto|auto].
  - inversion Hnd as [|? ? Hni Hnd']; subst. destruct (Hq it ltac:(left; auto)) as [Hlt Hitm].
    set (dst := cluster_distance merged (obj h it)). set (mm := if olt dst md then (Some it, dst) else (mc, md)).
    assert (Emm : fst mm = mc \/ fst mm = Some it) by (unfold mm; destruct (olt dst md); auto). destruct mm as [mc1 md1]. cbn [fst] in Emm.
    destruct (item_update k h c1 c2 m it dst) as [[cl d]|] eqn:Eu.
    + assert (Hcl : exists c, cl = Some c /\ In c live /\ c <> it).
      { unfold item_update in Eu. destruct (_ || _); [|discriminate]. destruct (olt (cdist (obj h it)) dst).
        - destruct dst as [s|]; [|injection Eu as <- <-; eauto]. destruct (closest_cluster k it (crep (obj h it)) s) as [[c|] d0] eqn:Ec.
          + injection Eu as <- <-. apply closest_sound in Ec as [H1 (x & H2 & <-)]. exists (pl x). split; auto.
          + injection Eu as <- <-. eauto.
        - injection Eu as <- <-. eauto. }
      specialize (IH (upd h it (set_closest (obj h it) cl d)) mc1 md1 (req ++ [it]) Hnd').
      destruct (items_loop k merged c1 c2 m q _ mc1 md1 (req ++ [it])) as [[[h' mc'] md'] req'].
      destruct IH as (L & S & O & I & MC & R).
      { intros i Hi. rewrite upd_length. apply Hq. right; auto. }
      rewrite upd_length in L.
      assert (Hobj : forall i, i <> it -> obj (upd h it (set_closest (obj h it) cl d)) i = obj h i) by (intros i Hi; unfold obj; apply upd_nth_neq; auto).
      assert (Hit : obj (upd h it (set_closest (obj h it) cl d)) it = set_closest (obj h it) cl d) by (unfold obj; rewrite upd_nth_eq; auto).
      split; [exact L|]. split; [|split; [|split; [|split]]].
      * intros i. destruct (Nat.eq_dec i it) as [->|Hn]; [|rewrite <- (Hobj i Hn); apply S]. specialize (S it). rewrite Hit in S. exact S.
      * intros i Hi. rewrite O by (intros H; apply Hi; right; auto). apply Hobj. intros ->. apply Hi. left; auto.
      * intros i [<-|Hi].
        -- right. rewrite O by auto. rewrite Hit. cbn [set_closest cclosest]. exact Hcl.
        -- assert (Hn : i <> it) by (intros ->; auto). specialize (I i Hi). rewrite (Hobj i Hn) in I. exact I.
      * destruct MC as [->|(i & Hi & ->)]; [destruct Emm as [->| ->]; [auto|right; exists it; split; [left|]; auto]|right; exists i; split; [right|]; auto].
      * intros i Hi. apply R in Hi as [Hi|Hi]; [apply in_app_iff in Hi as [Hi|[<-|[]]]; [auto|right; left; auto]|right; right; auto].
    + specialize (IH h mc1 md1 req Hnd' ltac:(intros i Hi; apply Hq; right; auto)).
      destruct (items_loop k merged c1 c2 m q h mc1 md1 req) as [[[h' mc'] md'] req']. destruct IH as (L & S & O & I & MC & R).
      split; [exact L|]. split; [exact S|]. split; [|split; [|split]].
      * intros i Hi. apply O. intros H; apply Hi; right; auto.
      * intros i [<-|Hi]; [|auto]. left. split; [|apply O; auto]. unfold item_update in Eu. destruct (is_obj (cclosest (obj h it)) c1 || is_obj (cclosest (obj h it)) c2) eqn:Eo.
        -- destruct (olt _ _); [|discriminate]. destruct dst; [|discriminate]. destruct (closest_cluster _ _ _ _) as [[|] ?]; discriminate.
        -- apply orb_false_iff in Eo as [E1 E2]. intros [Hg|Hg]; rewrite Hg in E1, E2; simpl in *; rewrite Nat.eqb_refl in *; discriminate.
      * destruct MC as [->|(i & Hi & ->)]; [destruct Emm as [->| ->]; [auto|right; exists it; split; [left|]; auto]|right; exists i; split; [right|]; auto].
      * intros i Hi. apply R in Hi as [Hi|Hi]; auto. right; right; auto.
Qed.

(** * State *)
Definition tinv (h : list ccl) (q : list nat) (l : list (item nat)) : Prop :=
  forall p c, count p c l = if existsb (Nat.eqb c) q then cnt p (crep (obj h c)) else 0.

Record sinv (s : cst) : Prop := {
  s_nodup : NoDup (queue s);
  s_obj : forall i, In i (queue s) -> i < length (heap s) /\ oinv (obj (heap s) i);
  s_part : Permutation (concat (clusters s)) (seq 0 (length data));
  s_tree : exists l, good D (ctree s) l /\ tinv (heap s) (queue s) l;
  s_closest : 2 <= length (queue s) -> forall i, In i (queue s) -> exists c, cclosest (obj (heap s) i) = Some c /\ In c (queue s) /\ c <> i }.

Lemma existsb_eqb c q : existsb (Nat.eqb c) q = true <-> In c q.
Proof. rewrite existsb_exists. split; [intros (x & Hx & E); apply Nat.eqb_eq in E; subst; auto|intros H; exists c; split; auto; apply Nat.eqb_refl]. Qed.

Lemma tinv_in h q l x : tinv h q l -> In x l -> In (pl x) q.
Proof.
  intros H Hx. specialize (H (pt x) (pl x)). assert (0 < count (pt x) (pl x) l). { apply count_pos. exists x. split; auto. unfold rule_payload. rewrite peqb_refl, Nat.eqb_refl. reflexivity. }
  destruct (existsb (Nat.eqb (pl x)) q) eqn:E; [apply existsb_eqb; auto|lia].
Qed.

Lemma obj_app h x i : i < length h -> obj (h ++ [x]) i = obj h i.
Proof. intros H. unfold obj. apply app_nth1. auto. Qed.
Lemma obj_last h x : obj (h ++ [x]) (length h) = x.
Proof. unfold obj. rewrite app_nth2, Nat.sub_diag by lia. reflexivity. Qed.

Lemma step_spec s : sinv s -> 2 <= length (queue s) ->
  exists s', cure_step NR compression s = Ok s' /\ sinv s' /\ S (length (queue s')) = length (queue s).
Proof.
  intros HI Hlen. unfold cure_step. destruct (queue s) as [|c1 q1] eqn:Eq; [simpl in Hlen; lia|]. rewrite <- Eq.
  assert (Hc1 : In c1 (queue s)) by (rewrite Eq; left; auto).
  destruct (s_closest s HI ltac:(rewrite Eq; auto) c1 Hc1) as (c2 & Ecl & Hc2 & Hne). rewrite Ecl.
  rewrite Eq. cbn [remove_first]. rewrite Nat.eqb_refl. cbn [bind].
  assert (Hc2' : In c2 q1) by (rewrite Eq in Hc2; destruct Hc2; [congruence|auto]).
  destruct (remove_first_spec c2 q1 Hc2') as (q2 & E2 & P2). rewrite E2. cbn [bind].
  assert (Pq : Permutation (queue s) (c1 :: c2 :: q2)) by (rewrite Eq; constructor; auto).
  pose proof (Permutation_NoDup Pq (s_nodup s HI)) as Hnd. inversion Hnd as [|? ? N1 Hnd1]; subst. inversion Hnd1 as [|? ? N2 Hnd2]; subst.
  assert (Hq2 : forall i, In i q2 -> In i (queue s)) by (intros i Hi; apply (Permutation_in _ (Permutation_sym Pq)); right; right; auto).
  destruct (s_obj s HI c1 Hc1) as [L1 O1]. destruct (s_obj s HI c2 Hc2) as [L2 O2].
  destruct (s_tree s HI) as (l & G & T).
  destruct (delete_spec D HD (crep (obj (heap s) c1)) (ctree s) l c1 G) as (t1 & l1 & E1 & G1 & A1 & B1).
  { intros p. rewrite (T p c1). rewrite (proj2 (existsb_eqb c1 (queue s)) Hc1). reflexivity. }
  rewrite E1. cbn [bind].
  destruct (delete_spec D HD (crep (obj (heap s) c2)) t1 l1 c2 G1) as (t2 & l2 & E3 & G2 & A2 & B2).
  { intros p. rewrite A1 by auto. rewrite (T p c2). rewrite (proj2 (existsb_eqb c2 (queue s)) Hc2). reflexivity. }
  rewrite E3. cbn [bind].
  set (merged := merge_clusters NR compression (obj (heap s) c1) (obj (heap s) c2)). set (m := length (heap s)).
  pose proof (merge_oinv _ _ O1 O2) as Om. fold merged in Om.
  destruct (insert_points_spec D HD (crep merged) t2 l2 m G2) as (l3 & G3 & C3).
  { eapply Forall_impl; [|exact (o_shrunk _ Om)]. intros r [Hr _]. exact Hr. }
  set (t3 := insert_points t2 (crep merged) m) in *.
  assert (Hm : forall i, In i (queue s) -> i <> m) by (intros i Hi; apply (s_obj s HI) in Hi as [Hi _]; unfold m; lia).
  (* the tree holds the representatives of the queue without c1, c2 and of m *)
  assert (T3 : forall p c, count p c l3 = if c =? m then cnt p (crep merged) else if existsb (Nat.eqb c) q2 then cnt p (crep (obj (heap s) c)) else 0).
  { intros p c. rewrite C3. destruct (Nat.eqb_spec c m) as [->|Hcm].
    - rewrite A2, A1 by (intros H; symmetry in H; revert H; apply Hm; auto). rewrite T. destruct (existsb (Nat.eqb m) (queue s)) eqn:E; [|lia]. apply existsb_eqb in E. apply Hm in E. congruence.
    - rewrite Nat.add_0_r. destruct (Nat.eq_dec c c2) as [->|Hc]; [rewrite B2; destruct (existsb (Nat.eqb c2) q2) eqn:E; auto; apply existsb_eqb in E; contradiction|].
      rewrite A2 by auto. destruct (Nat.eq_dec c c1) as [->|Hc']; [rewrite B1; destruct (existsb (Nat.eqb c1) q2) eqn:E; auto; apply existsb_eqb in E; exfalso; apply N1; right; auto|].
      rewrite A1, T by auto. destruct (existsb (Nat.eqb c) q2) eqn:E.
      + apply existsb_eqb in E. rewrite (proj2 (existsb_eqb c (queue s))); auto.
      + destruct (existsb (Nat.eqb c) (queue s)) eqn:E'; auto. apply existsb_eqb in E'. apply (Permutation_in _ Pq) in E' as [->|[->|E']]; try congruence. apply existsb_eqb in E'. congruence. }
  assert (Hlive : forall x, In x (elements (root t3)) -> In (pl x) (m :: q2)).
  { intros x Hx. destruct G3 as (_ & _ & Pe & _). apply (Permutation_in _ Pe) in Hx. specialize (T3 (pt x) (pl x)).
    assert (0 < count (pt x) (pl x) l3) by (apply count_pos; exists x; split; auto; unfold rule_payload; rewrite peqb_refl, Nat.eqb_refl; reflexivity).
    destruct (Nat.eqb_spec (pl x) m); [left; auto|]. destruct (existsb (Nat.eqb (pl x)) q2) eqn:E; [right; apply existsb_eqb; auto|lia]. }
  set (IL := match q2 with [] => _ | x :: _ => _ end).
  assert (HIL : let '(h', mc', md', req') := IL in
    length h' = length (heap s) /\ (forall i, same_obj (obj (heap s) i) (obj h' i)) /\
    (forall i, In i q2 -> exists c, cclosest (obj h' i) = Some c /\ In c (m :: q2) /\ c <> i) /\
    (q2 <> [] -> exists i, In i q2 /\ mc' = Some i) /\ (forall i, In i req' -> In i q2)).
  { unfold IL. destruct q2 as [|x q2'] eqn:Eq2.
    - split; [auto|]. split; [intros; repeat split; auto|]. split; [intros i []|]. split; [congruence|intros i []].
    - rewrite <- Eq2 in *. pose proof (items_loop_spec t3 merged c1 c2 m (m :: q2) Hlive ltac:(left; auto) q2 (heap s) (Some x) (cluster_distance merged (obj (heap s) x)) [] Hnd2
        ltac:(intros i Hi; split; [apply (s_obj s HI); auto|auto])) as H.
      destruct (items_loop t3 merged c1 c2 m q2 (heap s) _ _ []) as [[[h' mc'] md'] req']. destruct H as (L & S & _ & I & MC & R).
      split; [exact L|]. split; [exact S|]. split; [|split].
      + intros i Hi. destruct (I i Hi) as [[Hng Hsame]|H]; auto. rewrite Hsame.
        destruct (s_closest s HI ltac:(rewrite Eq; auto) i (Hq2 i Hi)) as (c & Ec & Hc & Hci). exists c. split; auto. split; auto.
        apply (Permutation_in _ Pq) in Hc as [->|[->|Hc]]; [exfalso; apply Hng; left; auto|exfalso; apply Hng; right; auto|right; auto].
      + intros _. destruct MC as [->|H]; auto. exists x. split; auto. rewrite Eq2. left; auto.
      + intros i Hi. apply R in Hi as [[]|Hi]. auto. }
  destruct IL as [[[h' mc'] md'] req']. destruct HIL as (L & S & I & MC & R).
  set (H' := h' ++ [set_closest merged mc' md']).
  destruct (relocate_all_spec H' req' (insert_cluster H' m q2)) as (q3 & E4 & P4).
  { intros c Hc. apply (Permutation_in _ (Permutation_sym (insert_cluster_perm H' m q2))). right. auto. }
  rewrite E4. cbn [bind]. eexists. split; [reflexivity|].
  assert (P3 : Permutation q3 (m :: q2)) by (rewrite <- P4; apply insert_cluster_perm).
  assert (Om' : obj H' m = set_closest merged mc' md') by (unfold H', m; rewrite <- L; apply obj_last).
  assert (Oq : forall i, In i q2 -> obj H' i = obj h' i).
  { intros i Hi. apply obj_app. rewrite L. apply (s_obj s HI). auto. }
  assert (Hmq : ~ In m q2) by (intros H; apply Hq2, Hm in H; congruence).
  split.
  - constructor; cbn [queue heap ctree].
    + apply (Permutation_NoDup (Permutation_sym P3)). constructor; auto.
    + intros i Hi. apply (Permutation_in _ P3) in Hi as [<-|Hi].
      * split; [unfold H'; rewrite app_length, L; simpl; unfold m; lia|]. rewrite Om'. apply set_closest_oinv; auto.
      * split; [unfold H'; rewrite app_length, L; simpl; pose proof (proj1 (s_obj s HI i (Hq2 i Hi))); lia|]. rewrite Oq by auto. eapply same_oinv; [apply S|]. apply (s_obj s HI). auto.
    + apply Permutation_trans with (concat (clusters s)); [|apply (s_part s HI)]. unfold clusters. cbn [queue heap].
      rewrite <- !flat_map_concat_map. rewrite (Permutation_flat_map _ P3), (Permutation_flat_map _ Pq). cbn [flat_map]. rewrite Om'. cbn [set_closest cidx]. unfold merged, merge_clusters. cbn [cidx].
      rewrite <- app_assoc. apply Permutation_app_head, Permutation_app_head.
      assert (E : forall q, (forall i, In i q -> In i q2) -> flat_map (fun i => cidx (obj H' i)) q = flat_map (fun i => cidx (obj (heap s) i)) q).
      { induction q as [|i q IHq]; intros Hq; simpl; auto. rewrite IHq by (intros; apply Hq; right; auto). f_equal. rewrite Oq by (apply Hq; left; auto). destruct (S i) as (_ & Ei & _). auto. }
      rewrite E; auto.
    + exists l3. split; auto. intros p c. rewrite T3. assert (Ex : existsb (Nat.eqb c) q3 = existsb (Nat.eqb c) (m :: q2)).
      { destruct (existsb (Nat.eqb c) q3) eqn:Ea, (existsb (Nat.eqb c) (m :: q2)) eqn:Eb; auto.
        - apply existsb_eqb in Ea. apply (Permutation_in _ P3) in Ea. apply existsb_eqb in Ea. congruence.
        - apply existsb_eqb in Eb. apply (Permutation_in _ (Permutation_sym P3)) in Eb. apply existsb_eqb in Eb. congruence. }
      rewrite Ex. cbn [existsb]. destruct (Nat.eqb_spec c m) as [->|Hcm]; cbn [orb]; [rewrite Om'; reflexivity|].
      destruct (existsb (Nat.eqb c) q2) eqn:E; auto. apply existsb_eqb in E. rewrite Oq by auto. destruct (S c) as (_ & _ & _ & Er). rewrite Er. reflexivity.
    + intros Hl i Hi. apply (Permutation_in _ P3) in Hi as [<-|Hi].
      * rewrite Om'. cbn [set_closest cclosest]. destruct MC as (x & Hx & ->).
        { intros ->. apply Permutation_length in P3. simpl in P3. lia. }
        exists x. split; auto. split; [apply (Permutation_in _ (Permutation_sym P3)); right; auto|]. intros ->. auto.
      * rewrite Oq by auto. destruct (I i Hi) as (c & Ec & Hc & Hci). exists c. split; auto. split; auto. apply (Permutation_in _ (Permutation_sym P3)). auto.
  - cbn [queue]. rewrite <- Eq. apply Permutation_length in P3. apply Permutation_length in Pq. simpl in *. lia.
Qed.

Lemma loop_spec fuel number : 1 <= number -> forall s, sinv s -> length (queue s) <= fuel + number ->
  exists s', cure_loop NR compression fuel number s = Ok s' /\ sinv s' /\ length (queue s') = Nat.min (length (queue s)) number.
Proof.
  intros Hn. induction fuel as [|fuel IH]; intros s HI Hl; cbn [cure_loop].
  - destruct (Nat.ltb_spec number (length (queue s))); [lia|]. exists s. split; auto. split; auto. lia.
  - destruct (Nat.ltb_spec number (length (queue s))).
    + destruct (step_spec s HI ltac:(lia)) as (s1 & E1 & I1 & L1). rewrite E1. cbn [bind]. destruct (IH s1 I1 ltac:(lia)) as (s' & E & I & L). exists s'. split; auto. split; auto. lia.
    + exists s. split; auto. split; auto. lia.
Qed.

(** * The initial state *)
Lemma create_heap_obj i : i < length data -> exists a b, obj (create_heap data) i = set_closest (singleton data i) a b /\
  (2 <= length data -> exists c, a = Some c /\ c < length data /\ c <> i).
Proof.
  intros Hi. unfold create_heap. set (h := map (singleton data) (seq 0 (length data))).
  assert (Hl : length h = length data) by (unfold h; rewrite map_length, seq_length; auto).
  destruct (first_closest h i) as [a b] eqn:E. exists a, b. split.
  - unfold obj at 1. rewrite nth_map_seq0 by auto. rewrite E. f_equal. unfold obj, h. rewrite nth_map_seq0; auto.
  - intros Hn. unfold first_closest in E. rewrite Hl in E. destruct (min_by _ _) as [k|] eqn:Em.
    + injection E as <- <-. apply min_by_spec in Em as [Hin _]. apply filter_In in Hin as [H1 H2]. apply in_seq in H1. apply negb_true_iff, Nat.eqb_neq in H2. exists k. split; auto. split; auto. lia.
    + exfalso. apply min_by_none in Em. assert (Hin : In (if i =? 0 then 1 else 0) []); [|contradiction]. rewrite <- Em. apply filter_In.
      destruct (Nat.eqb_spec i 0); split; try (apply in_seq; lia); apply negb_true_iff, Nat.eqb_neq; lia.
Qed.

Lemma count_flat h q p c : NoDup q -> count p c (flat_map (rep_items h) q) = if existsb (Nat.eqb c) q then cnt p (crep (obj h c)) else 0.
Proof.
  assert (H1 : forall i, count p c (rep_items h i) = if c =? i then cnt p (crep (obj h i)) else 0).
  { intros i. unfold rep_items, cnt. induction (crep (obj h i)) as [|r t IH]; [destruct (c =? i); reflexivity|].
    cbn [map]. rewrite count_cons, IH. cbn [pt pl]. rewrite (Nat.eqb_sym i c). destruct (c =? i); [rewrite andb_true_r|rewrite andb_false_r]; auto. cbn [filter]. destruct (peqb r p); reflexivity. }
  induction 1 as [|i q Hi Hnd IH]; cbn [flat_map existsb]; auto. rewrite count_app, H1, IH. destruct (Nat.eqb_spec c i) as [->|Hn]; cbn [orb]; auto.
  destruct (existsb (Nat.eqb i) q) eqn:E; [apply existsb_eqb in E; contradiction|]. lia.
Qed.

Lemma queue_perm : Permutation (create_queue data) (seq 0 (length data)).
Proof. unfold create_queue. apply sort_key_perm. Qed.

Lemma initial_spec : data <> [] -> exists t, create_kdtree (create_heap data) (create_queue data) = Ok t /\ sinv (mkS (create_heap data) (create_queue data) t).
Proof.
  intros Hne. pose proof queue_perm as Pq.
  assert (Hin : forall i, In i (create_queue data) <-> i < length data).
  { intros i. split; [intros H; apply (Permutation_in _ Pq), in_seq in H; lia|intros H; apply (Permutation_in _ (Permutation_sym Pq)), in_seq; lia]. }
  assert (Hnd : NoDup (create_queue data)) by (apply (Permutation_NoDup (Permutation_sym Pq)), seq_NoDup).
  assert (Hlen : length (create_heap data) = length data) by (unfold create_heap; rewrite map_length, seq_length; auto).
  assert (Hobj : forall i, i < length data -> oinv (obj (create_heap data) i)).
  { intros i Hi. destruct (create_heap_obj i Hi) as (a & b & E & _). rewrite E. apply set_closest_oinv, singleton_oinv. auto. }
  assert (Hpos : 0 < length data) by (destruct data; [congruence|simpl; lia]).
  destruct (start_good D HD (Some (flat_map (rep_items (create_heap data)) (create_queue data)))) as (t & E & G).
  { split.
    - intros H. assert (Hi : In (mkItem (nth 0 (crep (obj (create_heap data) 0)) []) 0) (flat_map (rep_items (create_heap data)) (create_queue data))); [|rewrite H in Hi; contradiction].
      apply in_flat_map. exists 0. split; [apply Hin; auto|]. unfold rep_items. apply (in_map (fun p => mkItem p 0)). apply nth_In. pose proof (o_rep _ (Hobj 0 Hpos)). destruct (crep _); [congruence|simpl; lia].
    - rewrite Forall_forall. intros x Hx. apply in_flat_map in Hx as (i & Hi & Hx). apply Hin in Hi. unfold rep_items in Hx. apply in_map_iff in Hx as (p & <- & Hp). cbn [pt].
      pose proof (o_shrunk _ (Hobj i Hi)) as Hs. rewrite Forall_forall in Hs. apply (Hs p Hp). }
  exists t. split; [exact E|]. constructor; cbn [queue heap ctree].
  - exact Hnd.
  - intros i Hi. apply Hin in Hi. split; [rewrite Hlen; auto|auto].
  - unfold clusters. cbn [queue heap]. rewrite <- flat_map_concat_map. rewrite (Permutation_flat_map _ Pq).
    assert (Eq : forall q, (forall i, In i q -> i < length data) -> flat_map (fun i => cidx (obj (create_heap data) i)) q = q).
    { induction q as [|i q IH]; intros Hq; simpl; auto. rewrite IH by (intros; apply Hq; right; auto). destruct (create_heap_obj i ltac:(apply Hq; left; auto)) as (a & b & Eo & _). rewrite Eo. reflexivity. }
    rewrite Eq; [apply Permutation_refl|]. intros i Hi. apply in_seq in Hi. lia.
  - eexists. split; [exact G|]. intros p c. cbn [init_items]. apply count_flat. auto.
  - intros Hl i Hi. apply Hin in Hi. destruct (create_heap_obj i Hi) as (a & b & Eo & Hc). rewrite Eo. cbn [set_closest cclosest].
    destruct Hc as (c & -> & Hc1 & Hc2); [apply Permutation_length in Pq; rewrite seq_length in Pq; lia|]. exists c. split; auto. split; auto. apply Hin. auto.
Qed.

Theorem cure_spec number : data <> [] -> (0 <= compression)%Q -> 1 <= number ->
  exists s, cure data NR compression number = Ok s /\ sinv s /\ length (queue s) = Nat.min (length data) number.
Proof.
  intros Hne Hc Hn. unfold cure. destruct data as [|p0 t0] eqn:Ed; [congruence|]. rewrite <- Ed in *. clear Ed.
  destruct (Nat.eqb_spec number 0); [lia|]. destruct (Qltb compression 0) eqn:E; [apply Qltb_true in E; lra|]. destruct (Nat.eqb_spec NR 0); [lia|].
  destruct (initial_spec Hne) as (t & Et & I). rewrite Et. cbn [bind].
  assert (Hq : length (create_queue data) = length data) by (rewrite (Permutation_length queue_perm), seq_length; auto).
  destruct (loop_spec (length data) number Hn _ I) as (s & Es & Is & Ls); [cbn [queue]; lia|]. exists s. split; auto. split; auto. rewrite Ls. cbn [queue]. rewrite Hq. auto.
Qed.
End Objects.
