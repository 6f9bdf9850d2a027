(** C283: which neighbours the clusters of CURE record. *)
From Verif Require Import Base Kmeans_Model Kmeans_Proofs Kd_Model Kd_Proofs Cure_Model Cure_Proofs Cure_Props.
From Coq Require Import Lqa.
Local Open Scope nat_scope.

(** ** The search in the tree *)
Lemma keeps_best p s (t : tree nat) : forall best x, In x best -> In x (nearest_nodes_sq p s t best).
Proof.
  induction t as [|l IHl y d r IHr]; intros best x H; cbn [nearest_nodes_sq]; [exact H|].
  set (b1 := match r with KLeaf => best | _ => _ end). set (b2 := match l with KLeaf => b1 | _ => _ end).
  assert (H1 : In x b1) by (unfold b1; destruct r; auto; destruct (le_root _ _); auto).
  assert (H2 : In x b2) by (unfold b2; destruct l; auto; destruct (lt_root _ _); auto).
  destruct (Qle_bool _ _); [apply in_app_iff|]; auto.
Qed.

Lemma found_are p s (t : tree nat) : forall best v x, In (v, x) (nearest_nodes_sq p s t best) -> In (v, x) best \/ (In x (elements t) /\ v = sqdist p (pt x) /\ (v <= s)%Q).
Proof.
  induction t as [|l IHl y d r IHr]; intros best v x H; cbn [nearest_nodes_sq elements] in *; [auto|].
  set (b1 := match r with KLeaf => best | _ => _ end) in H. set (b2 := match l with KLeaf => b1 | _ => _ end) in H.
  assert (H1 : In (v, x) b1 -> In (v, x) best \/ (In x (elements r) /\ v = sqdist p (pt x) /\ (v <= s)%Q)) by (unfold b1; destruct r; auto; destruct (le_root _ _); auto).
  assert (H2 : In (v, x) b2 -> In (v, x) b1 \/ (In x (elements l) /\ v = sqdist p (pt x) /\ (v <= s)%Q)) by (unfold b2; destruct l; auto; destruct (lt_root _ _); auto).
  assert (H3 : In (v, x) b2 -> In (v, x) best \/ (In x (elements l ++ y :: elements r) /\ v = sqdist p (pt x) /\ (v <= s)%Q)).
  { intro Hb. destruct (H2 Hb) as [Hb1|(A & B)]; [|right; split; [apply in_app_iff; auto|exact B]]. destruct (H1 Hb1) as [|(A & B)]; [auto|right; split; [apply in_app_iff; right; right; exact A|exact B]]. }
  destruct (Qle_bool (sqdist p (pt y)) s) eqn:E; [|auto]. apply in_app_iff in H. destruct H as [H|[H|[]]]; [auto|]. injection H as <- <-. right. split; [apply in_app_iff; right; left; reflexivity|]. split; [reflexivity|apply Qle_bool_iff; exact E].
Qed.

Lemma finds_all D p s (t : tree nat) : length p = D -> bst D t -> forall best x, In x (elements t) -> (sqdist p (pt x) <= s)%Q -> In (sqdist p (pt x), x) (nearest_nodes_sq p s t best).
Proof.
  intro Hp. induction t as [|l IHl y d r IHr]; intros Hb best x Hx Hs; cbn [nearest_nodes_sq elements bst] in *; [destruct Hx|].
  destruct Hb as (Hy & Hd & Hl & Hr & HL & HR).
  set (b1 := match r with KLeaf => best | _ => _ end). set (b2 := match l with KLeaf => b1 | _ => _ end).
  assert (S : forall z : item nat, length (pt z) = D -> ((coord p d - coord (pt z) d) * (coord p d - coord (pt z) d) <= sqdist p (pt z))%Q) by (intros z Hz; apply sqdist_coord; lia).
  assert (H1 : In x (elements r) -> In (sqdist p (pt x), x) b1).
  { intro Hi. unfold b1. destruct r as [|rl rx rd rr]; [destruct Hi|]. set (r := KNode rl rx rd rr) in *.
    assert (L : le_root (coord (pt y) d - coord p d) s = true); [|rewrite L; apply IHr; auto].
    unfold le_root. apply orb_true_iff. rewrite !Qle_bool_iff. specialize (S x (bst_length D _ Hr x Hi)). specialize (HR x Hi). destruct (Qlt_le_dec 0 (coord (pt y) d - coord p d)) as [G|G]; [right|left; exact G]. nra. }
  assert (H2 : In x (elements l) -> In (sqdist p (pt x), x) b2).
  { intro Hi. unfold b2. destruct l as [|ll lx ld lr]; [destruct Hi|]. set (l := KNode ll lx ld lr) in *.
    assert (L : lt_root (coord p d - coord (pt y) d) s = true); [|rewrite L; apply IHl; auto].
    unfold lt_root. apply orb_true_iff. rewrite !Qltb_true. specialize (S x (bst_length D _ Hl x Hi)). specialize (HL x Hi). destruct (Qlt_le_dec (coord p d - coord (pt y) d) 0) as [G|G]; [left; exact G|right]. nra. }
  assert (H3 : forall z, In z b1 -> In z b2) by (intros z Hz; unfold b2; destruct l; auto; destruct (lt_root _ _); auto; apply keeps_best; exact Hz).
  apply in_app_iff in Hx. destruct Hx as [Hx|[<-|Hx]].
  - destruct (Qle_bool _ _); [apply in_app_iff; left|]; auto.
  - rewrite (proj2 (Qle_bool_iff _ _) Hs). apply in_app_iff. right. left. reflexivity.
  - destruct (Qle_bool _ _); [apply in_app_iff; left|]; auto.
Qed.

(** the fold over the candidates *)
Definition better (c : nat) (acc : option nat * option Q) (cand : Q * item nat) : option nat * option Q :=
  if olt (Some (fst cand)) (snd acc) && negb (pl (snd cand) =? c) then (Some (pl (snd cand)), Some (fst cand)) else acc.
Lemma closest_flat k c rep s : closest_cluster k c rep s = fold_left (better c) (flat_map (fun p => nearest_nodes_sq p s (root k) []) rep) (None, None).
Proof.
  unfold closest_cluster. change (fun (acc : option nat * option Q) (p : point) => fold_left _ (nearest_nodes_sq p s (root k) []) acc) with (fun (acc : option nat * option Q) (p : point) => fold_left (better c) (nearest_nodes_sq p s (root k) []) acc).
  generalize (@None nat, @None Q). induction rep as [|p rep IH]; intro acc; cbn [fold_left flat_map]; [reflexivity|]. rewrite fold_left_app. apply IH.
Qed.
Lemma better_spec c L : forall acc, (acc = (None, None) \/ exists a v, acc = (Some a, Some v)) ->
  (fold_left (better c) L acc = (None, None) /\ acc = (None, None) /\ (forall z, In z L -> pl (snd z) = c)) \/
  exists a v, fold_left (better c) L acc = (Some a, Some v) /\ (acc = (Some a, Some v) \/ exists z, In z L /\ pl (snd z) = a /\ fst z = v /\ a <> c) /\
    (forall w, snd acc = Some w -> (v <= w)%Q) /\ (forall z, In z L -> pl (snd z) <> c -> (v <= fst z)%Q).
Proof.
  induction L as [|z L IH]; intros acc H; cbn [fold_left].
  - destruct H as [->|(a & v & ->)]; [left; split; [reflexivity|split; [reflexivity|intros z []]]|]. right. exists a, v. split; [reflexivity|]. split; [auto|]. split; [intros w [= <-]; lra|intros z []].
  - destruct (Nat.eqb_spec (pl (snd z)) c) as [E|E].
    + assert (B : better c acc z = acc) by (unfold better; rewrite E, Nat.eqb_refl, andb_false_r; reflexivity). rewrite B. destruct (IH acc H) as [(A1 & A2 & A3)|(a & v & A1 & A2 & A3 & A4)].
      * left. split; [exact A1|]. split; [exact A2|]. intros y [<-|Hy]; auto.
      * right. exists a, v. split; [exact A1|]. split; [destruct A2 as [|(y & Hy & Y)]; [auto|right; exists y; split; [right; exact Hy|exact Y]]|]. split; [exact A3|]. intros y [<-|Hy] N; [contradiction|auto].
    + assert (B : (better c acc z = acc /\ exists a w, acc = (Some a, Some w) /\ (w <= fst z)%Q) \/ (better c acc z = (Some (pl (snd z)), Some (fst z)) /\ forall w, snd acc = Some w -> (fst z <= w)%Q)).
      { unfold better. rewrite (proj2 (Nat.eqb_neq _ _) E). cbn [negb]. rewrite andb_true_r. destruct H as [->|(a & w & ->)]; cbn [snd olt].
        - right. split; [reflexivity|]. intros w [=].
        - destruct (Qltb (fst z) w) eqn:Q; [right; split; [reflexivity|]; intros w' [= <-]; apply Qltb_true in Q; lra|]. left. split; [reflexivity|]. exists a, w. split; [reflexivity|]. apply Qltb_false in Q. exact Q. }
      destruct B as [(B & a0 & w0 & Ea & Hw)|(B & Hw)]; rewrite B.
      * destruct (IH acc H) as [(A1 & A2 & A3)|(a & v & A1 & A2 & A3 & A4)]; [congruence|]. right. exists a, v. split; [exact A1|].
        split; [destruct A2 as [|(y & Hy & Y)]; [auto|right; exists y; split; [right; exact Hy|exact Y]]|]. split; [exact A3|]. intros y [<-|Hy] N; [|auto]. subst acc. specialize (A3 w0 eq_refl). lra.
      * destruct (IH (Some (pl (snd z)), Some (fst z)) ltac:(right; eauto)) as [(A1 & A2 & A3)|(a & v & A1 & A2 & A3 & A4)]; [discriminate|]. right. exists a, v. split; [exact A1|]. specialize (A3 (fst z) eq_refl). cbn [snd] in A3.
        split; [right; destruct A2 as [A2|(y & Hy & Y)]; [exists z; injection A2 as <- <-; split; [left; reflexivity|]; auto|exists y; split; [right; exact Hy|exact Y]]|].
        split; [intros w Ew; specialize (Hw w Ew); lra|]. intros y [<-|Hy] N; auto.
Qed.

(** ** Distances of clusters *)
Lemma sqdist_peq_r a b b' : peq b b' -> (sqdist a b == sqdist a b')%Q.
Proof. intro H. rewrite (sqdist_sym a b), (sqdist_sym a b'). apply sqdist_peq_l. exact H. Qed.
Lemma apart_sym r1 r2 v : cluster_apart r1 r2 v -> cluster_apart r2 r1 v.
Proof. intros ((p & q & Hp & Hq & E) & M). split; [exists q, p; split; [exact Hq|split; [exact Hp|rewrite sqdist_sym; exact E]]|]. intros x y Hx Hy. rewrite sqdist_sym. auto. Qed.
Lemma distance_apart c1 c2 : crep c1 <> [] -> crep c2 <> [] -> exists v, cluster_distance c1 c2 = Some v /\ cluster_apart (crep c1) (crep c2) v.
Proof.
  intros H1 H2. unfold cluster_distance. destruct (min_by (fun d => d) _) as [v|] eqn:E.
  - exists v. split; [reflexivity|]. apply min_by_spec in E. destruct E as (Hin & Hmin). apply in_flat_map in Hin. destruct Hin as (p & Hp & Hin). apply in_map_iff in Hin. destruct Hin as (q & E & Hq).
    split; [exists p, q; split; [exact Hp|split; [exact Hq|rewrite E; reflexivity]]|]. intros x y Hx Hy. apply Hmin. apply in_flat_map. exists x. split; [exact Hx|]. apply in_map_iff. exists y. auto.
  - apply min_by_none in E. destruct (crep c1) as [|p r1]; [congruence|]. destruct (crep c2) as [|q r2]; [congruence|]. discriminate.
Qed.

(** the nearest of all clusters [live] to cluster [a] *)
Definition nearest_of (R : nat -> list point) (live : list nat) (a : nat) (v : Q) : Prop :=
  forall c p q, In c live -> c <> a -> In p (R a) -> In q (R c) -> (v <= sqdist p q)%Q.

Section Search.
Variable D : nat.
Variable k : kdt nat.
Variable live : list nat.
Variable R : nat -> list point.
Hypothesis Hb : bst D (root k).
Hypothesis HR : forall c p, In c live -> In p (R c) -> length p = D.
Hypothesis T1 : forall x, In x (elements (root k)) -> In (pl x) live /\ exists p, In p (R (pl x)) /\ peq (pt x) p.
Hypothesis T2 : forall c p, In c live -> In p (R c) -> exists x, In x (elements (root k)) /\ pl x = c /\ peq (pt x) p.

Lemma closest_exact a s b : In a live -> In b live -> b <> a -> cluster_apart (R a) (R b) s ->
  exists c v, closest_cluster k a (R a) s = (Some c, Some v) /\ In c live /\ c <> a /\ cluster_apart (R a) (R c) v /\ nearest_of R live a v.
Proof.
  intros Ha Hlb Hba ((p0 & q0 & Hp0 & Hq0 & E0) & M0). rewrite closest_flat. set (L := flat_map _ (R a)).
  assert (In0 : forall c p q, In c live -> In p (R a) -> In q (R c) -> (sqdist p q <= s)%Q -> exists z, In z L /\ pl (snd z) = c /\ (fst z == sqdist p q)%Q).
  { intros c p q Hc Hp Hq Hs. destruct (T2 c q Hc Hq) as (x & Hx & Ex & Px). exists (sqdist p (pt x), x). split; [|split; [exact Ex|apply sqdist_peq_r; exact Px]].
    unfold L. apply in_flat_map. exists p. split; [exact Hp|]. apply (finds_all D); [apply (HR a); assumption|exact Hb|exact Hx|]. pose proof (sqdist_peq_r p _ _ Px) as Z. lra. }
  destruct (In0 b p0 q0 Hlb Hp0 Hq0) as (z0 & Hz0 & Pz0 & Vz0); [rewrite <- E0; lra|].
  destruct (better_spec a L (None, None) ltac:(auto)) as [(_ & _ & N)|(c & v & E & Hc & _ & Hmin)]; [exfalso; apply Hba; rewrite <- Pz0; auto|].
  destruct Hc as [Hc|([w x] & Hz & Pz & Vz & Hca)]; [discriminate|]. cbn [fst snd] in *. subst w. exists c, v. split; [exact E|].
  unfold L in Hz. apply in_flat_map in Hz. destruct Hz as (p & Hp & Hz). apply found_are in Hz. destruct Hz as [[]|(Hx & Ev & Hvs)]. destruct (T1 x Hx) as (Hlive & q & Hq & Pq). rewrite Pz in *.
  assert (Near : nearest_of R live a v).
  { intros c' p' q' Hc' Hca' Hp' Hq'. destruct (Qlt_le_dec s (sqdist p' q')) as [G|G]; [lra|]. destruct (In0 c' p' q' Hc' Hp' Hq' G) as (z & Hz & Pz' & Vz). rewrite <- Vz. apply Hmin; [exact Hz|]. rewrite Pz'. exact Hca'. }
  split; [exact Hlive|]. split; [exact Hca|]. split; [|exact Near]. split; [exists p, q; split; [exact Hp|split; [exact Hq|rewrite Ev; apply sqdist_peq_r; exact Pq]]|].
  intros p' q' Hp' Hq'. apply (Near c); auto.
Qed.

(** what the loop over the queue leaves behind *)
Definition recorded (h : list ccl) (i : nat) (c : nat) (v : Q) : Prop := cclosest (obj h i) = Some c /\ cdist (obj h i) = Some v.

Lemma items_near merged c1 c2 m : In m live -> R m = crep merged -> (forall c, In c live -> R c <> []) ->
  forall q h mc md req, NoDup q -> (forall i, In i q -> i < length h /\ i <> m /\ In i live /\ crep (obj h i) = R i) ->
  (exists c v, mc = Some c /\ md = Some v /\ In c live /\ c <> m /\ cluster_apart (R m) (R c) v) ->
  let '(h', mc', md', _) := items_loop k merged c1 c2 m q h mc md req in
    (forall i, ~ In i q -> obj h' i = obj h i) /\
    (forall i, In i q -> (~ gone (cclosest (obj h i)) c1 c2 /\ obj h' i = obj h i) \/
       (gone (cclosest (obj h i)) c1 c2 /\ exists c v, recorded h' i c v /\ In c live /\ c <> i /\ cluster_apart (R i) (R c) v /\
          (nearest_of R live i v \/ (c = m /\ forall old, cdist (obj h i) = Some old -> (v <= old)%Q)))) /\
    (exists c v, mc' = Some c /\ md' = Some v /\ In c live /\ c <> m /\ cluster_apart (R m) (R c) v /\
       (forall w, md = Some w -> (v <= w)%Q) /\ forall i x y, In i q -> In x (R m) -> In y (R i) -> (v <= sqdist x y)%Q).
Proof.
  intros Hm Rm Hne. induction q as [|it q IH]; intros h mc md req Hnd Hq (c0 & v0 & -> & -> & Hc0 & Nc0 & A0); cbn [items_loop].
  - split; [auto|]. split; [intros i []|]. exists c0, v0. split; [reflexivity|]. split; [reflexivity|]. split; [exact Hc0|]. split; [exact Nc0|]. split; [exact A0|]. split; [intros w [= <-]; lra|intros i x y []].
  - inversion Hnd as [|? ? Hni Hnd']; subst. destruct (Hq it ltac:(left; auto)) as (Hlt & Hitm & Hlit & Rit).
    destruct (distance_apart merged (obj h it)) as (dv & Ed & Ad); [rewrite <- Rm; auto|rewrite Rit; auto|]. rewrite <- Rm, Rit in Ad. rewrite Ed.
    set (mm := if olt (Some dv) (Some v0) then (Some it, Some dv) else (Some c0, Some v0)).
    assert (Emm : exists c v, mm = (Some c, Some v) /\ In c live /\ c <> m /\ cluster_apart (R m) (R c) v /\ (v <= v0)%Q /\ (v <= dv)%Q).
    { unfold mm. cbn [olt]. destruct (Qltb dv v0) eqn:Q; [apply Qltb_true in Q; exists it, dv|apply Qltb_false in Q; exists c0, v0]; (split; [reflexivity|]); (split; [assumption|]); (split; [assumption|]); (split; [assumption|]); split; lra. }
    destruct Emm as (c3 & v3 & -> & Hc3 & Nc3 & A3 & L30 & L3d).
    assert (Hdv : forall x y, In x (R m) -> In y (R it) -> (v3 <= sqdist x y)%Q) by (intros x y Hx Hy; pose proof (proj2 Ad x y Hx Hy); lra).
    destruct (item_update k h c1 c2 m it (Some dv)) as [[cl d]|] eqn:Eu.
    + assert (Hcl : gone (cclosest (obj h it)) c1 c2 /\ exists c v, cl = Some c /\ d = Some v /\ In c live /\ c <> it /\ cluster_apart (R it) (R c) v /\
        (nearest_of R live it v \/ (c = m /\ forall old, cdist (obj h it) = Some old -> (v <= old)%Q))).
      { unfold item_update in Eu. destruct (is_obj (cclosest (obj h it)) c1 || is_obj (cclosest (obj h it)) c2) eqn:Eo; [|discriminate]. split.
        { unfold gone. destruct (cclosest (obj h it)) as [x|]; [|discriminate]. cbn [is_obj] in Eo. apply orb_true_iff in Eo. destruct Eo as [Eo|Eo]; apply Nat.eqb_eq in Eo; subst; auto. }
        destruct (olt (cdist (obj h it)) (Some dv)) eqn:Ol.
        - rewrite Rit in Eu. destruct (closest_exact it dv m Hlit Hm ltac:(auto) (apart_sym _ _ _ Ad)) as (c & v & Ec & Hc & Nc & Ac & Near). rewrite Ec in Eu. injection Eu as <- <-. exists c, v. repeat (split; [solve [auto]|]). left. exact Near.
        - injection Eu as <- <-. exists m, dv. split; [auto|]. split; [auto|]. split; [exact Hm|]. split; [auto|]. split; [apply apart_sym; exact Ad|]. right. split; [reflexivity|]. intros old Eold. rewrite Eold in Ol. cbn [olt] in Ol. apply Qltb_false in Ol. exact Ol. }
      destruct Hcl as (Hgone & cx & vx & -> & -> & Hcx & Ncx & Ax & Near).
      set (hu := upd h it (set_closest (obj h it) (Some cx) (Some vx))).
      assert (Hobj : forall i, i <> it -> obj hu i = obj h i) by (intros i Hi; unfold hu, obj; apply upd_nth_neq; auto).
      assert (Hit : obj hu it = set_closest (obj h it) (Some cx) (Some vx)) by (unfold hu, obj; rewrite upd_nth_eq; auto).
      specialize (IH hu (Some c3) (Some v3) (req ++ [it]) Hnd').
      destruct (items_loop k merged c1 c2 m q hu (Some c3) (Some v3) (req ++ [it])) as [[[h' mc'] md'] req'].
      destruct IH as (O & I & (c & v & E1 & E2 & E3 & E4 & E5 & E6 & E7)).
      { intros i Hi. destruct (Hq i ltac:(right; auto)) as (B1 & B2 & B3 & B4). unfold hu. rewrite upd_length. split; [exact B1|]. split; [exact B2|]. split; [exact B3|]. fold hu. rewrite Hobj by (intros ->; auto). exact B4. }
      { exists c3, v3. auto. }
      split; [intros i Hi; rewrite O by (intro; apply Hi; right; auto); apply Hobj; intros ->; apply Hi; left; auto|]. split.
      * intros i [<-|Hi].
        -- right. split; [exact Hgone|]. exists cx, vx. split; [unfold recorded; rewrite O, Hit by auto; auto|]. auto.
        -- assert (Hn : i <> it) by (intros ->; auto). specialize (I i Hi). rewrite (Hobj i Hn) in I. exact I.
      * exists c, v. repeat (split; [solve [auto]|]). specialize (E6 v3 eq_refl). split; [intros w [= <-]; lra|]. intros i x y [<-|Hi] Hx Hy; [specialize (Hdv x y Hx Hy); lra|]. eapply E7; eauto.
    + specialize (IH h (Some c3) (Some v3) req Hnd' ltac:(intros i Hi; apply Hq; right; auto) ltac:(exists c3, v3; auto)).
      destruct (items_loop k merged c1 c2 m q h (Some c3) (Some v3) req) as [[[h' mc'] md'] req']. destruct IH as (O & I & (c & v & E1 & E2 & E3 & E4 & E5 & E6 & E7)).
      split; [intros i Hi; apply O; intro; apply Hi; right; auto|]. split.
      * intros i [<-|Hi]; [|auto]. left. split; [|apply O; auto]. unfold item_update in Eu. destruct (is_obj (cclosest (obj h it)) c1 || is_obj (cclosest (obj h it)) c2) eqn:Eo.
        -- destruct (olt _ _); [|discriminate]. destruct (closest_cluster _ _ _ _) as [[|] ?]; discriminate.
        -- apply orb_false_iff in Eo as [F1 F2]. intros [Hg|Hg]; rewrite Hg in F1, F2; cbn [is_obj] in *; rewrite Nat.eqb_refl in *; discriminate.
      * exists c, v. repeat (split; [solve [auto]|]). specialize (E6 v3 eq_refl). split; [intros w [= <-]; lra|]. intros i x y [<-|Hi] Hx Hy; [specialize (Hdv x y Hx Hy); lra|]. eapply E7; eauto.
Qed.
End Search.

(** ** One turn *)
Definition reps (s : cst) (i : nat) : list point := crep (obj (heap s) i).
(** every cluster of the queue records the exact distance to a cluster of the queue *)
Definition records (s : cst) : Prop := 2 <= length (queue s) -> forall i, In i (queue s) ->
  exists c v, recorded (heap s) i c v /\ In c (queue s) /\ c <> i /\ cluster_apart (reps s i) (reps s c) v.

Lemma remove_perm x : forall l l', remove_first x l = Ok l' -> Permutation l (x :: l').
Proof. induction l as [|y t IH]; intros l' E; cbn [remove_first] in E; [discriminate|]. destruct (Nat.eqb_spec y x) as [->|N]; [injection E as <-; reflexivity|]. destruct (remove_first x t) as [t'|]; cbn [bind] in E; [|discriminate]. injection E as <-. rewrite (IH t' eq_refl). apply perm_swap. Qed.
Lemma relocate_perm h cs : forall q q', relocate_all h q cs = Ok q' -> Permutation q q'.
Proof.
  induction cs as [|c cs IH]; intros q q' E; cbn [relocate_all] in E; [injection E as <-; reflexivity|]. unfold relocate_cluster in E. destruct (remove_first c q) as [q1|] eqn:E1; cbn [bind] in E; [|discriminate].
  apply remove_perm in E1. apply IH in E. rewrite E1, <- E. symmetry. apply insert_cluster_perm.
Qed.

Section Turn.
Variable data : list point.
Variable NR : nat.
Variable compression : Q.
Hypothesis HNR : 1 <= NR.
Notation D := (dimension data).
Hypothesis HD : 0 < D.
Hypothesis Hdim : uniform D data.
Notation sinv := (sinv data NR compression).

Definition turn (s s' : cst) : Prop := exists c1 c2 m rest,
  hd_error (queue s) = Some c1 /\ cclosest (obj (heap s) c1) = Some c2 /\
  Permutation (queue s) (c1 :: c2 :: rest) /\ Permutation (queue s') (m :: rest) /\ ~ In m (queue s) /\
  (forall i, In i rest -> reps s' i = reps s i) /\
  (rest <> [] -> exists c v, recorded (heap s') m c v /\ In c rest /\ cluster_apart (reps s' m) (reps s' c) v /\ nearest_of (reps s') (queue s') m v) /\
  (forall i c v, In i rest -> recorded (heap s) i c v -> c <> c1 -> c <> c2 -> recorded (heap s') i c v) /\
  (forall i c old, In i rest -> recorded (heap s) i c old -> c = c1 \/ c = c2 ->
     exists c' v, recorded (heap s') i c' v /\ In c' (queue s') /\ c' <> i /\ cluster_apart (reps s' i) (reps s' c') v /\
       (nearest_of (reps s') (queue s') i v \/ (c' = m /\ (v <= old)%Q))).

Lemma step_near s s' : sinv s -> 2 <= length (queue s) -> cure_step NR compression s = Ok s' -> turn s s'.
Proof.
  intros HI Hlen. unfold cure_step. destruct (queue s) as [|c1 q1] eqn:Eq; [simpl in Hlen; lia|]. rewrite <- Eq.
  assert (Hc1 : In c1 (queue s)) by (rewrite Eq; left; auto).
  destruct (s_closest data NR compression s HI ltac:(rewrite Eq; auto) c1 Hc1) as (c2 & Ecl & Hc2 & Hne). rewrite Ecl.
  rewrite Eq. cbn [remove_first]. rewrite Nat.eqb_refl. cbn [bind].
  assert (Hc2' : In c2 q1) by (rewrite Eq in Hc2; destruct Hc2; [congruence|auto]).
  destruct (remove_first_spec c2 q1 Hc2') as (q2 & E2 & P2). rewrite E2. cbn [bind].
  assert (Pq : Permutation (queue s) (c1 :: c2 :: q2)) by (rewrite Eq; constructor; auto).
  pose proof (Permutation_NoDup Pq (s_nodup data NR compression s HI)) as Hnd. inversion Hnd as [|? ? N1 Hnd1]; subst. inversion Hnd1 as [|? ? N2 Hnd2]; subst.
  assert (Hq2 : forall i, In i q2 -> In i (queue s)) by (intros i Hi; apply (Permutation_in _ (Permutation_sym Pq)); right; right; auto).
  destruct (s_obj data NR compression s HI c1 Hc1) as [L1 O1]. destruct (s_obj data NR compression s HI c2 Hc2) as [L2 O2].
  destruct (s_tree data NR compression s HI) as (l & G & T).
  destruct (delete_spec D HD (crep (obj (heap s) c1)) (ctree s) l c1 G) as (t1 & l1 & E1 & G1 & A1 & B1).
  { intros p. rewrite (T p c1). rewrite (proj2 (existsb_eqb c1 (queue s)) Hc1). reflexivity. }
  rewrite E1. cbn [bind].
  destruct (delete_spec D HD (crep (obj (heap s) c2)) t1 l1 c2 G1) as (t2 & l2 & E3 & G2 & A2 & B2).
  { intros p. rewrite A1 by auto. rewrite (T p c2). rewrite (proj2 (existsb_eqb c2 (queue s)) Hc2). reflexivity. }
  rewrite E3. cbn [bind].
  set (merged := merge_clusters NR compression (obj (heap s) c1) (obj (heap s) c2)). set (m := length (heap s)).
  pose proof (merge_oinv data NR compression HNR HD Hdim _ _ O1 O2) as Om. fold merged in Om.
  destruct (insert_points_spec D HD (crep merged) t2 l2 m G2) as (l3 & G3 & C3).
  { eapply Forall_impl; [|exact (o_shrunk data NR compression _ Om)]. intros r [Hr _]. exact Hr. }
  set (t3 := insert_points t2 (crep merged) m) in *.
  assert (Hm : forall i, In i (queue s) -> i <> m) by (intros i Hi; apply (s_obj data NR compression s HI) in Hi as [Hi _]; unfold m; lia).
  (* the tree holds the representatives of the queue without c1, c2 and of m *)
  assert (T3 : forall p c, count p c l3 = if c =? m then cnt p (crep merged) else if existsb (Nat.eqb c) q2 then cnt p (crep (obj (heap s) c)) else 0).
  { intros p c. rewrite C3. destruct (Nat.eqb_spec c m) as [->|Hcm].
    - rewrite A2, A1 by (intros H; symmetry in H; revert H; apply Hm; auto). rewrite T. destruct (existsb (Nat.eqb m) (queue s)) eqn:E; [|lia]. apply existsb_eqb in E. apply Hm in E. congruence.
    - rewrite Nat.add_0_r. destruct (Nat.eq_dec c c2) as [->|Hc]; [rewrite B2; destruct (existsb (Nat.eqb c2) q2) eqn:E; auto; apply existsb_eqb in E; contradiction|].
      rewrite A2 by auto. destruct (Nat.eq_dec c c1) as [->|Hc']; [rewrite B1; destruct (existsb (Nat.eqb c1) q2) eqn:E; auto; apply existsb_eqb in E; exfalso; apply N1; right; auto|].
      rewrite A1, T by auto. destruct (existsb (Nat.eqb c) q2) eqn:E.
      + apply existsb_eqb in E. rewrite (proj2 (existsb_eqb c (queue s))); auto.
      + destruct (existsb (Nat.eqb c) (queue s)) eqn:E'; auto. apply existsb_eqb in E'. apply (Permutation_in _ Pq) in E' as [->|[->|E']]; try congruence. apply existsb_eqb in E'. congruence. }
  assert (Hmq : ~ In m q2) by (intros H; apply Hq2, Hm in H; congruence).
  set (R := fun c => if c =? m then crep merged else crep (obj (heap s) c)).
  assert (Rm : R m = crep merged) by (unfold R; rewrite Nat.eqb_refl; reflexivity).
  assert (Rq : forall c, In c q2 -> R c = crep (obj (heap s) c)) by (intros c Hc; unfold R; destruct (Nat.eqb_spec c m); [subst; contradiction|reflexivity]).
  assert (Cn : forall p c, 0 < count p c l3 <-> In c (m :: q2) /\ exists q, In q (R c) /\ peq q p).
  { intros p c. rewrite T3. assert (Z : forall l, 0 < cnt p l <-> exists q, In q l /\ peq q p).
    { intro L. unfold cnt. split.
      - intro H. destruct (filter (fun x => peqb x p) L) as [|y t] eqn:F; [cbn in H; lia|]. assert (Hy : In y (filter (fun x => peqb x p) L)) by (rewrite F; left; reflexivity). apply filter_In in Hy. exists y. split; [apply Hy|apply peqb_true, Hy].
      - intros (q & Hq & Pq'). assert (Hy : In q (filter (fun x => peqb x p) L)) by (apply filter_In; split; [exact Hq|apply peqb_true; exact Pq']). destruct (filter _ L); [destruct Hy|cbn; lia]. }
    unfold R. destruct (Nat.eqb_spec c m) as [->|N]; [rewrite Z; split; [intro H; split; [left; reflexivity|exact H]|intros [_ H]; exact H]|].
    destruct (existsb (Nat.eqb c) q2) eqn:E; [apply existsb_eqb in E; rewrite Z; split; [intro H; split; [right; exact E|exact H]|intros [_ H]; exact H]|].
    split; [lia|]. intros [[H|H] _]; [congruence|]. apply existsb_eqb in H. congruence. }
  assert (Hd : forall c p, In c (m :: q2) -> In p (R c) -> length p = D).
  { intros c p [<-|Hc] Hp; [rewrite Rm in Hp; pose proof (o_shrunk data NR compression _ Om) as F|rewrite (Rq c Hc) in Hp; pose proof (o_shrunk data NR compression _ (proj2 (s_obj data NR compression s HI c (Hq2 c Hc)))) as F]; rewrite Forall_forall in F; apply F; exact Hp. }
  assert (Hne' : forall c, In c (m :: q2) -> R c <> []).
  { intros c [<-|Hc]; [rewrite Rm; apply (o_rep data NR compression _ Om)|rewrite (Rq c Hc); apply (o_rep data NR compression _ (proj2 (s_obj data NR compression s HI c (Hq2 c Hc))))]. }
  assert (HT1 : forall x, In x (elements (root t3)) -> In (pl x) (m :: q2) /\ exists p, In p (R (pl x)) /\ peq (pt x) p).
  { intros x Hx. destruct G3 as (_ & _ & Pe & _). apply (Permutation_in _ Pe) in Hx. assert (0 < count (pt x) (pl x) l3) as P by (apply count_pos; exists x; split; auto; unfold rule_payload; rewrite peqb_refl, Nat.eqb_refl; reflexivity).
    apply Cn in P. destruct P as (A & q & Hq & Pq'). split; [exact A|]. exists q. split; [exact Hq|apply peq_sym; exact Pq']. }
  assert (HT2 : forall c p, In c (m :: q2) -> In p (R c) -> exists x, In x (elements (root t3)) /\ pl x = c /\ peq (pt x) p).
  { intros c p Hc Hp. assert (P : 0 < count p c l3) by (apply Cn; split; [exact Hc|]; exists p; split; [exact Hp|apply peq_refl]). apply count_pos in P. destruct P as (x & Hx & Ex). unfold rule_payload in Ex. apply andb_true_iff in Ex. destruct Ex as [E5 E6].
    destruct G3 as (_ & _ & Pe & _). exists x. split; [apply (Permutation_in _ (Permutation_sym Pe)); exact Hx|]. split; [apply Nat.eqb_eq; exact E6|apply peqb_true; exact E5]. }
  assert (Hsame : forall q h mc md req h' mc' md' req', items_loop t3 merged c1 c2 m q h mc md req = (h', mc', md', req') -> length h' = length h /\ forall i, crep (obj h' i) = crep (obj h i)).
  { clear. induction q as [|it q IH]; intros h mc md req h' mc' md' req' E; cbn [items_loop] in E; [injection E as <- _ _ _; auto|].
    destruct (if olt _ _ then _ else _) as [mc1 md1]. destruct (item_update _ _ _ _ _ _ _) as [[cl d]|]; apply IH in E; [|exact E]. rewrite upd_length in E. destruct E as [L E]. split; [exact L|]. intro i. rewrite E.
    destruct (Nat.eq_dec i it) as [->|N]; [|unfold obj; rewrite upd_nth_neq by auto; reflexivity]. destruct (Nat.lt_ge_cases it (length h)) as [G|G]; [unfold obj at 1; rewrite upd_nth_eq by exact G; reflexivity|].
    unfold obj. rewrite !nth_overflow; rewrite ?upd_length; auto. }
  set (IL := match q2 with [] => _ | x :: _ => _ end). intro E.
  assert (HIL : forall h' mc' md' req', IL = (h', mc', md', req') -> length h' = length (heap s) /\ (forall i, crep (obj h' i) = crep (obj (heap s) i)) /\
    (forall i, In i q2 -> (~ gone (cclosest (obj (heap s) i)) c1 c2 /\ obj h' i = obj (heap s) i) \/
       (gone (cclosest (obj (heap s) i)) c1 c2 /\ exists c v, recorded h' i c v /\ In c (m :: q2) /\ c <> i /\ cluster_apart (R i) (R c) v /\
          (nearest_of R (m :: q2) i v \/ (c = m /\ forall old, cdist (obj (heap s) i) = Some old -> (v <= old)%Q)))) /\
    (q2 <> [] -> exists c v, mc' = Some c /\ md' = Some v /\ In c q2 /\ cluster_apart (R m) (R c) v /\ nearest_of R (m :: q2) m v)).
  { unfold IL. clear IL E. destruct q2 as [|x q2'] eqn:Eq2; intros h' mc' md' req' E.
    - injection E as <- <- <- <-. split; [reflexivity|]. split; [reflexivity|]. split; [intros i []|congruence].
    - rewrite <- Eq2 in *. assert (Hx : In x q2) by (rewrite Eq2; left; reflexivity).
      destruct (distance_apart merged (obj (heap s) x)) as (v & Ev & Av); [rewrite <- Rm; apply Hne'; left; reflexivity|rewrite <- (Rq x Hx); apply Hne'; right; exact Hx|].
      destruct (Hsame _ _ _ _ _ _ _ _ _ E) as (Lh & Sh).
      pose proof (items_near D t3 (m :: q2) R (proj1 G3) Hd HT1 HT2 merged c1 c2 m ltac:(left; reflexivity) Rm Hne' q2 (heap s) (Some x) (cluster_distance merged (obj (heap s) x)) [] Hnd2) as H.
      rewrite E in H. destruct H as (_ & I & (c & w & E5 & E6 & E7 & E8 & E9 & _ & E10)).
      { intros i Hi. split; [apply (s_obj data NR compression s HI); auto|]. split; [auto|]. split; [right; exact Hi|symmetry; apply Rq; exact Hi]. }
      { exists x, v. split; [reflexivity|]. split; [exact Ev|]. split; [right; exact Hx|]. split; [auto|]. rewrite Rm, (Rq x Hx). exact Av. }
      split; [exact Lh|]. split; [exact Sh|]. split; [exact I|]. intros _. exists c, w. split; [exact E5|]. split; [exact E6|]. split; [destruct E7; [congruence|assumption]|]. split; [exact E9|].
      intros c' p q [<-|Hc'] Nc' Hp Hq; [congruence|]. eapply E10; eauto. }
  destruct IL as [[[h' mc'] md'] req']. destruct (HIL _ _ _ _ eq_refl) as (L & S & I & MC). clear HIL.
  set (H' := h' ++ [set_closest merged mc' md']) in *. destruct (relocate_all H' (insert_cluster H' m q2) req') as [q3|] eqn:E4; cbn [bind] in E; [|discriminate]. injection E as <-.
  apply relocate_perm in E4. rewrite insert_cluster_perm in E4.
  assert (Om' : obj H' m = set_closest merged mc' md') by (unfold H', m; rewrite <- L; apply (obj_last data NR HNR HD)).
  assert (Oq : forall i, In i q2 -> obj H' i = obj h' i) by (intros i Hi; apply obj_app; rewrite L; apply (s_obj data NR compression s HI); auto).
  set (s' := mkS H' q3 t3). assert (RR : forall i, In i (m :: q2) -> reps s' i = R i).
  { intros i [<-|Hi]; unfold reps, s'; cbn [heap]; [rewrite Om', Rm; reflexivity|rewrite (Oq i Hi), S, (Rq i Hi); reflexivity]. }
  assert (Pin : forall i, In i q3 <-> In i (m :: q2)) by (intro i; split; intro Hi; [apply (Permutation_in _ (Permutation_sym E4))|apply (Permutation_in _ E4)]; exact Hi).
  assert (NN : forall a v, In a (m :: q2) -> nearest_of R (m :: q2) a v -> nearest_of (reps s') (queue s') a v).
  { intros a v Ha N c p q Hc Hca Hp Hq. cbn [queue s'] in Hc. apply Pin in Hc. rewrite RR in Hp, Hq by assumption. exact (N c p q Hc Hca Hp Hq). }
  exists c1, c2, m, q2. split; [rewrite Eq; reflexivity|]. split; [exact Ecl|]. split; [exact Pq|]. split; [symmetry; exact E4|]. split; [intro H; apply Hm in H; congruence|].
  split; [intros i Hi; rewrite RR by (right; exact Hi); apply Rq; exact Hi|]. split; [|split].
  - intro Hr. destruct (MC Hr) as (c & v & -> & -> & Hc & A & N). exists c, v. split; [unfold recorded, s'; cbn [heap]; rewrite Om'; split; reflexivity|]. split; [exact Hc|]. rewrite !RR by (cbn; auto). split; [exact A|]. apply NN; [left; reflexivity|exact N].
  - intros i c v Hi [Rc1 Rc2] N1' N2'. unfold recorded, s'. cbn [heap]. rewrite (Oq i Hi). destruct (I i Hi) as [[_ ->]|[[G4|G4] _]]; [split; assumption|congruence|congruence].
  - intros i c old Hi [Rc1 Rc2] Hc. destruct (I i Hi) as [[Hng _]|(_ & c' & v & [Ra Rb] & Hc' & Nc' & A & Q)]; [exfalso; apply Hng; destruct Hc; subst; [left|right]; exact Rc1|].
    exists c', v. split; [unfold recorded, s'; cbn [heap]; rewrite (Oq i Hi); split; assumption|]. split; [apply Pin; exact Hc'|]. split; [exact Nc'|]. rewrite (RR i), (RR c') by (try (right; exact Hi); exact Hc'). split; [exact A|].
    destruct Q as [Q|[-> Q]]; [left; apply NN; [right; exact Hi|exact Q]|right; split; [reflexivity|apply Q; exact Rc2]].
Qed.

Lemma turn_records s s' : turn s s' -> records s -> 2 <= length (queue s) -> records s'.
Proof.
  intros (c1 & c2 & m & rest & _ & _ & P & P' & Nm & HR & HM & HK & HG) Rs Hl Hl' i Hi. assert (Lr : rest <> []) by (intros ->; apply Permutation_length in P'; cbn in P'; lia).
  apply (Permutation_in _ P') in Hi. destruct Hi as [<-|Hi].
  - destruct (HM Lr) as (c & v & A & Hc & B & _). exists c, v. split; [exact A|]. split; [apply (Permutation_in _ (Permutation_sym P')); right; exact Hc|]. split; [|exact B]. intros ->. apply Nm. apply (Permutation_in _ (Permutation_sym P)). right. right. exact Hc.
  - destruct (Rs Hl i) as (c & v & A & Hc & Nc & B); [apply (Permutation_in _ (Permutation_sym P)); right; right; exact Hi|].
    apply (Permutation_in _ P) in Hc. assert (G : (c = c1 \/ c = c2) \/ (c <> c1 /\ c <> c2 /\ In c rest)).
    { destruct (Nat.eq_dec c c1); [auto|]. destruct (Nat.eq_dec c c2); [auto|]. right. split; [assumption|]. split; [assumption|]. destruct Hc as [->|[->|Hc]]; [congruence|congruence|exact Hc]. }
    destruct G as [G|(G1 & G2 & G3)].
    + destruct (HG i c v Hi A G) as (c' & v' & A' & Hc' & Nc' & B' & _). exists c', v'. auto.
    + exists c, v. split; [apply HK; assumption|]. split; [apply (Permutation_in _ (Permutation_sym P')); right; exact G3|]. split; [exact Nc|]. rewrite (HR i Hi), (HR c G3). exact B.
Qed.

Lemma loop_records fuel number : 1 <= number -> forall s s', sinv s -> records s -> cure_loop NR compression fuel number s = Ok s' -> records s'.
Proof.
  intro Hn. induction fuel as [|f IH]; intros s s' HI Hr E; cbn [cure_loop] in E; destruct (Nat.ltb_spec number (length (queue s))) as [L|L]; try discriminate; try (injection E as <-; exact Hr).
  destruct (step_spec data NR compression HNR HD Hdim s HI ltac:(lia)) as (s1 & E1 & I1 & _). rewrite E1 in E. cbn [bind] in E. apply (IH s1 s' I1); [|exact E]. apply (turn_records s); [apply step_near; auto; lia|exact Hr|lia].
Qed.

Lemma loop_turn fuel number : 1 <= number -> forall s0 s s', sinv s0 -> S number <= length (queue s0) -> cure_loop NR compression fuel (S number) s0 = Ok s -> cure_loop NR compression fuel number s0 = Ok s' -> turn s s'.
Proof.
  intro Hn. induction fuel as [|f IH]; intros s0 s s' HI Hl E E'; cbn [cure_loop] in E, E'.
  - destruct (Nat.ltb_spec number (length (queue s0))); [discriminate|lia].
  - destruct (Nat.ltb_spec number (length (queue s0))) as [_|]; [|lia]. destruct (step_spec data NR compression HNR HD Hdim s0 HI ltac:(lia)) as (s1 & E1 & I1 & L1). rewrite E1 in E, E'. cbn [bind] in E, E'.
    destruct (Nat.ltb_spec (S number) (length (queue s0))) as [L|L]; [apply (IH s1 s s' I1); [lia|exact E|exact E']|]. injection E as <-.
    assert (s' = s1) as ->; [|apply step_near; auto; lia]. destruct f as [|f]; cbn [cure_loop] in E'; (destruct (Nat.ltb_spec number (length (queue s1))) as [G|G]; [lia|]); injection E' as <-; reflexivity.
Qed.

Lemma start_records t : records (mkS (create_heap data) (create_queue data) t) /\
  (2 <= length data -> forall i, i < length data -> exists c v, recorded (create_heap data) i c v /\ c < length data /\ c <> i /\ (v == sqdist (nth i data []) (nth c data []))%Q /\
     forall j, j < length data -> j <> i -> (v <= sqdist (nth i data []) (nth j data []))%Q).
Proof.
  assert (A : 2 <= length data -> forall i, i < length data -> exists c v, recorded (create_heap data) i c v /\ c < length data /\ c <> i /\ (v == sqdist (nth i data []) (nth c data []))%Q /\
     forall j, j < length data -> j <> i -> (v <= sqdist (nth i data []) (nth j data []))%Q).
  { intros Hl i Hi. unfold recorded, create_heap. set (h := map (singleton data) (seq 0 (length data))).
    assert (Lh : length h = length data) by (unfold h; rewrite map_length, seq_length; reflexivity).
    assert (Ho : forall k, k < length data -> obj h k = singleton data k) by (intros k Hk; unfold obj, h; rewrite nth_map_seq0 by exact Hk; reflexivity).
    unfold obj at 1 3. rewrite !nth_map_seq0 by exact Hi. unfold first_closest. rewrite Lh.
    set (g := fun k => match cluster_distance (obj h i) (obj h k) with Some v => v | None => 0%Q end).
    assert (Eg : forall k, k < length data -> g k = sqdist (nth i data []) (nth k data [])) by (intros k Hk; unfold g; rewrite (Ho i Hi), (Ho k Hk); reflexivity).
    destruct (min_by g (filter (fun k => negb (k =? i)) (seq 0 (length data)))) as [c|] eqn:Em.
    - apply min_by_spec in Em. destruct Em as (Hin & Hmin). apply filter_In in Hin. destruct Hin as (Hin & Nc). apply in_seq in Hin. apply negb_true_iff, Nat.eqb_neq in Nc. exists c, (g c). cbn [set_closest cclosest cdist].
      split; [split; reflexivity|]. split; [lia|]. split; [exact Nc|]. split; [rewrite (Eg c) by lia; reflexivity|]. intros j Hj Hji. rewrite <- (Eg j) by lia. apply Hmin. apply filter_In. split; [apply in_seq; lia|]. apply negb_true_iff, Nat.eqb_neq. exact Hji.
    - exfalso. apply min_by_none in Em. assert (Hin : In (if i =? 0 then 1 else 0) []); [|contradiction]. rewrite <- Em. apply filter_In.
      destruct (Nat.eqb_spec i 0); split; try (apply in_seq; lia); apply negb_true_iff, Nat.eqb_neq; lia. }
  split; [|exact A]. intros Hl i Hi. cbn [queue heap] in *. pose proof (queue_perm data) as Pq. assert (Hl' : 2 <= length data) by (apply Permutation_length in Pq; rewrite seq_length in Pq; lia).
  apply (Permutation_in _ Pq), in_seq in Hi. destruct (A Hl' i ltac:(lia)) as (c & v & B1 & B2 & B3 & B4 & B5). exists c, v. split; [exact B1|]. split; [apply (Permutation_in _ (Permutation_sym Pq)), in_seq; lia|]. split; [exact B3|].
  assert (Rp : forall j, j < length data -> reps (mkS (create_heap data) (create_queue data) t) j = [nth j data []]).
  { intros j Hj. unfold reps. cbn [heap]. destruct (create_heap_obj data NR HNR HD j Hj) as (x & y & -> & _). reflexivity. }
  rewrite (Rp i), (Rp c) by lia. split; [exists (nth i data []), (nth c data []); split; [left; reflexivity|split; [left; reflexivity|exact B4]]|]. intros p q [<-|[]] [<-|[]]. rewrite B4. apply Qle_refl.
Qed.

Lemma cure_starts number s : (0 <= compression)%Q -> 1 <= number -> cure data NR compression number = Ok s ->
  exists t, create_kdtree (create_heap data) (create_queue data) = Ok t /\ sinv (mkS (create_heap data) (create_queue data) t) /\ cure_loop NR compression (length data) number (mkS (create_heap data) (create_queue data) t) = Ok s.
Proof.
  intros Hc Hn E. unfold cure in E. destruct data as [|p l] eqn:Ed; [discriminate|]. rewrite <- Ed in *.
  destruct (Nat.eqb_spec number 0); [lia|]. destruct (Qltb compression 0); [discriminate|]. destruct (Nat.eqb_spec NR 0); [lia|].
  destruct (initial_spec data NR compression HNR HD Hdim) as (t & Et & It); [congruence|]. rewrite Et in E. cbn [bind] in E. exists t. split; [exact Et|]. split; [exact It|exact E].
Qed.
End Turn.

(** C283.  Whatever number of clusters is asked for, every cluster at hand records another cluster of the result and the exact (squared) distance to it. *)
Theorem C283_recorded data represent compression number s : 0 < dimension data -> uniform (dimension data) data -> (0 <= compression)%Q -> 1 <= represent -> 1 <= number ->
  cure data represent compression number = Ok s -> 2 <= length (queue s) -> forall i, In i (queue s) ->
  exists c v, cclosest (obj (heap s) i) = Some c /\ cdist (obj (heap s) i) = Some v /\ In c (queue s) /\ c <> i /\
    cluster_apart (crep (obj (heap s) i)) (crep (obj (heap s) c)) v.
Proof.
  intros HD Hu Hc Hr Hn E Hl i Hi. destruct (cure_starts data represent compression Hr HD Hu number s Hc Hn E) as (t & Et & It & El).
  destruct (loop_records data represent compression Hr HD Hu _ number Hn _ s It (proj1 (start_records data represent Hr HD t)) El Hl i Hi) as (c & v & [A B] & C). exists c, v. auto.
Qed.
Print Assumptions C283_recorded.

(** Before the first merge every point records one of its nearest points. *)
Theorem C283_start data represent compression number s : 0 < dimension data -> uniform (dimension data) data -> (0 <= compression)%Q -> 1 <= represent -> 2 <= length data -> length data <= number ->
  cure data represent compression number = Ok s -> forall i, i < length data ->
  exists c v, cclosest (obj (heap s) i) = Some c /\ cdist (obj (heap s) i) = Some v /\ c < length data /\ c <> i /\ (v == sqdist (nth i data []) (nth c data []))%Q /\
    forall j, j < length data -> j <> i -> (v <= sqdist (nth i data []) (nth j data []))%Q.
Proof.
  intros HD Hu Hc Hr Hl Hn E i Hi. destruct (cure_starts data represent compression Hr HD Hu number s Hc ltac:(lia) E) as (t & Et & It & El).
  assert (s = mkS (create_heap data) (create_queue data) t) as ->.
  { pose proof (Permutation_length (queue_perm data)) as P. rewrite seq_length in P. destruct (length data) as [|n] eqn:En; [lia|]. cbn [cure_loop queue] in El. rewrite P in El. destruct (Nat.ltb_spec number (S n)); [lia|]. injection El as <-. reflexivity. }
  destruct (proj2 (start_records data represent Hr HD t) Hl i Hi) as (c & v & [A B] & C). exists c, v. auto.
Qed.
Print Assumptions C283_start.

(** With one cluster less the head of the queue is merged with the cluster that it records.  The new cluster records a nearest of all others.  A cluster
    that recorded one of the merged ones records a nearest of all others or the new cluster, then at a distance not larger than before; the
    records of all others are kept. *)
Theorem C283_turn data represent compression number s s' : 0 < dimension data -> uniform (dimension data) data -> (0 <= compression)%Q -> 1 <= represent -> 1 <= number -> number < length data ->
  cure data represent compression (S number) = Ok s -> cure data represent compression number = Ok s' -> turn s s'.
Proof.
  intros HD Hu Hc Hr Hn Hl E E'. destruct (cure_starts data represent compression Hr HD Hu (S number) s Hc ltac:(lia) E) as (t & Et & It & El).
  destruct (cure_starts data represent compression Hr HD Hu _ s' Hc Hn E') as (t' & Et' & It' & El').
  assert (t' = t) as -> by congruence.
  apply (loop_turn data represent compression Hr HD Hu (length data) number Hn _ s s' It); [|exact El|exact El']. cbn [queue]. rewrite (Permutation_length (queue_perm data)), seq_length. exact Hl.
Qed.
Print Assumptions C283_turn.

(** six points on a line; the cluster of 0 and -1 records 3 = {-2.3} after the first merge *)
Definition line6 : list point := [[0];[-1];[14 # 10];[-23 # 10];[100];[1015 # 10]]%Q.
Example C283_example : 0 < dimension line6 /\ uniform (dimension line6) line6 /\ exists s5 s4, cure line6 5 (1 # 2) 5 = Ok s5 /\ cure line6 5 (1 # 2) 4 = Ok s4 /\
  clusters s5 = [[0;1];[3];[4];[5];[2]] /\ clusters s4 = [[4];[5];[0;1;3];[2]].
Proof. split; [cbn; lia|]. split; [intros p Hp; cbn in Hp; intuition; subst; reflexivity|]. do 2 eexists. split; [vm_compute; reflexivity|]. split; [vm_compute; reflexivity|]. split; vm_compute; reflexivity. Qed.
