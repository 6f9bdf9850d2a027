(** C284: CURE does not depend on the unit and the origin of the coordinates. *)
From Verif Require Import Base Search_Model Kmeans_Model Kmeans_Proofs Kd_Model Kd_Proofs Scaled_Proofs Unit_Props Optics_Model Opticsunit_Props Cure_Model Cure_Proofs.
From Verif Require Aggl_Proofs.
From Coq Require Import Lqa.
Local Open Scope nat_scope.

Section Run.
Variables (s : Q) (v : point).
Hypothesis Hs : (0 < s)%Q.
Hypothesis Hv : 0 < length v.
Notation mv := (moved s v).
Notation ts := (times (s * s)).
Notation its := (it_same s v).
Notation trs := (tree_same s v).

Lemma ss_pos : (0 < s * s)%Q.
Proof. nra. Qed.

(** ** the tree *)
Lemma peqb_both p q p' q' : mv p q -> mv p' q' -> peqb q q' = peqb p p'.
Proof.
  intros (A1 & A2 & A3) (B1 & B2 & B3). apply Bool.eq_iff_eq_true. rewrite !peqb_true. split; intro H.
  - apply Aggl_Proofs.peq_of_coord; [congruence|]. intros d Hd. pose proof (peq_coord _ _ d H) as E. rewrite (A3 d), (B3 d) in E by lia. apply (Qmult_inj_l _ _ s); [lra|]. lra.
  - apply Aggl_Proofs.peq_of_coord; [congruence|]. intros d Hd. pose proof (peq_coord _ _ d H) as E. rewrite (A3 d), (B3 d) by lia. rewrite E. reflexivity.
Qed.

Definition cands (a b : list bool * item nat) : Prop := fst b = fst a /\ its (snd a) (snd b).
Lemma both_inorder t t' : trs t t' -> Forall2 cands (inorder_paths t) (inorder_paths t').
Proof.
  induction 1 as [|l l' x x' d r r' Hl IHl Hx Hd Hr IHr]; cbn [inorder_paths]; [constructor|].
  assert (M : forall b k k', Forall2 cands k k' -> Forall2 cands (map (fun c => (b :: fst c, snd c)) k) (map (fun c => (b :: fst c, snd c)) k')).
  { intros b k k'. induction 1 as [|c c' k k' (E & F) Hk IH]; cbn [map]; constructor; auto. split; [cbn [fst]; now rewrite E|exact F]. }
  apply Forall2_app; [apply M; exact IHl|]. constructor; [split; [reflexivity|exact Hx]|]. apply M; exact IHr.
Qed.
Lemma both_min_from d : d < length v -> forall k k', Forall2 cands k k' -> forall x x', cands x x' ->
  cands (min_by_from (fun c : list bool * item nat => coord (pt (snd c)) d) x k) (min_by_from (fun c : list bool * item nat => coord (pt (snd c)) d) x' k').
Proof.
  intro Hd. induction 1 as [|y y' k k' Hy Hk IH]; intros x x' Hx; cbn [min_by_from]; [exact Hx|].
  rewrite (coord_ltb s v Hs (pt (snd y)) (pt (snd y')) (pt (snd x)) (pt (snd x')) d Hd (proj2 (proj2 Hy)) (proj2 (proj2 Hx))). destruct (Qltb _ _); apply IH; assumption.
Qed.
Definition opt_same {A B} (R : A -> B -> Prop) (a : option A) (b : option B) : Prop := match a, b with Some x, Some y => R x y | None, None => True | _, _ => False end.
Lemma both_minimal d t t' : d < length v -> trs t t' -> opt_same cands (find_minimal_node t d) (find_minimal_node t' d).
Proof.
  intros Hd H. unfold find_minimal_node. destruct (both_inorder t t' H) as [|x x' k k' Hx Hk]; cbn [min_by opt_same]; [exact I|]. apply both_min_from; assumption.
Qed.
Lemma both_update f f' : (forall t t', trs t t' -> same_run trs (f t) (f' t')) -> forall path t t', trs t t' -> same_run trs (update_at path f t) (update_at path f' t').
Proof.
  intro Hf. induction path as [|b path IH]; intros t t' H; cbn [update_at]; [apply Hf; exact H|]. destruct H as [|l l' x x' d r r' Hl Hx Hd Hr]; [reflexivity|]. destruct b.
  - pose proof (IH r r' Hr) as U. destruct (update_at path f r), (update_at path f' r'); cbn [same_run bind] in U |- *; try exact U; try (destruct U; fail). constructor; assumption.
  - pose proof (IH l l' Hl) as U. destruct (update_at path f l), (update_at path f' l'); cbn [same_run bind] in U |- *; try exact U; try (destruct U; fail). constructor; assumption.
Qed.
Lemma both_rremove : forall fuel t t', trs t t' -> same_run trs (recursive_remove fuel t) (recursive_remove fuel t').
Proof.
  induction fuel as [|fuel IH]; intros t t' H; cbn [recursive_remove]; [reflexivity|]. destruct H as [|l l' x x' d r r' Hl Hx Hd Hr]; [reflexivity|].
  assert (G : forall a a' b b', trs a a' -> trs b b' ->
    same_run trs (match find_minimal_node b d with None => Raise ValueError | Some (path, m) => do r' <- update_at path (recursive_remove fuel) b; Ok (KNode a m d r') end)
                 (match find_minimal_node b' d with None => Raise ValueError | Some (path, m) => do r' <- update_at path (recursive_remove fuel) b'; Ok (KNode a' m d r') end)).
  { intros a a' b b' Ha Hb. pose proof (both_minimal d b b' Hd Hb) as M. destruct (find_minimal_node b d) as [[path m]|], (find_minimal_node b' d) as [[path' m']|]; cbn [opt_same] in M; try contradiction; [|reflexivity].
    destruct M as (E & F). cbn [fst snd] in E, F. subst path'. pose proof (both_update _ _ IH path b b' Hb) as U. destruct (update_at path (recursive_remove fuel) b), (update_at path (recursive_remove fuel) b'); cbn [same_run bind] in U |- *; try exact U; try (destruct U; fail). constructor; assumption. }
  pose proof (G l l' r r' Hl Hr) as G1. pose proof (G KLeaf KLeaf l l' (leaf_same s v) Hl) as G2. clear G IH. destruct Hr as [|r1 r1' y y' e r2 r2' H1 H2 H3 H4]; destruct Hl as [|l1 l1' z z' g l2 l2' K1 K2 K3 K4]; [constructor|exact G2|exact G1|exact G1].
Qed.
Lemma both_remove fuel (rule rule' : item nat -> bool) p p' : mv p p' -> (forall x x', its x x' -> rule' x' = rule x) -> forall t t', trs t t' ->
  opt_same (same_run trs) (remove_tree fuel rule p t) (remove_tree fuel rule' p' t').
Proof.
  intros Hp Hr. induction 1 as [|l l' x x' d r r' Hl IHl Hx Hd Hr' IHr]; cbn [remove_tree]; [exact I|].
  rewrite (coord_leb s v Hs (pt x) (pt x') p p' d Hd (proj2 Hx) Hp), (Hr x x' Hx). destruct (Qle_bool (coord (pt x) d) (coord p d)).
  - destruct (rule x); [apply both_rremove; constructor; assumption|]. destruct (remove_tree fuel rule p r) as [[a|e]|], (remove_tree fuel rule' p' r') as [[a'|e']|]; cbn [opt_same same_run bind] in *; try contradiction; auto. constructor; assumption.
  - destruct (remove_tree fuel rule p l) as [[a|e]|], (remove_tree fuel rule' p' l') as [[a'|e']|]; cbn [opt_same same_run bind] in *; try contradiction; auto. constructor; assumption.
Qed.
Lemma both_size t t' : trs t t' -> size t' = size t.
Proof. induction 1; cbn [size]; congruence. Qed.

Definition kds (k k' : kdt nat) : Prop := trs (root k) (root k') /\ dim k = length v /\ dim k' = length v /\ len k' = len k.
Lemma both_delete ps ps' c : Forall2 mv ps ps' -> forall k k', kds k k' -> same_run kds (delete_points k ps c) (delete_points k' ps' c).
Proof.
  induction 1 as [|p p' ps ps' Hp Hps IH]; intros k k' H; cbn [delete_points]; [exact H|]. destruct H as (T & D1 & D2 & L). unfold remove_payload, remove_rule.
  assert (Hrule : forall x x' : item nat, its x x' -> rule_payload Nat.eqb p' c x' = rule_payload Nat.eqb p c x) by (intros x x' (E & F); unfold rule_payload; now rewrite E, (peqb_both _ _ _ _ F Hp)).
  pose proof (both_remove (size (root k)) (rule_payload Nat.eqb p c) (rule_payload Nat.eqb p' c) p p' Hp Hrule _ _ T) as U. rewrite (both_size _ _ T).
  destruct (remove_tree (size (root k)) (rule_payload Nat.eqb p c) p (root k)) as [[a|e]|], (remove_tree (size (root k)) (rule_payload Nat.eqb p' c) p' (root k')) as [[a'|e']|]; cbn [opt_same same_run bind] in *; try contradiction; auto.
  - apply IH. repeat split; cbn [root dim len]; auto. now rewrite L.
  - apply IH. repeat split; auto.
Qed.
Lemma both_insert_tree x x' : its x x' -> forall t t', trs t t' -> trs (insert_tree (length v) x t) (insert_tree (length v) x' t').
Proof.
  intro Hx. induction 1 as [|l l' y y' d r r' Hl IHl Hy Hd Hr IHr]; cbn [insert_tree]; [constructor|]. rewrite (coord_leb s v Hs (pt y) (pt y') (pt x) (pt x') d Hd (proj2 Hy) (proj2 Hx)).
  pose proof (Nat.mod_upper_bound (d + 1) (length v) ltac:(lia)) as Hm. assert (N : trs (KNode KLeaf x ((d + 1) mod length v) KLeaf) (KNode KLeaf x' ((d + 1) mod length v) KLeaf)) by (constructor; auto; constructor).
  destruct (Qle_bool _ _); [destruct Hr; constructor; auto; constructor; assumption|destruct Hl; constructor; auto; constructor; assumption].
Qed.
Lemma both_insert_points ps ps' c : Forall2 mv ps ps' -> forall k k', kds k k' -> kds (insert_points k ps c) (insert_points k' ps' c).
Proof.
  unfold insert_points. induction 1 as [|p p' ps ps' Hp Hps IH]; intros k k' H; cbn [fold_left]; [exact H|]. apply IH. destruct H as (T & D1 & D2 & L). unfold insert.
  assert (Hi : its (mkItem p c) (mkItem p' c)) by (split; [reflexivity|exact Hp]). pose proof (both_insert_tree _ _ Hi _ _ T) as U. destruct Hp as (P1 & P2 & _).
  rewrite D1, D2, L. destruct T; repeat split; cbn [root dim len pt]; auto. constructor; auto; constructor.
Qed.

(** ** the search *)
Lemma root_leb e e' q q' : (e' == s * e)%Q -> ts q q' -> le_root e' q' = le_root e q.
Proof.
  intros He Hq. unfold le_root. f_equal; apply Bool.eq_iff_eq_true; rewrite !Qle_bool_iff, He; [split; intro; nra|]. unfold times in Hq. rewrite Hq. pose proof ss_pos. split; intro; nra.
Qed.
Lemma root_ltb e e' q q' : (e' == s * e)%Q -> ts q q' -> lt_root e' q' = lt_root e q.
Proof.
  intros He Hq. unfold lt_root. f_equal; apply Bool.eq_iff_eq_true; rewrite !Qltb_true, He; [split; intro; nra|]. unfold times in Hq. rewrite Hq. pose proof ss_pos. split; intro; nra.
Qed.
Notation nrs := (near_same s v).
Lemma both_search p p' q q' : mv p p' -> ts q q' -> forall t t', trs t t' -> forall best best', Forall2 nrs best best' -> Forall2 nrs (nearest_nodes_sq p q t best) (nearest_nodes_sq p' q' t' best').
Proof.
  intros Hp Hq. induction 1 as [|l l' x x' d r r' Hl IHl Hx Hd Hr IHr]; intros best best' B; cbn [nearest_nodes_sq]; [exact B|].
  assert (E1 : le_root (coord (pt x') d - coord p' d) q' = le_root (coord (pt x) d - coord p d) q).
  { apply root_leb; [|exact Hq]. destruct Hx as (_ & _ & _ & X). destruct Hp as (_ & _ & Y). rewrite (X d Hd), (Y d Hd). ring. }
  assert (E2 : lt_root (coord p' d - coord (pt x') d) q' = lt_root (coord p d - coord (pt x) d) q).
  { apply root_ltb; [|exact Hq]. destruct Hx as (_ & _ & _ & X). destruct Hp as (_ & _ & Y). rewrite (X d Hd), (Y d Hd). ring. }
  assert (E3 : ts (sqdist p (pt x)) (sqdist p' (pt x'))) by (apply (moved_sqdist s v); [exact Hp|apply Hx]).
  rewrite E1, E2, (scale_leb (s * s) ss_pos _ _ _ _ E3 Hq).
  assert (B1 : Forall2 nrs (match r with KLeaf => best | _ => if le_root (coord (pt x) d - coord p d) q then nearest_nodes_sq p q r best else best end)
                           (match r' with KLeaf => best' | _ => if le_root (coord (pt x) d - coord p d) q then nearest_nodes_sq p' q' r' best' else best' end)).
  { pose proof (IHr _ _ B) as X. clear - X B Hr. revert X. destruct Hr; intro X; [exact B|]. destruct (le_root _ _); [exact X|exact B]. }
  set (b1 := match r with KLeaf => best | _ => _ end) in *. set (b1' := match r' with KLeaf => best' | _ => _ end) in *. clearbody b1 b1'.
  assert (B2 : Forall2 nrs (match l with KLeaf => b1 | _ => if lt_root (coord p d - coord (pt x) d) q then nearest_nodes_sq p q l b1 else b1 end)
                           (match l' with KLeaf => b1' | _ => if lt_root (coord p d - coord (pt x) d) q then nearest_nodes_sq p' q' l' b1' else b1' end)).
  { pose proof (IHl _ _ B1) as X. clear - X B1 Hl. revert X. destruct Hl; intro X; [exact B1|]. destruct (lt_root _ _); [exact X|exact B1]. }
  set (b2 := match l with KLeaf => b1 | _ => _ end) in *. set (b2' := match l' with KLeaf => b1' | _ => _ end) in *. clearbody b2 b2'.
  destruct (Qle_bool (sqdist p (pt x)) q); [|exact B2]. apply Forall2_app; [exact B2|]. constructor; [|constructor]. split; [exact E3|exact Hx].
Qed.
Notation tso := (times_opt (s * s)).
Lemma both_olt a b a' b' : tso a a' -> tso b b' -> olt a' b' = olt a b.
Proof. intros A B. unfold olt. destruct a, a'; cbn [times_opt] in A; try contradiction; destruct b, b'; cbn [times_opt] in B; try contradiction; auto. apply (scale_ltb (s * s) ss_pos); assumption. Qed.
Definition found (a a' : option nat * option Q) : Prop := fst a' = fst a /\ tso (snd a) (snd a').
Lemma both_closest k k' c rep rep' q q' : kds k k' -> Forall2 mv rep rep' -> ts q q' -> found (closest_cluster k c rep q) (closest_cluster k' c rep' q').
Proof.
  intros (T & _) Hr Hq. unfold closest_cluster. assert (A : found (None, None) (None, None)) by (split; [reflexivity|exact I]). revert A. generalize (@None nat, @None Q) at 1 3. generalize (@None nat, @None Q).
  induction Hr as [|p p' rep rep' Hp Hr IH]; intros a' a A; cbn [fold_left]; [exact A|]. apply IH. pose proof (both_search p p' q q' Hp Hq _ _ T [] [] (Forall2_nil _)) as N. revert a a' A. induction N as [|z z' l l' (Z1 & Z2 & _) Hl IHl]; intros a a' A; cbn [fold_left]; [exact A|].
  apply IHl. destruct A as (A1 & A2). rewrite (both_olt (Some (fst z)) (snd a) (Some (fst z')) (snd a') Z1 A2), Z2. destruct (olt _ _ && _); [split; [reflexivity|exact Z1]|split; assumption].
Qed.

(** ** clusters *)
Definition cs (c c' : ccl) : Prop :=
  Forall2 mv (cpts c) (cpts c') /\ cidx c' = cidx c /\ mv (cmean c) (cmean c') /\ Forall2 mv (crep c) (crep c') /\ cclosest c' = cclosest c /\ tso (cdist c) (cdist c').
Definition wk (c c' : ccl) : Prop := Forall2 mv (crep c) (crep c') /\ cclosest c' = cclosest c /\ tso (cdist c) (cdist c').
Lemma wk_of c c' : cs c c' -> wk c c'.
Proof. intros (A & B & C & D & E & F). repeat split; auto. Qed.
Lemma obj_wk h h' i : Forall2 cs h h' -> wk (obj h i) (obj h' i).
Proof. intro H. unfold obj. revert i. induction H as [|c c' h h' Hc Hh IH]; intros [|i]; cbn [nth]; auto; try (repeat split; constructor). apply wk_of; exact Hc. Qed.
Lemma obj_cs h h' i : Forall2 cs h h' -> i < length h -> cs (obj h i) (obj h' i).
Proof. intro H. unfold obj. revert i. induction H as [|c c' h h' Hc Hh IH]; intros [|i] Hi; cbn [nth length] in *; auto; try lia. apply IH. lia. Qed.
Lemma upd_cs h h' i c c' : Forall2 cs h h' -> (i < length h -> cs c c') -> Forall2 cs (upd h i c) (upd h' i c').
Proof. intro H. revert i. induction H as [|x x' h h' Hx Hh IH]; intros [|i] Hc; cbn [upd length] in *; constructor; auto; try (apply Hc; lia). apply IH. intro; apply Hc; lia. Qed.
Lemma min_both l l' : Forall2 ts l l' -> tso (min_by (fun d => d) l) (min_by (fun d => d) l').
Proof.
  destruct 1 as [|x x' l l' Hx Hl]; cbn [min_by times_opt]; [exact I|]. revert x x' Hx. induction Hl as [|y y' l l' Hy Hl IH]; intros x x' Hx; cbn [min_by_from]; [exact Hx|].
  rewrite (scale_ltb (s * s) ss_pos _ _ _ _ Hy Hx). apply IH. destruct (Qltb y x); assumption.
Qed.
Lemma row_both p p' l l' : mv p p' -> Forall2 mv l l' -> Forall2 ts (map (fun q => sqdist p q) l) (map (fun q => sqdist p' q) l').
Proof. intros Hp. induction 1; cbn [map]; constructor; auto. apply (moved_sqdist s v); assumption. Qed.
Lemma both_distance a a' b b' : Forall2 mv (crep a) (crep a') -> Forall2 mv (crep b) (crep b') -> tso (cluster_distance a b) (cluster_distance a' b').
Proof.
  intros A B. unfold cluster_distance. apply min_both. induction A as [|p p' l l' Hp Hl IH]; cbn [flat_map]; [constructor|]. apply Forall2_app; [apply row_both; assumption|exact IH].
Qed.
Lemma both_equal l l' : Forall2 mv l l' -> all_equal l' = all_equal l.
Proof.
  induction 1 as [|p p' l l' Hp Hl IH]; [reflexivity|]. destruct Hl as [|q q' t t' Hq Ht]; [reflexivity|]. cbn [all_equal] in IH |- *. rewrite (peqb_both q q' p p' Hq Hp). f_equal. exact IH.
Qed.
Lemma coord_seq f n d : d < n -> coord (map f (seq 0 n)) d = f d.
Proof. intro H. unfold coord. apply nth_map_seq0. exact H. Qed.
Lemma both_mean a a' b b' : cs a a' -> cs b b' -> cpts a <> [] -> mv (merged_mean a b) (merged_mean a' b').
Proof.
  intros (A1 & _ & A3 & _) (B1 & _ & B3 & _) Hne. unfold merged_mean. assert (P : Forall2 mv (cpts a ++ cpts b) (cpts a' ++ cpts b')) by (apply Forall2_app; assumption).
  rewrite (both_equal _ _ P). destruct (all_equal (cpts a ++ cpts b)).
  - apply nth_moved; [exact P|]. rewrite app_length. destruct (cpts a); [congruence|cbn; lia].
  - rewrite (both_length _ _ _ A1), (both_length _ _ _ B1). destruct A3 as (L1 & L2 & A3), B3 as (M1 & M2 & B3). rewrite L1, L2. split; [now rewrite map_length, seq_length|]. split; [now rewrite map_length, seq_length|].
    intros d Hd. rewrite !coord_seq by exact Hd. rewrite (A3 d Hd), (B3 d Hd). field. rewrite <- inject_Z_plus. intro Z. unfold Qeq, inject_Z in Z. cbn in Z. destruct (cpts a); [congruence|]. cbn [length] in Z. lia.
Qed.
Lemma both_farthest mean mean' pts pts' tmp tmp' : mv mean mean' -> Forall2 mv pts pts' -> Forall2 mv tmp tmp' -> opt_same mv (farthest_point mean pts tmp) (farthest_point mean' pts' tmp').
Proof.
  intros Hm Hp Ht. unfold farthest_point.
  set (g := fun p : point => match tmp with [] => sqdist p mean | _ => match min_by (fun d => d) (map (fun q => sqdist p q) tmp) with Some d => d | None => 0%Q end end).
  set (g' := fun p : point => match tmp' with [] => sqdist p mean' | _ => match min_by (fun d => d) (map (fun q => sqdist p q) tmp') with Some d => d | None => 0%Q end end).
  assert (G : forall p p', mv p p' -> ts (g p) (g' p')).
  { intros p p' Q. unfold g, g'. pose proof (min_both _ _ (row_both p p' tmp tmp' Q Ht)) as M. destruct Ht; [apply (moved_sqdist s v); assumption|]. destruct (min_by _ _), (min_by _ _); cbn [times_opt] in M; try contradiction; [exact M|]. unfold times. ring. }
  assert (F : forall a a' : Q * option point, ts (fst a) (fst a') -> opt_same mv (snd a) (snd a') ->
    opt_same mv (snd (fold_left (fun acc p => if Qle_bool (fst acc) (g p) then (g p, Some p) else acc) pts a)) (snd (fold_left (fun acc p => if Qle_bool (fst acc) (g' p) then (g' p, Some p) else acc) pts' a'))).
  { induction Hp as [|p p' pts pts' Q Hp IH]; intros a a' A1 A2; cbn [fold_left]; [exact A2|]. rewrite (scale_leb (s * s) ss_pos _ _ _ _ A1 (G p p' Q)). destruct (Qle_bool (fst a) (g p)); apply IH; auto. cbn [fst]. apply G; exact Q. }
  apply F; [cbn [fst]; unfold times; ring|exact I].
Qed.
Lemma both_choose mean mean' pts pts' : mv mean mean' -> Forall2 mv pts pts' -> forall n tmp tmp', Forall2 mv tmp tmp' -> Forall2 mv (choose_points n mean pts tmp) (choose_points n mean' pts' tmp').
Proof.
  intros Hm Hp. induction n as [|n IH]; intros tmp tmp' Ht; cbn [choose_points]; [exact Ht|]. apply IH. pose proof (both_farthest mean mean' pts pts' tmp tmp' Hm Hp Ht) as F.
  destruct (farthest_point mean pts tmp) as [p|], (farthest_point mean' pts' tmp') as [p'|]; cbn [opt_same] in F; try contradiction; [|exact Ht].
  assert (E : existsb (fun q => peqb q p') tmp' = existsb (fun q => peqb q p) tmp) by (clear - Ht F Hs Hv; induction Ht as [|q q' t t' Hq Ht IH]; cbn [existsb]; [reflexivity|rewrite (peqb_both q q' p p' Hq F), IH; reflexivity]).
  rewrite E. destruct (existsb _ tmp); [exact Ht|]. apply Forall2_app; [exact Ht|]. constructor; [exact F|constructor].
Qed.
Variables (NR : nat) (comp : Q).
Lemma both_shrink m m' p p' : mv m m' -> mv p p' -> mv (shrink comp m p) (shrink comp m' p').
Proof.
  intros (A1 & A2 & A3) (B1 & B2 & B3). unfold shrink. rewrite A1, A2. split; [now rewrite map_length, seq_length|]. split; [now rewrite map_length, seq_length|]. intros d Hd. rewrite !coord_seq by exact Hd. rewrite (A3 d Hd), (B3 d Hd). ring.
Qed.
Lemma both_merge a a' b b' : cs a a' -> cs b b' -> cpts a <> [] -> cs (merge_clusters NR comp a b) (merge_clusters NR comp a' b').
Proof.
  intros A B Hne. pose proof (both_mean _ _ _ _ A B Hne) as M. destruct A as (A1 & A2 & _), B as (B1 & B2 & _). unfold merge_clusters.
  assert (P : Forall2 mv (cpts a ++ cpts b) (cpts a' ++ cpts b')) by (apply Forall2_app; assumption).
  repeat split; cbn [cpts cidx cmean crep cclosest cdist]; try apply M; auto; [congruence|].
  pose proof (both_choose _ _ _ _ M P NR [] [] (Forall2_nil _)) as C. induction C; cbn [map]; constructor; auto. apply both_shrink; assumption.
Qed.

(** ** the turn *)
Lemma both_insert_cluster h h' c q : Forall2 cs h h' -> insert_cluster h' c q = insert_cluster h c q.
Proof. intro H. induction q as [|x t IH]; cbn [insert_cluster]; [reflexivity|]. rewrite (both_olt _ _ _ _ (proj2 (proj2 (obj_wk h h' c H))) (proj2 (proj2 (obj_wk h h' x H)))), IH. reflexivity. Qed.
Lemma both_relocate h h' cl : Forall2 cs h h' -> forall q, relocate_all h' q cl = relocate_all h q cl.
Proof. intro H. induction cl as [|c t IH]; intro q; cbn [relocate_all]; [reflexivity|]. unfold relocate_cluster. destruct (remove_first c q) as [q'|e]; cbn [bind]; [|reflexivity]. rewrite (both_insert_cluster h h' c q' H). apply IH. Qed.
Lemma both_item_update k k' h h' c1 c2 m i d d' : kds k k' -> Forall2 cs h h' -> tso d d' -> opt_same found (item_update k h c1 c2 m i d) (item_update k' h' c1 c2 m i d').
Proof.
  intros K H Hd. destruct (obj_wk h h' i H) as (R & C & D). unfold item_update. rewrite C. destruct (is_obj (cclosest (obj h i)) c1 || is_obj (cclosest (obj h i)) c2); [|exact I].
  rewrite (both_olt _ _ _ _ D Hd). destruct (olt (cdist (obj h i)) d); [|split; [reflexivity|exact Hd]].
  destruct d as [x|], d' as [x'|]; cbn [times_opt] in Hd; try contradiction; [|split; [reflexivity|exact I]].
  destruct (both_closest k k' i _ _ x x' K R Hd) as (F1 & F2). destruct (closest_cluster k i (crep (obj h i)) x) as [[a|] b], (closest_cluster k' i (crep (obj h' i)) x') as [a' b']; cbn [fst snd] in F1, F2; subst a'; split; auto.
Qed.
Definition its_same (r r' : list ccl * option nat * option Q * list nat) : Prop :=
  let '(h, mc, md, req) := r in let '(h', mc', md', req') := r' in Forall2 cs h h' /\ mc' = mc /\ tso md md' /\ req' = req.
Lemma both_items k k' g g' c1 c2 m : kds k k' -> cs g g' -> forall q h h' mc md md' req, Forall2 cs h h' -> tso md md' ->
  its_same (items_loop k g c1 c2 m q h mc md req) (items_loop k' g' c1 c2 m q h' mc md' req).
Proof.
  intros K G. induction q as [|i q IH]; intros h h' mc md md' req H M; cbn [items_loop]; [repeat split; assumption|].
  assert (D : tso (cluster_distance g (obj h i)) (cluster_distance g' (obj h' i))) by (apply both_distance; [apply G|apply (obj_wk h h' i H)]).
  pose proof (both_item_update k k' h h' c1 c2 m i _ _ K H D) as U. set (d := cluster_distance g (obj h i)) in *. set (d' := cluster_distance g' (obj h' i)) in *. clearbody d d'. rewrite (both_olt _ _ _ _ D M).
  destruct (olt d md); (destruct (item_update k h c1 c2 m i d) as [[a b]|], (item_update k' h' c1 c2 m i d') as [[a' b']|]; cbn [opt_same] in U; try contradiction; [|apply IH; assumption]);
    (destruct U as (U1 & U2); cbn [fst snd] in U1, U2; subst a'; apply IH; [|assumption]; apply upd_cs; [exact H|]; intro Hi; destruct (obj_cs h h' i H Hi) as (X1 & X2 & X3 & X4 & _); repeat split; auto; apply X3).
Qed.

Definition st (a a' : cst) : Prop := Forall2 cs (heap a) (heap a') /\ queue a' = queue a /\ kds (ctree a) (ctree a').
Variable data data' : list point.
Hypothesis Hdata : Forall2 mv data data'.
Hypothesis HNR : 1 <= NR.
Hypothesis Hne : data <> [].
Lemma dims : dimension data = length v.
Proof. unfold dimension. destruct Hdata as [|p q l l' Hp Hl]; [congruence|]. apply Hp. Qed.
Lemma both_uniform : uniform (dimension data) data.
Proof. rewrite dims. clear Hne. intros p Hp. induction Hdata as [|a b l l' Ha Hl IH]; [contradiction|]. destruct Hp as [<-|Hp]; [apply Ha|apply IH; assumption]. Qed.
Lemma both_step a a' : sinv data NR comp a -> 2 <= length (queue a) -> st a a' -> same_run st (cure_step NR comp a) (cure_step NR comp a').
Proof.
  intros I Hl (H & Q & T). unfold cure_step. rewrite Q. destruct (queue a) as [|c1 q0] eqn:Eq; [reflexivity|]. rewrite <- Eq in Hl |- *.
  assert (I1 : In c1 (queue a)) by (rewrite Eq; left; reflexivity). destruct (s_closest _ _ _ _ I Hl c1 I1) as (c2 & Ec & I2 & Hn).
  destruct (s_obj _ _ _ _ I c1 I1) as (L1 & O1). destruct (s_obj _ _ _ _ I c2 I2) as (L2 & O2).
  pose proof (obj_cs _ _ c1 H L1) as C1. pose proof (obj_cs _ _ c2 H L2) as C2.
  destruct (obj_wk _ _ c1 H) as (_ & Ew & _). rewrite Ew, Ec. destruct (remove_first c1 (queue a)) as [q1|e]; cbn [bind]; [|reflexivity]. destruct (remove_first c2 q1) as [q2|e]; cbn [bind]; [|reflexivity].
  pose proof (both_delete _ _ c1 (proj1 (proj2 (proj2 (proj2 C1)))) _ _ T) as T1. destruct (delete_points (ctree a) (crep (obj (heap a) c1)) c1) as [t1|e], (delete_points (ctree a') (crep (obj (heap a') c1)) c1) as [t1'|e']; cbn [same_run bind] in T1 |- *; try exact T1; try (destruct T1; fail).
  pose proof (both_delete _ _ c2 (proj1 (proj2 (proj2 (proj2 C2)))) _ _ T1) as T2. destruct (delete_points t1 (crep (obj (heap a) c2)) c2) as [t2|e], (delete_points t1' (crep (obj (heap a') c2)) c2) as [t2'|e']; cbn [same_run bind] in T2 |- *; try exact T2; try (destruct T2; fail).
  assert (G : cs (merge_clusters NR comp (obj (heap a) c1) (obj (heap a) c2)) (merge_clusters NR comp (obj (heap a') c1) (obj (heap a') c2))).
  { apply both_merge; auto. rewrite (o_pts _ _ _ _ O1). pose proof (o_idx _ _ _ _ O1) as N. destruct (cidx (obj (heap a) c1)); [congruence|discriminate]. }
  set (g := merge_clusters NR comp (obj (heap a) c1) (obj (heap a) c2)) in *. set (g' := merge_clusters NR comp (obj (heap a') c1) (obj (heap a') c2)) in *. clearbody g g'.
  rewrite (both_length _ _ _ H). pose proof (both_insert_points _ _ (length (heap a)) (proj1 (proj2 (proj2 (proj2 G)))) _ _ T2) as T3.
  set (t3 := insert_points t2 (crep g) (length (heap a))) in *. set (t3' := insert_points t2' (crep g') (length (heap a))) in *. clearbody t3 t3'.
  assert (W : its_same (match q2 with [] => (heap a, None, None, []) | x :: _ => items_loop t3 g c1 c2 (length (heap a)) q2 (heap a) (Some x) (cluster_distance g (obj (heap a) x)) [] end)
                       (match q2 with [] => (heap a', None, None, []) | x :: _ => items_loop t3' g' c1 c2 (length (heap a)) q2 (heap a') (Some x) (cluster_distance g' (obj (heap a') x)) [] end)).
  { destruct q2 as [|x t]; [repeat split; auto|]. apply both_items; auto. apply both_distance; [apply G|apply (obj_wk _ _ x H)]. }
  destruct (match q2 with [] => (heap a, None, None, []) | x :: _ => _ end) as [[[h mc] md] req], (match q2 with [] => (heap a', None, None, []) | x :: _ => _ end) as [[[h' mc'] md'] req']. destruct W as (W1 & -> & W3 & ->).
  assert (V : Forall2 cs (h ++ [set_closest g mc md]) (h' ++ [set_closest g' mc md'])). { apply Forall2_app; [exact W1|]. constructor; [|constructor]. destruct G as (G1 & G2 & G3 & G4 & _). repeat split; auto; apply G3. }
  rewrite (both_insert_cluster _ _ (length (heap a)) q2 V), (both_relocate _ _ req V). destruct (relocate_all _ _ _); cbn [bind same_run]; [|reflexivity]. repeat split; cbn [heap queue ctree]; auto; apply T3.
Qed.
Lemma both_loop number : 1 <= number -> forall fuel a a', sinv data NR comp a -> st a a' -> same_run st (cure_loop NR comp fuel number a) (cure_loop NR comp fuel number a').
Proof.
  intro Hn. induction fuel as [|fuel IH]; intros a a' I H; cbn [cure_loop]; destruct H as (H1 & H2 & H3); rewrite H2; destruct (Nat.ltb_spec number (length (queue a))) as [Hq|Hq]; cbn [same_run]; try (repeat split; auto; apply H3).
  assert (HD : 0 < dimension data) by (rewrite dims; exact Hv). destruct (step_spec data NR comp HNR HD both_uniform a I ltac:(lia)) as (b & Eb & Ib & _).
  pose proof (both_step a a' I ltac:(lia) (conj H1 (conj H2 H3))) as S. rewrite Eb in S |- *. destruct (cure_step NR comp a') as [b'|e]; cbn [same_run bind] in S |- *; [|contradiction]. apply IH; assumption.
Qed.

(** ** the start *)
Lemma singles : Forall2 cs (map (singleton data) (seq 0 (length data))) (map (singleton data') (seq 0 (length data))).
Proof.
  assert (G : forall l, (forall i, In i l -> i < length data) -> Forall2 cs (map (singleton data) l) (map (singleton data') l)).
  { induction l as [|i l IH]; intro B; cbn [map]; constructor; [|apply IH; intros; apply B; right; assumption]. pose proof (nth_moved s v _ _ Hdata i (B i (or_introl eq_refl))) as P. unfold singleton. repeat split; cbn [cpts cidx cmean crep cclosest cdist]; auto; apply P. }
  apply G. intros i Hi. apply in_seq in Hi. lia.
Qed.
Lemma both_first h h' i : Forall2 cs h h' -> found (first_closest h i) (first_closest h' i).
Proof.
  intro H. unfold first_closest. rewrite (both_length _ _ _ H).
  assert (D : forall k, ts (match cluster_distance (obj h i) (obj h k) with Some d => d | None => 0%Q end) (match cluster_distance (obj h' i) (obj h' k) with Some d => d | None => 0%Q end)).
  { intro k. pose proof (both_distance (obj h i) (obj h' i) (obj h k) (obj h' k) (proj1 (obj_wk h h' i H)) (proj1 (obj_wk h h' k H))) as M. destruct (cluster_distance _ _), (cluster_distance _ _); cbn [times_opt] in M; try contradiction; [exact M|unfold times; ring]. }
  rewrite (times_min_by (s * s) ss_pos _ _ (filter (fun k => negb (k =? i)) (seq 0 (length h))) (fun k _ => D k)). destruct (min_by _ _) as [k|]; split; cbn [fst snd]; auto; [apply D|exact I].
Qed.
Lemma both_heap : Forall2 cs (create_heap data) (create_heap data').
Proof.
  unfold create_heap. rewrite (both_length _ _ _ Hdata). pose proof singles as S. set (h := map (singleton data) (seq 0 (length data))) in *. set (h' := map (singleton data') (seq 0 (length data))) in *.
  assert (L : length h = length data) by (unfold h; now rewrite map_length, seq_length). clearbody h h'.
  assert (G : forall l, (forall i, In i l -> i < length data) -> Forall2 cs (map (fun i => let '(c, d) := first_closest h i in set_closest (obj h i) c d) l) (map (fun i => let '(c, d) := first_closest h' i in set_closest (obj h' i) c d) l)).
  { induction l as [|i l IH]; intro B; cbn [map]; constructor; [|apply IH; intros; apply B; right; assumption]. destruct (both_first h h' i S) as (F1 & F2). destruct (first_closest h i) as [c d], (first_closest h' i) as [c' d']. cbn [fst snd] in F1, F2. subst c'.
    destruct (obj_cs h h' i S ltac:(rewrite L; apply B; left; reflexivity)) as (X1 & X2 & X3 & X4 & _). repeat split; auto; apply X3. }
  apply G. intros i Hi. apply in_seq in Hi. lia.
Qed.
Lemma both_queue : create_queue data' = create_queue data.
Proof.
  unfold create_queue. rewrite (both_length _ _ _ Hdata). apply (Opticsunit_Props.sort_same (s * s) ss_pos). intro i. pose proof (proj2 (proj2 (obj_wk _ _ i both_heap))) as D.
  destruct (cdist (obj (create_heap data) i)), (cdist (obj (create_heap data') i)); cbn [times_opt] in D; try contradiction; [exact D|unfold times; ring].
Qed.
Lemma both_tree h h' q : Forall2 cs h h' -> same_run kds (create_kdtree h q) (create_kdtree h' q).
Proof.
  intro H. unfold create_kdtree. assert (X : Forall2 its (flat_map (rep_items h) q) (flat_map (rep_items h') q)).
  { induction q as [|i q IH]; cbn [flat_map]; [constructor|]. apply Forall2_app; [|exact IH]. unfold rep_items. pose proof (proj1 (obj_wk h h' i H)) as R. induction R; cbn [map]; constructor; auto. split; [reflexivity|assumption]. }
  set (l := flat_map (rep_items h) q) in *. set (l' := flat_map (rep_items h') q) in *. clearbody l l'. unfold build. pose proof (both_length _ _ _ X) as LX. pose proof (both_create s v Hs (length l) _ _ 0 X) as T.
  destruct X as [|x x' t t' Hx Ht]; [reflexivity|]. destruct Hx as (_ & D1 & D2 & _). rewrite D1, D2, LX.
  destruct (create_tree (length (x :: t)) (length v) (x :: t) 0) as [tr|e], (create_tree (length (x :: t)) (length v) (x' :: t') 0) as [tr'|e']; cbn [same_run bind] in T |- *; try exact T; try (destruct T; fail).
  repeat split; cbn [root dim len]; auto. now rewrite (both_size _ _ T).
Qed.
Lemma both_cure number : same_run st (cure data NR comp number) (cure data' NR comp number).
Proof.
  unfold cure. pose proof (both_length _ _ _ Hdata) as L. destruct data as [|p t] eqn:Ed; [congruence|]. destruct data' as [|p' t'] eqn:Ed'; [discriminate|]. rewrite <- Ed, <- Ed' in *.
  destruct (Nat.eqb_spec number 0) as [|Hz]; [reflexivity|]. destruct (Qltb comp 0); [reflexivity|]. destruct (NR =? 0); [reflexivity|].
  rewrite both_queue. pose proof (both_tree _ _ (create_queue data) both_heap) as T. assert (HD : 0 < dimension data) by (rewrite dims; exact Hv).
  destruct (initial_spec data NR comp HNR HD both_uniform Hne) as (k & Ek & I). rewrite Ek in T |- *. destruct (create_kdtree (create_heap data') (create_queue data)) as [k'|e]; cbn [same_run bind] in T |- *; [|contradiction].
  rewrite L. apply both_loop; [lia|exact I|]. repeat split; cbn [heap queue ctree]; auto; try apply T. exact both_heap.
Qed.
End Run.

(** ** C284 *)
(** same clusters, means and representatives moved *)
Definition cure_same (s : Q) (v : point) (a b : cst) : Prop :=
  clusters b = clusters a /\ Forall2 (moved s v) (means a) (means b) /\ Forall2 (Forall2 (moved s v)) (representors a) (representors b).

Theorem C284_unit s v data data' number represent compression :
  (0 < s)%Q -> 0 < length v -> Forall2 (moved s v) data data' ->
  same_run (cure_same s v) (cure data represent compression number) (cure data' represent compression number).
Proof.
  intros Hs Hv H. destruct data as [|p t]; [inversion H; subst; reflexivity|]. assert (Hne : p :: t <> []) by discriminate. set (data := p :: t) in *. clearbody data.
  destruct (Nat.eq_dec represent 0) as [->|Hr].
  { inversion H as [E|? ? ? ? ? ? E]; subst; [congruence|]. unfold cure. destruct (number =? 0); [reflexivity|]. destruct (Qltb compression 0); reflexivity. }
  pose proof (both_cure s v Hs Hv represent compression data data' H ltac:(lia) Hne number) as R.
  destruct (Nat.eq_dec number 0) as [->|Hn]. { inversion H as [E|? ? ? ? ? ? E]; subst; [congruence|]. reflexivity. }
  destruct (Qltb compression 0) eqn:Ec. { inversion H as [E|? ? ? ? ? ? E]; subst; [congruence|]. unfold cure. rewrite Ec. destruct (number =? 0); reflexivity. }
  assert (Hc : (0 <= compression)%Q) by (apply Qltb_false in Ec; exact Ec). assert (HD : 0 < dimension data) by (rewrite (dims s v data data' H Hne); exact Hv).
  destruct (cure_spec data represent compression ltac:(lia) HD (both_uniform s v data data' H Hne) number Hne Hc ltac:(lia)) as (a & Ea & I & _).
  rewrite Ea in R |- *. destruct (cure data' represent compression number) as [b|e]; cbn [same_run] in R |- *; [|contradiction]. destruct R as (R1 & R2 & _).
  assert (B : forall i, In i (queue a) -> cs s v (obj (heap a) i) (obj (heap b) i)) by (intros i Hi; apply obj_cs; try assumption; apply (s_obj _ _ _ _ I i Hi)).
  unfold cure_same, clusters, means, representors. rewrite R2. clear - B. induction (queue a) as [|i q IH]; cbn [map]; [repeat split; constructor|].
  destruct IH as (E1 & E2 & E3); [intros; apply B; right; assumption|]. destruct (B i (or_introl eq_refl)) as (_ & X2 & X3 & X4 & _). split; [congruence|]. split; constructor; assumption.
Qed.
Print Assumptions C284_unit.

(** centimetres for metres and another origin: six points, three clusters *)
Example C284_example :
  let data := [[0;0];[1;0];[0;0];[9;9];[9;8];[5;0]]%Q in let data' := [[7;-3];[107;-3];[7;-3];[907;897];[907;797];[507;-3]]%Q in
  Forall2 (moved 100 [7;-3]%Q) data data' /\
  (exists a, cure data 2 (1 # 2) 3 = Ok a /\ clusters a = [[0;2;1]; [5]; [3;4]]) /\
  exists b, cure data' 2 (1 # 2) 3 = Ok b /\ clusters b = [[0;2;1]; [5]; [3;4]].
Proof.
  split; [|split; eexists; split; vm_compute; reflexivity].
  repeat constructor; intros [|[|d]] Hd; cbn in Hd; try lia; vm_compute; reflexivity.
Qed.
