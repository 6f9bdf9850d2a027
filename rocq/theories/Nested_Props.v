(** C235 and C71: results with fewer clusters are made from results with more clusters. *)
From Verif Require Import Base Kmeans_Model Kmeans_Proofs Kd_Model.
From Verif Require Aggl_Model Aggl_Proofs Rock_Model Rock_Proofs Cure_Model Cure_Proofs Cure_Props.
From Coq Require Import Reals Lia Lqa.
Open Scope nat_scope.

(** two clusters of the first result are one of the second, all others are kept *)
Definition joined (cl cl' : list (list nat)) : Prop :=
  exists a b rest, Permutation cl (a :: b :: rest) /\ Permutation cl' ((a ++ b) :: rest).
(** every cluster of the first result lies in one of the second *)
Definition refines (cl cl' : list (list nat)) : Prop := forall c, In c cl -> exists c', In c' cl' /\ incl c c'.

Inductive merges : list (list nat) -> list (list nat) -> Prop :=
| merges_none cl : merges cl cl
| merges_one cl cl1 cl2 : joined cl cl1 -> merges cl1 cl2 -> merges cl cl2.

Lemma joined_refines cl cl' : joined cl cl' -> refines cl cl'.
Proof.
  intros (a & b & rest & P & P') c Hc. apply (Permutation_in _ P) in Hc. destruct Hc as [<-|[<-|Hc]].
  - exists (a ++ b). split; [apply (Permutation_in _ (Permutation_sym P')); left; reflexivity|]. intros x Hx. apply in_app_iff. auto.
  - exists (a ++ b). split; [apply (Permutation_in _ (Permutation_sym P')); left; reflexivity|]. intros x Hx. apply in_app_iff. auto.
  - exists c. split; [apply (Permutation_in _ (Permutation_sym P')); right; exact Hc|]. intros x Hx. exact Hx.
Qed.

Lemma merges_refines cl cl' : merges cl cl' -> refines cl cl'.
Proof.
  induction 1 as [cl|cl cl1 cl2 J M IH]; intros c Hc; [exists c; split; [exact Hc|intros x Hx; exact Hx]|].
  destruct (joined_refines _ _ J c Hc) as (c1 & H1 & I1). destruct (IH c1 H1) as (c2 & H2 & I2). exists c2. split; [exact H2|]. intros x Hx. apply I2, I1, Hx.
Qed.

Lemma joined_length cl cl' : joined cl cl' -> length cl = S (length cl').
Proof. intros (a & b & rest & P & P'). apply Permutation_length in P, P'. cbn in *. lia. Qed.

(** a chain of one merge less in the length is one merge *)
Lemma merges_one_less cl cl' : merges cl cl' -> length cl = S (length cl') -> joined cl cl'.
Proof.
  intros M L. inversion M as [|? cl1 ? J M1]; subst; [lia|]. pose proof (joined_length _ _ J) as L1. inversion M1 as [|? cl2 ? J2 M2]; subst; [exact J|].
  exfalso. pose proof (joined_length _ _ J2) as L2. assert (X : forall a b, merges a b -> length b <= length a) by (induction 1 as [|a1 a2 a3 J' M' IH]; [lia|apply joined_length in J'; lia]).
  apply X in M2. lia.
Qed.

Lemma merged_joined (cl : list (list nat)) i j : i < j -> j < length cl -> joined cl (Aggl_Model.pop (upd cl i (nth i cl [] ++ nth j cl [])) j).
Proof.
  intros Hij Hj. destruct (Aggl_Proofs.split_two cl i j [] Hij Hj) as (before & mid & after & Ec & Ei & Ej).
  rewrite (Aggl_Proofs.merged_list cl i j (nth i cl [] ++ nth j cl []) [] before mid after Ec Ei Ej).
  exists (nth i cl []), (nth j cl []), (before ++ mid ++ after). split.
  - rewrite Ec at 1. rewrite <- Permutation_middle. constructor. rewrite app_assoc. rewrite <- Permutation_middle. constructor. rewrite <- app_assoc. reflexivity.
  - symmetry. apply Permutation_middle.
Qed.

(** ** agglomerative clustering *)
Section Agglomerative.
Import Aggl_Model.
Variables (data : list point) (l : link).

Lemma aggl_step_joined s s' : merge_step data l s = Ok s' -> joined (clusters s) (clusters s').
Proof.
  unfold merge_step. set (k := match l with CentroidLink => length (centers s) | _ => length (clusters s) end).
  destruct (min_by (pair_value data l s) (pairs k)) as [[i j]|] eqn:E; [|discriminate].
  destruct (Nat.ltb_spec j (length (clusters s))) as [Hj|]; [|discriminate]. intro H. injection H as <-. cbn [clusters].
  apply min_by_spec in E. destruct E as (Hin & _). apply Aggl_Proofs.pairs_in in Hin. apply merged_joined; lia.
Qed.

Lemma aggl_loop_merges : forall f k s s', merge_loop data l f k s = Ok s' -> merges (clusters s) (clusters s').
Proof.
  induction f as [|f IH]; intros k s s' E; cbn [merge_loop] in E; destruct (k <? length (clusters s)); try discriminate; try (injection E as <-; constructor).
  destruct (merge_step data l s) as [s1|] eqn:E1; cbn [bind] in E; [|discriminate]. apply merges_one with (clusters s1); [apply aggl_step_joined; exact E1|eapply IH; exact E].
Qed.

Lemma aggl_loop_continue : forall f m k s s1 s2, k <= m -> merge_loop data l f m s = Ok s1 -> merge_loop data l f k s = Ok s2 -> exists f', merge_loop data l f' k s1 = Ok s2.
Proof.
  induction f as [|f IH]; intros m k s s1 s2 H E1 E2.
  - cbn [merge_loop] in E1. destruct (m <? length (clusters s)); [discriminate|]. injection E1 as <-. exists 0. exact E2.
  - cbn [merge_loop] in E1. destruct (Nat.ltb_spec m (length (clusters s))) as [L|L]; [|injection E1 as <-; exists (S f); exact E2].
    cbn [merge_loop] in E2. destruct (Nat.ltb_spec k (length (clusters s))) as [L2|L2]; [|lia].
    destruct (merge_step data l s) as [s0|]; cbn [bind] in *; [|discriminate]. exact (IH m k s0 s1 s2 H E1 E2).
Qed.
End Agglomerative.

(** every link; the results for k and k + 1 clusters differ by one merge *)
Theorem C235_agglomerative (data : list point) l k m s_m s_k : uniform (dimension data) data -> 1 <= k -> k <= m ->
  Aggl_Model.agglomerative data l m = Ok s_m -> Aggl_Model.agglomerative data l k = Ok s_k ->
  refines (Aggl_Model.clusters s_m) (Aggl_Model.clusters s_k) /\
  (m = S k -> k < length data -> joined (Aggl_Model.clusters s_m) (Aggl_Model.clusters s_k)).
Proof.
  intros Hu H1 Hk Em Ek.
  assert (M : merges (Aggl_Model.clusters s_m) (Aggl_Model.clusters s_k)).
  { unfold Aggl_Model.agglomerative, Aggl_Model.new in Em, Ek. destruct data as [|p t]; [discriminate|]. destruct (Nat.eqb_spec m 0); [lia|]. destruct (Nat.eqb_spec k 0); [lia|]. cbn [bind] in Em, Ek.
    unfold Aggl_Model.process in Em, Ek. destruct (aggl_loop_continue _ _ _ _ _ _ _ _ Hk Em Ek) as (f' & E). eapply aggl_loop_merges. exact E. }
  split; [apply merges_refines; exact M|]. intros -> Hl. apply merges_one_less; [exact M|].
  assert (Hne : data <> []) by (intros ->; cbn in Hl; lia).
  assert (L : forall n s, 1 <= n -> Aggl_Model.agglomerative data l n = Ok s -> length (Aggl_Model.clusters s) = Nat.min (length data) n).
  { intros n s Hn E. destruct (Aggl_Proofs.agglomerative_spec data l n Hne Hu Hn) as (s' & E' & _ & _ & L & _). rewrite E in E'. injection E' as <-. exact L. }
  rewrite (L (S k) s_m ltac:(lia) Em), (L k s_k H1 Ek). lia.
Qed.
Print Assumptions C235_agglomerative.

(** ** ROCK *)
Section Rock.
Import Rock_Model.
Variables (data : list point) (eps : Q) (threshold : R).

Lemma rock_find_in cl : forall ps mx best i j, find_loop data eps threshold cl ps mx best = Ok (Some (i, j)) -> In (i, j) ps \/ best = Some (i, j).
Proof.
  induction ps as [|[a b] ps IH]; intros mx best i j E; cbn [find_loop] in E; [injection E as ->; auto|].
  destruct (calculate_goodness data eps threshold (nth a cl []) (nth b cl [])) as [g|]; cbn [bind] in E; [|discriminate].
  destruct (Rlt_dec mx g).
  - destruct (IH _ _ _ _ E) as [H|H]; [left; right; exact H|]. injection H as -> ->. left. left. reflexivity.
  - destruct (IH _ _ _ _ E) as [H|H]; [left; right; exact H|auto].
Qed.

Lemma rock_step_joined cl i j : find_pair_clusters data eps threshold cl = Ok (Some (i, j)) -> joined cl (Aggl_Model.pop (upd cl i (nth i cl [] ++ nth j cl [])) j).
Proof.
  intro E. apply rock_find_in in E. destruct E as [E|E]; [|discriminate]. apply Aggl_Proofs.pairs_in in E. apply merged_joined; lia.
Qed.

Lemma rock_loop_merges : forall f k cl cl', rock_loop data eps threshold f k cl = Ok cl' -> merges cl cl'.
Proof.
  induction f as [|f IH]; intros k cl cl' E; cbn [rock_loop] in E; destruct (k <? length cl); try discriminate; try (injection E as <-; constructor).
  destruct (find_pair_clusters data eps threshold cl) as [[[i j]|]|] eqn:E1; cbn [bind] in E; [|injection E as <-; constructor|discriminate].
  eapply merges_one; [apply rock_step_joined; exact E1|eapply IH; exact E].
Qed.

Lemma rock_loop_continue : forall f m k cl cl1 cl2, k <= m -> rock_loop data eps threshold f m cl = Ok cl1 -> rock_loop data eps threshold f k cl = Ok cl2 ->
  exists f', rock_loop data eps threshold f' k cl1 = Ok cl2.
Proof.
  induction f as [|f IH]; intros m k cl cl1 cl2 H E1 E2.
  - cbn [rock_loop] in E1. destruct (m <? length cl); [discriminate|]. injection E1 as <-. exists 0. exact E2.
  - cbn [rock_loop] in E1. destruct (Nat.ltb_spec m (length cl)) as [L|L]; [|injection E1 as <-; exists (S f); exact E2].
    assert (E2' := E2). cbn [rock_loop] in E2. destruct (Nat.ltb_spec k (length cl)) as [L2|L2]; [|lia].
    destruct (find_pair_clusters data eps threshold cl) as [[[i j]|]|]; cbn [bind] in *; [|injection E1 as <-; exists (S f); exact E2'|discriminate]. exact (IH m k _ cl1 cl2 H E1 E2).
Qed.
End Rock.

Theorem C235_rock (data : list point) eps threshold k m cl_m cl_k : 1 <= k -> k <= m ->
  Rock_Model.rock data eps threshold m = Ok cl_m -> Rock_Model.rock data eps threshold k = Ok cl_k ->
  refines cl_m cl_k /\ (length cl_m = S (length cl_k) -> joined cl_m cl_k).
Proof.
  intros H1 Hk Em Ek. assert (M : merges cl_m cl_k).
  { unfold Rock_Model.rock in Em, Ek. destruct data as [|p t]; [discriminate|]. destruct (Qltb eps 0); [discriminate|]. destruct (Rlt_dec threshold 0); [discriminate|]. destruct (Rlt_dec 1 threshold); [discriminate|].
    destruct (Nat.eqb_spec m 0); [lia|]. destruct (Nat.eqb_spec k 0); [lia|]. destruct (rock_loop_continue _ _ _ _ _ _ _ _ _ Hk Em Ek) as (f' & E). eapply rock_loop_merges. exact E. }
  split; [apply merges_refines; exact M|apply merges_one_less; exact M].
Qed.
Print Assumptions C235_rock.

(** ** CURE *)
Section Cure.
Import Cure_Model Cure_Proofs.
Variables (NR : nat) (compression : Q).

Lemma at_end (h : list ccl) x : obj (h ++ [x]) (length h) = x.
Proof. unfold obj. rewrite app_nth2, Nat.sub_diag by lia. reflexivity. Qed.
Lemma not_at_end (h : list ccl) x i : i < length h -> obj (h ++ [x]) i = obj h i.
Proof. intro H. unfold obj. apply app_nth1. exact H. Qed.

Lemma items_same k merged c1 c2 m : forall q h mc md req h' mc' md' req', items_loop k merged c1 c2 m q h mc md req = (h', mc', md', req') ->
  length h' = length h /\ forall i, same_obj (obj h i) (obj h' i).
Proof.
  induction q as [|it q IH]; intros h mc md req h' mc' md' req' E; cbn [items_loop] in E; [injection E as <- _ _ _; split; [reflexivity|intro i; repeat split]|].
  destruct (if olt (cluster_distance merged (obj h it)) md then (Some it, cluster_distance merged (obj h it)) else (mc, md)) as [mc1 md1].
  destruct (item_update k h c1 c2 m it (cluster_distance merged (obj h it))) as [[cl d]|]; [|exact (IH _ _ _ _ _ _ _ _ E)].
  destruct (IH _ _ _ _ _ _ _ _ E) as (L & S). rewrite upd_length in L. split; [exact L|]. intro i. specialize (S i).
  destruct (Nat.eq_dec i it) as [->|N].
  - destruct (Nat.lt_ge_cases it (length h)) as [B|B].
    + unfold obj in S at 1. rewrite upd_nth_eq in S by exact B. exact S.
    + unfold obj in S at 1. rewrite nth_overflow in S by (rewrite upd_length; exact B). unfold obj at 1. rewrite nth_overflow by exact B. exact S.
  - unfold obj in S at 1. rewrite upd_nth_neq in S by congruence. exact S.
Qed.

Lemma remove_first_perm x : forall q q', remove_first x q = Ok q' -> Permutation q (x :: q').
Proof.
  induction q as [|y t IH]; intros q' E; cbn [remove_first] in E; [discriminate|]. destruct (Nat.eqb_spec y x) as [->|N]; [injection E as <-; reflexivity|].
  destruct (remove_first x t) as [t'|]; cbn [bind] in E; [|discriminate]. injection E as <-. rewrite (IH t' eq_refl). apply perm_swap.
Qed.

Lemma relocate_all_perm h : forall cs q q', relocate_all h q cs = Ok q' -> Permutation q q'.
Proof.
  induction cs as [|c cs IH]; intros q q' E; cbn [relocate_all] in E; [injection E as <-; reflexivity|]. unfold relocate_cluster in E.
  destruct (remove_first c q) as [q1|] eqn:E1; cbn [bind] in E; [|discriminate]. rewrite <- (IH _ _ E). rewrite insert_cluster_perm. apply remove_first_perm. exact E1.
Qed.

(** one turn joins the first cluster of the queue with the one recorded as its closest *)
Lemma cure_step_joined s s' : (forall i, In i (queue s) -> i < length (heap s)) -> NoDup (queue s) -> cure_step NR compression s = Ok s' ->
  (forall i, In i (queue s') -> i < length (heap s')) /\ NoDup (queue s') /\
  exists c1 c2 rest, Permutation (queue s) (c1 :: c2 :: rest) /\ hd 0 (queue s) = c1 /\ cclosest (obj (heap s) c1) = Some c2 /\
    Permutation (clusters s) (cidx (obj (heap s) c1) :: cidx (obj (heap s) c2) :: map (fun i => cidx (obj (heap s) i)) rest) /\
    Permutation (clusters s') ((cidx (obj (heap s) c1) ++ cidx (obj (heap s) c2)) :: map (fun i => cidx (obj (heap s) i)) rest).
Proof.
  intros Hb Hn E. unfold cure_step in E. destruct (queue s) as [|c1 q0] eqn:Eq; [discriminate|].
  destruct (cclosest (obj (heap s) c1)) as [c2|] eqn:Ec; [|discriminate].
  destruct (remove_first c1 (c1 :: q0)) as [q1|] eqn:E1; cbn [bind] in E; [|discriminate]. destruct (remove_first c2 q1) as [q2|] eqn:E2; cbn [bind] in E; [|discriminate].
  destruct (delete_points (ctree s) (crep (obj (heap s) c1)) c1) as [t1|]; cbn [bind] in E; [|discriminate]. destruct (delete_points t1 (crep (obj (heap s) c2)) c2) as [t2|]; cbn [bind] in E; [|discriminate].
  set (merged := merge_clusters NR compression (obj (heap s) c1) (obj (heap s) c2)) in *. set (m := length (heap s)) in *. set (t3 := insert_points t2 (crep merged) m) in *.
  assert (P : Permutation (c1 :: q0) (c1 :: c2 :: q2)) by (rewrite (remove_first_perm _ _ _ E1); constructor; apply remove_first_perm; exact E2).
  set (IL := match q2 with [] => _ | x :: _ => _ end) in E. destruct IL as [[[h mc] md] req] eqn:EI. unfold IL in EI.
  assert (So : length h = length (heap s) /\ forall i, same_obj (obj (heap s) i) (obj h i)).
  { destruct q2 as [|x q2']; [injection EI as <- _ _ _; split; [reflexivity|intro i; repeat split]|]. eapply items_same. exact EI. }
  destruct So as (Lh & So). set (h' := h ++ [set_closest merged mc md]) in *.
  destruct (relocate_all h' (insert_cluster h' m q2) req) as [q3|] eqn:E3; cbn [bind] in E; [|discriminate]. injection E as <-.
  apply relocate_all_perm in E3. rewrite insert_cluster_perm in E3. cbn [queue heap].
  assert (Hq2 : forall i, In i q2 -> i < length (heap s)) by (intros i Hi; apply Hb, (Permutation_in _ (Permutation_sym P)); right; right; exact Hi).
  assert (Lh' : length h' = S m) by (unfold h'; rewrite app_length, Lh; cbn; unfold m; lia).
  split; [|split].
  - intros i Hi. apply (Permutation_in _ (Permutation_sym E3)) in Hi. rewrite Lh'. destruct Hi as [<-|Hi]; [lia|]. apply Hq2 in Hi. unfold m. lia.
  - apply (Permutation_NoDup E3). apply (Permutation_NoDup P) in Hn. inversion Hn as [|? ? _ Hn1]; subst. inversion Hn1; subst. constructor; [|assumption]. intro H. apply Hq2 in H. unfold m in H. lia.
  - exists c1, c2, q2. split; [exact P|]. split; [reflexivity|]. split; [exact Ec|]. split.
    + unfold clusters. rewrite Eq. apply (Permutation_map (fun i => cidx (obj (heap s) i))) in P. exact P.
    + unfold clusters. cbn [queue heap]. rewrite <- (Permutation_map (fun i => cidx (obj h' i)) E3). cbn [map]. unfold h' at 1, m. rewrite <- Lh, at_end. cbn [set_closest cidx]. unfold merged, merge_clusters. cbn [cidx].
      constructor. match goal with |- Permutation ?a ?b => assert (a = b) as -> end; [|reflexivity]. apply map_ext_in. intros i Hi. unfold h'. rewrite not_at_end by (rewrite Lh; apply Hq2; exact Hi). destruct (So i) as (_ & E4 & _). symmetry. exact E4.
Qed.

Lemma cure_loop_merges : forall f k s s', (forall i, In i (queue s) -> i < length (heap s)) -> NoDup (queue s) -> cure_loop NR compression f k s = Ok s' -> merges (clusters s) (clusters s').
Proof.
  induction f as [|f IH]; intros k s s' Hb Hn E; cbn [cure_loop] in E; destruct (k <? length (queue s)); try discriminate; try (injection E as <-; constructor).
  destruct (cure_step NR compression s) as [s1|] eqn:E1; cbn [bind] in E; [|discriminate]. destruct (cure_step_joined s s1 Hb Hn E1) as (B1 & N1 & c1 & c2 & rest & _ & _ & _ & P1 & P2).
  apply merges_one with (clusters s1); [eexists; eexists; eexists; split; [exact P1|exact P2]|eapply IH; eauto].
Qed.

Lemma cure_loop_continue : forall f m k s s1 s2, k <= m -> (forall i, In i (queue s) -> i < length (heap s)) -> NoDup (queue s) ->
  cure_loop NR compression f m s = Ok s1 -> cure_loop NR compression f k s = Ok s2 ->
  exists f', cure_loop NR compression f' k s1 = Ok s2 /\ (forall i, In i (queue s1) -> i < length (heap s1)) /\ NoDup (queue s1).
Proof.
  induction f as [|f IH]; intros m k s s1 s2 H Hb Hn E1 E2.
  - cbn [cure_loop] in E1. destruct (m <? length (queue s)); [discriminate|]. injection E1 as <-. exists 0. auto.
  - cbn [cure_loop] in E1. destruct (Nat.ltb_spec m (length (queue s))) as [L|L]; [|injection E1 as <-; exists (S f); auto].
    cbn [cure_loop] in E2. destruct (Nat.ltb_spec k (length (queue s))) as [L2|L2]; [|lia].
    destruct (cure_step NR compression s) as [s0|] eqn:E0; cbn [bind] in *; [|discriminate]. destruct (cure_step_joined s s0 Hb Hn E0) as (B1 & N1 & _). exact (IH m k s0 s1 s2 H B1 N1 E1 E2).
Qed.

Lemma start_heap data : (forall i, In i (create_queue data) -> i < length (create_heap data)) /\ NoDup (create_queue data).
Proof.
  pose proof (queue_perm data) as P. split.
  - intros i Hi. apply (Permutation_in _ P), in_seq in Hi. unfold create_heap. rewrite map_length, seq_length. lia.
  - apply (Permutation_NoDup (Permutation_sym P)), seq_NoDup.
Qed.
End Cure.

Theorem C235_cure (data : list point) represent compression k m s_m s_k : 1 <= k -> k <= m ->
  Cure_Model.cure data represent compression m = Ok s_m -> Cure_Model.cure data represent compression k = Ok s_k ->
  refines (Cure_Model.clusters s_m) (Cure_Model.clusters s_k) /\
  (length (Cure_Model.clusters s_m) = S (length (Cure_Model.clusters s_k)) -> joined (Cure_Model.clusters s_m) (Cure_Model.clusters s_k)).
Proof.
  intros H1 Hk Em Ek. assert (M : merges (Cure_Model.clusters s_m) (Cure_Model.clusters s_k)).
  { unfold Cure_Model.cure in Em, Ek. destruct data as [|p t] eqn:Ed; [discriminate|]. rewrite <- Ed in *. destruct (Nat.eqb_spec m 0); [lia|]. destruct (Nat.eqb_spec k 0); [lia|].
    destruct (Qltb compression 0); [discriminate|]. destruct (Nat.eqb_spec represent 0); [discriminate|].
    destruct (Cure_Model.create_kdtree (Cure_Model.create_heap data) (Cure_Model.create_queue data)) as [tr|]; cbn [bind] in Em, Ek; [|discriminate].
    destruct (start_heap data) as (B & N). destruct (cure_loop_continue _ _ _ _ _ (Cure_Model.mkS (Cure_Model.create_heap data) (Cure_Model.create_queue data) tr) _ _ Hk B N Em Ek) as (f' & E & B1 & N1). eapply cure_loop_merges; eauto. }
  split; [apply merges_refines; exact M|apply merges_one_less; exact M].
Qed.
Print Assumptions C235_cure.

(** ** C71: the first merge of CURE is of two closest points *)
Theorem C71_first_merge (data : list point) represent compression : 2 <= length data -> 0 < dimension data -> uniform (dimension data) data -> (0 <= compression)%Q -> 1 <= represent ->
  exists s a b rest, Cure_Model.cure data represent compression (length data - 1) = Ok s /\
    Permutation (seq 0 (length data)) (a :: b :: rest) /\ Permutation (Cure_Model.clusters s) ([a; b] :: map (fun i => [i]) rest) /\
    forall i j, i < length data -> j < length data -> i <> j -> (sqdist (nth a data []) (nth b data []) <= sqdist (nth i data []) (nth j data []))%Q.
Proof.
  intros Hl HD Hu Hc Hr. assert (Hne : data <> []) by (intros ->; cbn in Hl; lia).
  destruct (Cure_Proofs.cure_spec data represent compression Hr HD Hu (length data - 1) Hne Hc ltac:(lia)) as (s & E & _ & _). exists s.
  assert (E' := E). unfold Cure_Model.cure in E'. destruct data as [|p t] eqn:Ed; [discriminate|]. rewrite <- Ed in *. destruct (Nat.eqb_spec (length data - 1) 0); [lia|].
  destruct (Qltb compression 0); [discriminate|]. destruct (Nat.eqb_spec represent 0); [discriminate|].
  destruct (Cure_Model.create_kdtree (Cure_Model.create_heap data) (Cure_Model.create_queue data)) as [tr|]; cbn [bind] in E'; [|discriminate].
  destruct (start_heap data) as (B & N). pose proof (Cure_Proofs.queue_perm data) as Pq.
  assert (Lq : length (Cure_Model.create_queue data) = length data) by (rewrite (Permutation_length Pq), seq_length; reflexivity).
  set (s0 := Cure_Model.mkS (Cure_Model.create_heap data) (Cure_Model.create_queue data) tr) in *.
  assert (Ef : exists f, length data = S f) by (exists (length data - 1); lia). destruct Ef as (f & Ef). rewrite Ef in E' at 1. cbn [Cure_Model.cure_loop] in E'.
  change (Cure_Model.queue s0) with (Cure_Model.create_queue data) in E'. rewrite Lq in E'. destruct (Nat.ltb_spec (length data - 1) (length data)) as [_|]; [|lia].
  destruct (Cure_Model.cure_step represent compression s0) as [s1|] eqn:E1; cbn [bind] in E'; [|discriminate].
  destruct (cure_step_joined represent compression s0 s1 B N E1) as (_ & _ & a & b & rest & P & Ha & Hb & _ & P2).
  assert (L1 : length (Cure_Model.queue s1) = length data - 1).
  { apply Permutation_length in P. apply Permutation_length in P2. unfold Cure_Model.clusters in P2. cbn [length] in P, P2. rewrite !map_length in P2. change (Cure_Model.queue s0) with (Cure_Model.create_queue data) in P. lia. }
  assert (E2 : Cure_Model.cure_loop represent compression f (length data - 1) s1 = Ok s1) by (destruct f as [|f]; cbn [Cure_Model.cure_loop]; rewrite L1, Nat.ltb_irrefl; reflexivity).
  rewrite E2 in E'. injection E' as ->. change (Cure_Model.queue s0) with (Cure_Model.create_queue data) in P, Ha. change (Cure_Model.heap s0) with (Cure_Model.create_heap data) in *.
  assert (Pn : Permutation (seq 0 (length data)) (a :: b :: rest)) by (rewrite <- Pq; exact P).
  assert (R : forall i, In i (a :: b :: rest) -> i < length data) by (intros i Hi; apply (Permutation_in _ (Permutation_sym Pn)), in_seq in Hi; lia).
  assert (Ci : forall i, i < length data -> Cure_Model.cidx (Cure_Model.obj (Cure_Model.create_heap data) i) = [i]).
  { intros i Hi. destruct (Cure_Proofs.create_heap_obj data represent Hr HD i Hi) as (x & y & -> & _). reflexivity. }
  exists a, b, rest. split; [exact E|]. split; [exact Pn|]. split.
  { rewrite P2. rewrite (Ci a), (Ci b) by (apply R; cbn; auto). cbn [app]. constructor. match goal with |- Permutation ?u ?v => assert (u = v) as -> end; [|reflexivity]. apply map_ext_in. intros i Hi. apply Ci, R. right. right. exact Hi. }
  (* recorded distances *)
  set (d := fun i j => sqdist (nth i data []) (nth j data [])).
  assert (Cd : forall i, i < length data -> exists c, Cure_Model.cclosest (Cure_Model.obj (Cure_Model.create_heap data) i) = Some c /\
    Cure_Model.cdist (Cure_Model.obj (Cure_Model.create_heap data) i) = Some (d i c) /\ forall j, j < length data -> j <> i -> (d i c <= d i j)%Q).
  { intros i Hi. unfold Cure_Model.create_heap. set (h := map (Cure_Model.singleton data) (seq 0 (length data))).
    assert (Lh : length h = length data) by (unfold h; rewrite map_length, seq_length; reflexivity).
    assert (Ho : forall k, k < length data -> Cure_Model.obj h k = Cure_Model.singleton data k) by (intros k Hk; unfold Cure_Model.obj, h; rewrite nth_map_seq0 by exact Hk; reflexivity).
    unfold Cure_Model.obj at 1 3. rewrite !nth_map_seq0 by exact Hi. unfold Cure_Model.first_closest. rewrite Lh.
    set (g := fun k => match Cure_Model.cluster_distance (Cure_Model.obj h i) (Cure_Model.obj h k) with Some v => v | None => 0%Q end).
    assert (Eg : forall k, k < length data -> g k = d i k) by (intros k Hk; unfold g; rewrite (Ho i Hi), (Ho k Hk); reflexivity).
    destruct (min_by g (filter (fun k => negb (k =? i)) (seq 0 (length data)))) as [c|] eqn:Em.
    - apply min_by_spec in Em. destruct Em as (Hin & Hmin). apply filter_In in Hin. destruct Hin as (Hin & _). apply in_seq in Hin. exists c. cbn [Cure_Model.set_closest Cure_Model.cclosest Cure_Model.cdist].
      split; [reflexivity|]. split; [exact (f_equal Some (Eg c ltac:(lia)))|]. intros j Hj Hji. rewrite <- (Eg c), <- (Eg j) by lia. apply Hmin. apply filter_In. split; [apply in_seq; lia|]. apply negb_true_iff, Nat.eqb_neq. exact Hji.
    - exfalso. apply min_by_none in Em. assert (Hin : In (if i =? 0 then 1 else 0) []); [|contradiction]. rewrite <- Em. apply filter_In.
      destruct (Nat.eqb_spec i 0); split; try (apply in_seq; lia); apply negb_true_iff, Nat.eqb_neq; lia. }
  intros i j Hi Hj Hij. fold (d a b) (d i j). destruct (Cd a ltac:(apply R; left; reflexivity)) as (c & Ec & Ed1 & _). rewrite Hb in Ec. injection Ec as <-.
  destruct (Cd i Hi) as (c' & _ & Ed2 & Hmin). apply Qle_trans with (d i c'); [|apply Hmin; auto].
  assert (Ss := sort_key_sorted (fun i => match Cure_Model.cdist (Cure_Model.obj (Cure_Model.create_heap data) i) with Some v => v | None => 0%Q end) (seq 0 (length data))).
  change (sort_key (fun i => match Cure_Model.cdist (Cure_Model.obj (Cure_Model.create_heap data) i) with Some v => v | None => 0%Q end) (seq 0 (length data))) with (Cure_Model.create_queue data) in Ss.
  assert (Hq : In i (Cure_Model.create_queue data)) by (apply (Permutation_in _ (Permutation_sym Pq)), in_seq; lia).
  destruct (Cure_Model.create_queue data) as [|x q]; [destruct Hq|]. cbn [hd] in Ha. subst x. destruct Hq as [<-|Hq].
  - rewrite Ed1 in Ed2. injection Ed2 as ->. apply Qle_refl.
  - inversion Ss as [|? ? _ Hall]; subst. rewrite Forall_forall in Hall. specialize (Hall i Hq). unfold key_le in Hall. rewrite Ed1, Ed2 in Hall. exact Hall.
Qed.
Print Assumptions C71_first_merge.

Example C235_case : exists s5 s4, Cure_Model.cure [[0];[-1];[14 # 10];[-23 # 10];[100];[1015 # 10]]%Q 5 (1 # 2) 5 = Ok s5 /\
  Cure_Model.cure [[0];[-1];[14 # 10];[-23 # 10];[100];[1015 # 10]]%Q 5 (1 # 2) 4 = Ok s4 /\
  Cure_Model.clusters s5 = [[0;1];[3];[4];[5];[2]] /\ Cure_Model.clusters s4 = [[4];[5];[0;1;3];[2]].
Proof. do 2 eexists. split; [vm_compute; reflexivity|]. split; [vm_compute; reflexivity|]. split; vm_compute; reflexivity. Qed.
Example C235_case_agglomerative : exists s3 s2, Aggl_Model.agglomerative [[0];[1];[5];[7]]%Q Aggl_Model.CompleteLink 3 = Ok s3 /\
  Aggl_Model.agglomerative [[0];[1];[5];[7]]%Q Aggl_Model.CompleteLink 2 = Ok s2 /\ Aggl_Model.clusters s3 = [[0;1];[2];[3]] /\ Aggl_Model.clusters s2 = [[0;1];[2;3]].
Proof. do 2 eexists. split; [vm_compute; reflexivity|]. split; [vm_compute; reflexivity|]. split; vm_compute; reflexivity. Qed.
