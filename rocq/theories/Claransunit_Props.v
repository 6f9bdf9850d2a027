(** CLARANS in other units. *)
From Verif Require Import Base Kmeans_Model Clarans_Model Kmeans_Proofs Scaled_Proofs Unit_Props.
Open Scope nat_scope.

Section Two.
Variables (m : Q) (data data' : list point) (number : nat) (rnd : nat -> nat).
Hypothesis Hm : (0 < m)%Q.
Hypothesis Hn : length data' = length data.
Hypothesis HD : forall i j, times m (d2 data i j) (d2 data' i j).

Lemma nearest_same medoids i : nearest_index data' medoids i = nearest_index data medoids i.
Proof.
  unfold nearest_index. destruct medoids as [|x t]; [reflexivity|]. rewrite !kmedians_nearest_eq by discriminate. rewrite !map_map. apply (times_argmin m Hm). apply map_times. intros j _. apply HD.
Qed.
Lemma update_same medoids : update_clusters data' medoids = update_clusters data medoids.
Proof.
  unfold update_clusters. destruct (length medoids =? 0); [reflexivity|]. rewrite Hn. f_equal. f_equal.
  - apply map_ext. intro i. apply nearest_same.
  - f_equal. generalize (repeat ([] : list nat) (length medoids)). induction (seq 0 (length data)) as [|i l IH]; intro a; cbn [fold_left]; [reflexivity|]. rewrite nearest_same. apply IH.
Qed.
Lemma candidate_same fuel medoids : forall pos, draw_candidate data' rnd fuel medoids pos = draw_candidate data rnd fuel medoids pos.
Proof. induction fuel as [|f IH]; intro pos; cbn [draw_candidate]; [reflexivity|]. rewrite Hn. destruct (mem (rnd pos mod length data) medoids); auto. Qed.
Lemma another_same p c : forall l best best' found, times_opt m best best' -> find_another data' l p c best' found = find_another data l p c best found.
Proof.
  induction l as [|x t IH]; intros best best' found H; cbn [find_another]; [reflexivity|]. destruct (x =? c); [auto|].
  assert (E : match best' with None => true | Some b => Qltb (d2 data' p c) b end = match best with None => true | Some b => Qltb (d2 data p c) b end).
  { destruct best, best'; cbn [times_opt] in H; try contradiction; [|reflexivity]. apply (scale_ltb m Hm); [apply HD|exact H]. }
  rewrite E. destruct (match best with None => true | Some b => Qltb (d2 data p c) b end); apply IH; [apply HD|exact H].
Qed.
Lemma minus_times a b a' b' : times m a a' -> times m b b' -> times m (a - b)%Q (a' - b')%Q.
Proof. unfold times. intros -> ->. ring. Qed.
Lemma point_times st cm c p : times_opt m (point_cost data st cm c p) (point_cost data' st cm c p).
Proof.
  unfold point_cost. rewrite (another_same p cm (current st) None None None I), Hn. cbv zeta. pose proof (HD p cm) as H1. pose proof (HD p c) as H2. pose proof (HD p (nth (nth p (belong st) 0) (current st) 0)) as H3.
  destruct (nth p (belong st) 0 =? nth cm (belong st) 0).
  - destruct (negb _ && negb _); cbn [times_opt]; [|apply minus_times; assumption]. rewrite (scale_leb m Hm _ _ _ _ H3 H2). destruct (Qle_bool _ _); cbn [times_opt]; apply minus_times; assumption.
  - match goal with |- context [if ?a =? ?b then _ else _] => destruct (a =? b) end; [|unfold times_opt, times; ring]. destruct (negb _ && negb _); cbn [times_opt]; [|exact I].
    rewrite (scale_ltb m Hm _ _ _ _ H3 H2). destruct (Qltb _ _); cbn [times_opt]; [unfold times; ring|apply minus_times; assumption].
Qed.
Lemma add_times a b a' b' : times_opt m a a' -> times_opt m b b' -> times_opt m (add_cost a b) (add_cost a' b').
Proof. destruct a, a', b, b'; cbn [times_opt add_cost]; try contradiction; auto. unfold times. intros -> ->. ring. Qed.
Lemma cost_times st cm c : times_opt m (candidate_cost data st cm c) (candidate_cost data' st cm c).
Proof.
  unfold candidate_cost. rewrite Hn. assert (Z : times_opt m (Some 0%Q) (Some 0%Q)) by (unfold times_opt, times; ring). revert Z. generalize (Some 0%Q) at 1 3. generalize (Some 0%Q).
  induction (filter (fun p => negb (mem p (current st))) (seq 0 (length data))) as [|p l IH]; intros a' a Z; cbn [map fold_left]; [exact Z|]. apply IH. apply add_times; [exact Z|apply point_times].
Qed.
Lemma negative_same a a' : times_opt m a a' -> negative a' = negative a.
Proof. destruct a, a'; cbn [times_opt negative]; try contradiction; auto. intro H. apply (scale_ltb m Hm); [exact H|ring]. Qed.
Lemma optimize_same maxn : forall fuel index pos st, optimize data' number rnd maxn fuel index pos st = optimize data number rnd maxn fuel index pos st.
Proof.
  induction fuel as [|f IH]; intros index pos st; cbn [optimize]; [reflexivity|]. destruct (index <? maxn); [|reflexivity]. rewrite candidate_same. destruct (draw_candidate data rnd (S f) (current st) (S pos)) as [r|e]; cbn [bind]; [|reflexivity].
  rewrite (negative_same _ _ (cost_times st _ (fst r))). destruct (negative _); [|apply IH]. rewrite update_same. match goal with |- context [update_clusters data ?x] => destruct (update_clusters data x) end; cbn [bind]; [apply IH|reflexivity].
Qed.
Lemma concat_both {A B} (R : A -> B -> Prop) l l' : Forall2 (Forall2 R) l l' -> Forall2 R (concat l) (concat l').
Proof. induction 1; cbn [concat]; [constructor|]. apply Forall2_app; assumption. Qed.
Lemma estimation_times st : times m (estimation data st) (estimation data' st).
Proof.
  unfold estimation. apply times_sum. apply concat_both. induction (seq 0 (length (clusters st))) as [|k l IH]; cbn [map]; constructor; [|exact IH]. apply map_times. intros i _. apply HD.
Qed.
Definition same_best (b b' : option (list nat * Q)) : Prop :=
  match b, b' with None, None => True | Some x, Some y => fst y = fst x /\ times m (snd x) (snd y) | _, _ => False end.
Lemma search_same sample maxn fuel : forall left done pos best best', same_best best best' ->
  same_run same_best (search data number rnd sample maxn fuel left done pos best) (search data' number rnd sample maxn fuel left done pos best').
Proof.
  induction left as [|left IH]; intros done pos best best' H; cbn [search]; [exact H|]. rewrite Hn. destruct (length data <? number); [reflexivity|]. rewrite update_same. destruct (update_clusters data (sample done)) as [u|e]; cbn [bind]; [|reflexivity].
  rewrite optimize_same. destruct (optimize data number rnd maxn fuel 0 pos (mkS (sample done) (fst u) (snd u))) as [r|e]; cbn [bind]; [|reflexivity]. apply IH. pose proof (estimation_times (snd r)) as E.
  destruct best as [b|], best' as [b'|]; cbn [same_best] in H; try contradiction; [|split; auto]. destruct H as [H1 H2]. rewrite (scale_ltb m Hm _ _ _ _ E H2). destruct (Qltb (estimation data (snd r)) (snd b)); split; auto.
Qed.
Lemma clarans_same sample numlocal maxn fuel : clarans_process data' number rnd sample numlocal maxn fuel = clarans_process data number rnd sample numlocal maxn fuel.
Proof.
  unfold clarans_process. rewrite Hn. destruct (length data =? 0); [reflexivity|]. destruct (number =? 0); [reflexivity|]. pose proof (search_same sample maxn fuel numlocal 0 0 None None I) as H.
  destruct (search data number rnd sample maxn fuel numlocal 0 0 None) as [b|e], (search data' number rnd sample maxn fuel numlocal 0 0 None) as [b'|e']; cbn [same_run] in H; try contradiction; cbn [bind]; [|congruence].
  assert (E : match b' with None => [] | Some x => fst x end = match b with None => [] | Some x => fst x end) by (destruct b, b'; cbn [same_best] in H; try contradiction; [apply H|reflexivity]).
  rewrite E, update_same. reflexivity.
Qed.
End Two.

Lemma sqdist_nil p : sqdist p [] = 0%Q.
Proof. destruct p; reflexivity. Qed.
(** C280.  The same points in another unit and from another origin: for the same random numbers the same clusters and the same medoids. *)
Theorem C280_clarans s v data data' number rnd sample numlocal maxneighbor fuel : (0 < s)%Q -> Forall2 (moved s v) data data' ->
  clarans_process data' number rnd sample numlocal maxneighbor fuel = clarans_process data number rnd sample numlocal maxneighbor fuel.
Proof.
  intros Hs H. pose proof (both_length _ _ _ H) as L. apply (clarans_same (s * s)); [nra|exact L|]. intros i j. unfold times, d2.
  destruct (Nat.lt_ge_cases i (length data)) as [Hi|Hi]; [|rewrite (nth_overflow data (n:=i)), (nth_overflow data' (n:=i)) by lia; cbn [sqdist]; ring].
  destruct (Nat.lt_ge_cases j (length data)) as [Hj|Hj]; [|rewrite (nth_overflow data (n:=j)), (nth_overflow data' (n:=j)) by lia; rewrite !sqdist_nil; ring].
  apply (moved_sqdist s v); apply nth_moved; assumption.
Qed.
Print Assumptions C280_clarans.
Definition near : list point := [[0]; [1]; [10]; [12]; [11]]%Q.
Definition near_inch : list point := [[7]; [19 # 2]; [32]; [37]; [69 # 2]]%Q.
Example C280_example : Forall2 (moved (5 # 2) [7%Q]) near near_inch /\
  exists r, clarans_process near_inch 2 (fun i => i) (fun _ => [0; 1]) 1 2 60 = Ok r /\ snd r <> [0; 1] /\ length (fst r) = 2.
Proof.
  split; [|eexists; split; [vm_compute; reflexivity|split; [discriminate|reflexivity]]].
  repeat (apply Forall2_cons || apply Forall2_nil); (split; [reflexivity|split; [reflexivity|]]); intros [|d] Hd; try (cbn in Hd; lia); reflexivity.
Qed.
