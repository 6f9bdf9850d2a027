(** Runs of the same algorithm on data whose distances are m times as large. *)
From Verif Require Import Base Kmeans_Model Kmedoids_Model Init_Model Kmeans_Proofs.
From Coq Require Import Setoid.
Open Scope nat_scope.

(** ** comparisons *)
Section Scale.
Variable m : Q.
Hypothesis Hm : (0 < m)%Q.

Lemma scale_ltb a b a' b' : (a' == m * a)%Q -> (b' == m * b)%Q -> Qltb a' b' = Qltb a b.
Proof.
  intros Ha Hb. destruct (Qltb a b) eqn:E.
  - apply Qltb_true in E. apply Qltb_true. rewrite Ha, Hb. nra.
  - apply Qltb_false in E. apply Qltb_false. rewrite Ha, Hb. nra.
Qed.
Lemma scale_leb a b a' b' : (a' == m * a)%Q -> (b' == m * b)%Q -> Qle_bool a' b' = Qle_bool a b.
Proof. intros Ha Hb. pose proof (scale_ltb b a b' a' Hb Ha) as H. unfold Qltb in H. destruct (Qle_bool a' b'), (Qle_bool a b); auto; discriminate. Qed.
Lemma scale_zero a a' : (a' == m * a)%Q -> Qeq_bool a' 0 = Qeq_bool a 0.
Proof.
  intros Ha. destruct (Qeq_bool a 0) eqn:E.
  - apply Qeq_bool_iff in E. apply Qeq_bool_iff. rewrite Ha, E. ring.
  - apply Qeq_bool_false in E. apply Qeq_bool_false. intro H. apply E. rewrite Ha in H. apply Qmult_integral in H as [H|H]; [lra|exact H].
Qed.
Lemma scale_ltb0 a a' : (a' == m * a)%Q -> Qltb a' 0 = Qltb a 0.
Proof. intro Ha. apply scale_ltb; [exact Ha|ring]. Qed.

Definition times (a a' : Q) : Prop := (a' == m * a)%Q.

Lemma times_pymin a b a' b' : times a a' -> times b b' -> times (pymin a b) (pymin a' b').
Proof. intros Ha Hb. unfold pymin. rewrite (scale_ltb b a b' a' Hb Ha). destruct (Qltb b a); assumption. Qed.

Lemma times_fold l l' : Forall2 times l l' -> forall a a', times a a' -> times (fold_left Qplus l a) (fold_left Qplus l' a').
Proof.
  induction 1 as [|x x' l l' Hx Hl IH]; intros a a' Ha; cbn [fold_left]; [exact Ha|]. apply IH. unfold times in *. rewrite Ha, Hx. ring.
Qed.
Lemma times_sum l l' : Forall2 times l l' -> times (sumQ l) (sumQ l').
Proof. intro H. apply times_fold; [exact H|]. unfold times. ring. Qed.
Lemma times_max l l' : Forall2 times l l' -> times (maxQ l) (maxQ l').
Proof.
  destruct 1 as [|x x' l l' Hx Hl]; [unfold times; cbn; ring|]. cbn [maxQ]. revert x x' Hx.
  induction Hl as [|y y' l l' Hy Hl IH]; intros x x' Hx; cbn [fold_left]; [exact Hx|]. rewrite (scale_ltb x y x' y' Hx Hy). apply IH. destruct (Qltb x y); assumption.
Qed.

Lemma times_argmin l l' : Forall2 times l l' -> argmin l' = argmin l.
Proof.
  destruct 1 as [|x x' l l' Hx Hl]; [reflexivity|]. cbn [argmin]. generalize 0 1. revert x x' Hx.
  induction Hl as [|y y' l l' Hy Hl IH]; intros x x' Hx b i; cbn [argmin_from]; [reflexivity|].
  rewrite (scale_ltb y x y' x' Hy Hx). destruct (Qltb y x); apply IH; assumption.
Qed.

Lemma map_times {A} (f f' : A -> Q) l : (forall x, In x l -> times (f x) (f' x)) -> Forall2 times (map f l) (map f' l).
Proof. induction l as [|x t IH]; intro H; cbn [map]; constructor; [apply H; left; reflexivity|]. apply IH. intros y Hy. apply H. right. exact Hy. Qed.

Lemma times_nth l l' : Forall2 times l l' -> forall i, times (nth i l 0%Q) (nth i l' 0%Q).
Proof. induction 1 as [|x x' l l' Hx Hl IH]; intros [|i]; cbn [nth]; auto; unfold times; ring. Qed.

Lemma times_min_by {A} (f f' : A -> Q) l : (forall x, In x l -> times (f x) (f' x)) -> min_by f' l = min_by f l.
Proof.
  destruct l as [|x t]; [reflexivity|]. intro H. cbn [min_by]. f_equal.
  assert (Hx : times (f x) (f' x)) by (apply H; left; reflexivity). assert (Ht : forall y, In y t -> times (f y) (f' y)) by (intros; apply H; right; assumption).
  clear H. revert x Hx. induction t as [|y t IH]; intros x Hx; cbn [min_by_from]; [reflexivity|].
  rewrite (scale_ltb (f y) (f x)) by (auto; apply Ht; left; reflexivity). apply IH; [intros; apply Ht; right; assumption|]. destruct (Qltb (f y) (f x)); auto. apply Ht. left. reflexivity.
Qed.

(** ** k-medoids *)
Section Medoids.
Variables D D' : nat -> nat -> Q.
Variable n : nat.
Hypothesis HD : forall i j, times (D i j) (D' i j).

Definition times_opt (a a' : option Q) : Prop := match a, a' with None, None => True | Some x, Some y => times x y | _, _ => False end.
Definition times_entry (e e' : nat * Q * option Q) : Prop := t_label e' = t_label e /\ times (t_first e) (t_first e') /\ times_opt (t_second e) (t_second e').

Lemma times_scan i : forall medoids index e e', times_entry e e' -> times_entry (scan D i medoids index e) (scan D' i medoids index e').
Proof.
  induction medoids as [|x t IH]; intros index [[l f] s] [[l' f'] s'] (H1 & H2 & H3); cbn [scan]; cbn [t_label t_first t_second fst snd] in *.
  - repeat split; auto.
  - subst l'. rewrite (scale_ltb (D i x) f (D' i x) f' (HD i x) H2). destruct (Qltb (D i x) f).
    + apply IH. split; [reflexivity|]. split; [apply HD|exact H2].
    + assert (E : (match s' with None => true | Some s0 => Qltb (D' i x) s0 end) = (match s with None => true | Some s0 => Qltb (D i x) s0 end)).
      { destruct s, s'; cbn [times_opt] in H3; try contradiction; [apply scale_ltb; auto; apply HD|reflexivity]. }
      rewrite E. destruct (match s with None => true | Some s0 => Qltb (D i x) s0 end); apply IH; repeat split; auto. apply HD.
Qed.
Lemma times_nearest2 medoids i : times_entry (nearest2 D medoids i) (nearest2 D' medoids i).
Proof.
  unfold nearest2. destruct medoids as [|x t]; [repeat split; unfold times; cbn; ring|]. apply times_scan. split; [reflexivity|]. split; [apply HD|exact I].
Qed.
Lemma times_table medoids : Forall2 times_entry (table D n medoids) (table D' n medoids).
Proof. unfold table. induction (seq 0 n); cbn [map]; constructor; auto. apply times_nearest2. Qed.
Lemma times_at tb tb' : Forall2 times_entry tb tb' -> forall i, times_entry (entry tb i) (entry tb' i).
Proof.
  intros H. unfold entry. induction H as [|x x' l l' Hx Hl IH]; intros [|i]; cbn [nth]; auto; repeat split; unfold times; cbn; ring.
Qed.
Lemma times_labels tb tb' : Forall2 times_entry tb tb' -> map t_label tb' = map t_label tb.
Proof. induction 1 as [|x x' l l' Hx Hl IH]; cbn [map]; [reflexivity|]. f_equal; [apply Hx|exact IH]. Qed.
Lemma times_clusters medoids : med_clusters D' n medoids = med_clusters D n medoids.
Proof.
  unfold med_clusters. generalize (repeat (@nil nat) (length medoids)). induction (seq 0 n) as [|i t IH]; intro cl; cbn [fold_left]; [reflexivity|].
  destruct (times_nearest2 medoids i) as (-> & _). apply IH.
Qed.
Lemma times_deviation medoids : times (med_deviation D n medoids) (med_deviation D' n medoids).
Proof.
  unfold med_deviation. apply times_sum. pose proof (times_table medoids) as H. induction H as [|x x' l l' Hx Hl IH]; cbn [map]; constructor; auto. apply Hx.
Qed.
Lemma times_swap_cost tb tb' c k : Forall2 times_entry tb tb' -> times (swap_cost D n tb c k) (swap_cost D' n tb' c k).
Proof.
  intro H. unfold swap_cost. destruct (times_at tb tb' H c) as (_ & F & _).
  set (g := fun (D : nat -> nat -> Q) (tb : list (nat * Q * option Q)) (cost : Q) (i : nat) => if i =? c then cost else
     let cd := D i c in let e := entry tb i in
     if t_label e =? k then (cost + ((match t_second e with None => cd | Some s => pymin cd s end) - t_first e))%Q
     else if Qltb cd (t_first e) then (cost + (cd - t_first e))%Q else cost).
  change (times (fold_left (g D tb) (seq 0 n) 0%Q - t_first (entry tb c))%Q (fold_left (g D' tb') (seq 0 n) 0%Q - t_first (entry tb' c))%Q).
  assert (G : forall l a a', times a a' -> times (fold_left (g D tb) l a) (fold_left (g D' tb') l a')).
  { induction l as [|i t IH]; intros a a' Ha; cbn [fold_left]; [exact Ha|]. apply IH. unfold g. destruct (i =? c); [exact Ha|]. cbv zeta.
    destruct (times_at tb tb' H i) as (E1 & E2 & E3). rewrite E1. pose proof (HD i c) as Hc. destruct (t_label (entry tb i) =? k).
    - destruct (t_second (entry tb i)) as [s|], (t_second (entry tb' i)) as [s'|]; cbn [times_opt] in E3; try contradiction.
      + pose proof (times_pymin _ _ _ _ Hc E3) as P. unfold times in *. rewrite Ha, P, E2. ring.
      + unfold times in *. rewrite Ha, Hc, E2. ring.
    - rewrite (scale_ltb _ _ _ _ Hc E2). destruct (Qltb (D i c) (t_first (entry tb i))); [|exact Ha]. unfold times in *. rewrite Ha, Hc, E2. ring. }
  pose proof (G (seq 0 n) 0%Q 0%Q ltac:(unfold times; ring)) as G0. unfold times in *. rewrite G0, F. ring.
Qed.
Lemma times_exchanges medoids tb tb' : Forall2 times_entry tb tb' -> exchanges n medoids tb' = exchanges n medoids tb.
Proof.
  intro H. unfold exchanges. induction (seq 0 (length medoids)) as [|k t IH]; cbn [flat_map]; [reflexivity|]. f_equal; [|exact IH]. f_equal. clear IH.
  induction (seq 0 n) as [|i s IHs]; cbn [filter]; [reflexivity|]. destruct (times_at tb tb' H i) as (_ & E & _). rewrite (scale_zero _ _ E), IHs. reflexivity.
Qed.
Lemma times_swap medoids : swap_medoids D' n medoids (table D' n medoids) = swap_medoids D n medoids (table D n medoids).
Proof.
  unfold swap_medoids. rewrite (times_exchanges _ _ _ (times_table medoids)).
  rewrite (times_min_by (fun kc => swap_cost D n (table D n medoids) (snd kc) (fst kc)) (fun kc => swap_cost D' n (table D' n medoids) (snd kc) (fst kc))); [reflexivity|].
  intros x _. apply times_swap_cost, times_table.
Qed.
Lemma times_kmedoids_loop tol tol' : times tol tol' -> forall left change change' medoids it total total', times_opt change change' -> times total total' ->
  let '(a, b, c) := kmedoids_loop D n tol left change medoids it total in let '(a', b', c') := kmedoids_loop D' n tol' left change' medoids it total' in
  a' = a /\ b' = b /\ times c c'.
Proof.
  intro Ht. induction left as [|left IH]; intros change change' medoids it total total' Hc Htot; cbn [kmedoids_loop]; [auto|].
  assert (E : exceeds change' tol' = exceeds change tol).
  { destruct change, change'; cbn [times_opt exceeds] in *; try contradiction; [apply scale_ltb; assumption|reflexivity]. }
  rewrite E. destruct (exceeds change tol); [|auto]. rewrite times_swap. destruct (swap_medoids D n medoids (table D n medoids)) as [md|]; [|auto].
  apply IH; [|apply times_deviation]. cbn [times_opt]. pose proof (times_deviation md). unfold times in *. rewrite Htot, H. ring.
Qed.

(** ** BUILD and k-means++ *)
Lemma times_first i : Forall2 times (first_distances D n i) (first_distances D' n i).
Proof. apply map_times. intros j _. destruct (i =? j); [unfold times; ring|apply HD]. Qed.
Lemma times_next medoids cl cl' i : Forall2 times cl cl' -> Forall2 times (next_distances D n medoids cl i) (next_distances D' n medoids cl' i).
Proof.
  intro H. apply map_times. intros j _. destruct ((i =? j) || Kmedoids_Model.mem j medoids); [unfold times; ring|]. apply times_pymin; [apply HD|]. apply times_nth. exact H.
Qed.
Lemma times_choose f f' l : (forall i, Forall2 times (f i) (f' i)) -> build_choose f' l = build_choose f l.
Proof. intro H. unfold build_choose. apply times_min_by. intros x _. apply times_sum, H. Qed.
Definition times_build (st st' : list nat * list Q) : Prop := fst st' = fst st /\ Forall2 times (snd st) (snd st').
Lemma times_build_first : times_build (build_first D n) (build_first D' n).
Proof.
  unfold build_first. rewrite (times_choose (first_distances D n) (first_distances D' n)) by apply times_first.
  destruct (build_choose (first_distances D n) (seq 0 n)); split; cbn [fst snd]; auto; [apply times_first|]. induction n; cbn; constructor; auto. unfold times. ring.
Qed.
Lemma times_build_loop k : forall st st', times_build st st' ->
  match build_loop D n k st, build_loop D' n k st' with Some a, Some a' => times_build a a' | None, None => True | _, _ => False end.
Proof.
  induction k as [|k IH]; intros [md cl] [md' cl'] (H1 & H2); cbn [build_loop build_next]; [split; assumption|]. cbn [fst snd] in *. subst md'.
  rewrite (times_choose (next_distances D n md cl) (next_distances D' n md cl')) by (intro; apply times_next; exact H2).
  destruct (build_choose (next_distances D n md cl) _); [|exact I]. apply IH. split; cbn [fst snd]; [reflexivity|]. apply times_next. exact H2.
Qed.
Lemma times_build_initialize k : build_initialize D' n k = build_initialize D n k.
Proof.
  unfold build_initialize. destruct (n =? 0); [reflexivity|]. destruct (k <? 1); [reflexivity|]. destruct (n <? k); [reflexivity|].
  pose proof (times_build_loop (k - 1) _ _ times_build_first) as H.
  destruct (build_loop D n (k - 1) (build_first D n)) as [[a b]|], (build_loop D' n (k - 1) (build_first D' n)) as [[a' b']|]; try contradiction; [|reflexivity].
  destruct H as (H & _). cbn in H. congruence.
Qed.

Lemma times_shortest centers : Forall2 times (shortest D n centers) (shortest D' n centers).
Proof.
  apply map_times. intros j _. destruct centers as [|c t]; [unfold times; ring|].
  assert (G : forall l a a', times a a' -> times (fold_left (fun m0 c' => pymin m0 (D c' j)) l a) (fold_left (fun m0 c' => pymin m0 (D' c' j)) l a')).
  { induction l as [|x l IH]; intros a a' Ha; cbn [fold_left]; [exact Ha|]. apply IH. apply times_pymin; [exact Ha|apply HD]. }
  apply G, HD.
Qed.
Lemma times_nanargmax : forall l l' i b b', Forall2 times_opt l l' ->
  match b, b' with None, None => True | Some (x, q), Some (y, q') => y = x /\ times q q' | _, _ => False end ->
  option_map fst (nanargmax_from i l' b') = option_map fst (nanargmax_from i l b).
Proof.
  intros l l' i b b' H. revert i b b'. induction H as [|x x' l l' Hx Hl IH]; intros i b b' Hb; cbn [nanargmax_from].
  - destruct b as [[]|], b' as [[]|]; try contradiction; [|reflexivity]. cbn. destruct Hb as (-> & _). reflexivity.
  - destruct x as [x|], x' as [x'|]; cbn [times_opt] in Hx; try contradiction; [|apply IH; exact Hb]. apply IH.
    destruct b as [[y q]|], b' as [[y' q']|]; try contradiction; [|split; [reflexivity|exact Hx]]. destruct Hb as (-> & Hq).
    rewrite (scale_ltb q x q' x' Hq Hx). destruct (Qltb q x); split; auto.
Qed.
Lemma times_farthest centers : farthest D' n centers = farthest D n centers.
Proof.
  unfold farthest.
  set (l := map _ (seq 0 n)). set (l' := map _ (seq 0 n)).
  assert (H : Forall2 times_opt l' l).
  { subst l l'. induction (seq 0 n) as [|j t IH]; cbn [map]; constructor; auto. destruct (Kmedoids_Model.mem j centers); [exact I|]. cbn [times_opt]. apply times_nth, times_shortest. }
  pose proof (times_nanargmax l' l 0 None None H I) as E.
  destruct (nanargmax_from 0 l None) as [[]|], (nanargmax_from 0 l' None) as [[]|]; cbn in E; congruence.
Qed.
Lemma eq_cumsum l l' : Forall2 Qeq l l' -> forall a a', (a == a')%Q -> Forall2 Qeq (cumsum a l) (cumsum a' l').
Proof. induction 1 as [|x x' l l' Hx Hl IH]; intros a a' Ha; cbn [cumsum]; constructor; [|apply IH]; rewrite Ha, Hx; reflexivity. Qed.
Lemma times_probabilities l l' : Forall2 times l l' -> Forall2 Qeq (probabilities l) (probabilities l').
Proof.
  intro H. unfold probabilities. pose proof (times_sum l l' H) as S. rewrite (scale_zero _ _ S). destruct (Qeq_bool (sumQ l) 0) eqn:E.
  - clear S E. induction H; cbn [length repeat]; constructor; auto; reflexivity.
  - apply Qeq_bool_false in E. apply eq_cumsum; [|reflexivity]. generalize (sumQ l) (sumQ l') S E. clear S E. intros q q' S E.
    induction H as [|x x' l l' Hx Hl IH]; cbn [map]; constructor; auto. unfold times in *. rewrite Hx, S. field. split; [exact E|lra].
Qed.
Lemma eq_candidate r l l' : Forall2 Qeq l l' -> forall i, find_candidate r i l' = find_candidate r i l.
Proof.
  induction 1 as [|x x' l l' Hx Hl IH]; intro i; cbn [find_candidate]; [reflexivity|]. rewrite IH.
  replace (Qltb r x') with (Qltb r x); [reflexivity|]. destruct (Qltb r x) eqn:E; symmetry; [apply Qltb_true in E; apply Qltb_true|apply Qltb_false in E; apply Qltb_false]; lra.
Qed.
Lemma times_next_center pick candidates draws centers free : next_center pick D' n candidates draws centers free = next_center pick D n candidates draws centers free.
Proof.
  unfold next_center. destruct candidates as [k|]; [|apply times_farthest]. f_equal. unfold probable_center.
  pose proof (times_shortest centers) as S. pose proof (times_probabilities _ _ S) as P. 
  assert (G : forall l best, fold_left (fun best r => match find_candidate r 0 (probabilities (shortest D' n centers)) with None => pick free
      | Some c => if Qltb (nth best (shortest D' n centers) 0%Q) (nth c (shortest D' n centers) 0%Q) then c else best end) l best =
    fold_left (fun best r => match find_candidate r 0 (probabilities (shortest D n centers)) with None => pick free
      | Some c => if Qltb (nth best (shortest D n centers) 0%Q) (nth c (shortest D n centers) 0%Q) then c else best end) l best).
  { induction l as [|r t IH]; intro best; cbn [fold_left]; [reflexivity|]. rewrite (eq_candidate r _ _ P). rewrite IH. f_equal.
    destruct (find_candidate r 0 (probabilities (shortest D n centers))) as [c|]; [|reflexivity].
    now rewrite (scale_ltb _ _ _ _ (times_nth _ _ S best) (times_nth _ _ S c)). }
  apply G.
Qed.
Lemma times_plus_loop pick candidates draws : forall more t centers free, plus_loop pick D' n candidates draws t more centers free = plus_loop pick D n candidates draws t more centers free.
Proof.
  induction more as [|more IH]; intros t centers free; cbn [plus_loop]; [reflexivity|]. rewrite times_next_center.
  destruct (next_center pick D n candidates (draws t) centers free); cbn [bind]; [|reflexivity]. destruct (set_remove a free); cbn [bind]; [|reflexivity]. apply IH.
Qed.
Lemma times_plus pick amount candidates draw0 draws free : plus_initialize pick D' n amount candidates draw0 draws free = plus_initialize pick D n amount candidates draw0 draws free.
Proof. unfold plus_initialize. destruct (set_remove draw0 free); cbn [bind]; [|reflexivity]. apply times_plus_loop. Qed.
End Medoids.
End Scale.
