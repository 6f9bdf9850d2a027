(** C265: EM started from the same parameters gives the same means, covariances and weights whatever the order of
    the points; responsibilities and clusters go with the points. *)
From Verif Require Import Base Kmeans_Model Kmeans_Proofs Metric_Model Fcm_Model Fcm_Proofs Unit_Props Reorder_Props Fcmorder_Props Ema_Model Ema_Proofs Ema_Props.
From Coq Require Import Reals Lra Lia.
Local Open Scope R_scope.

(** ** specification *)
Definition em_moved (ord : list nat) (s s' : state) : Prop :=
  amount s' = amount s /\ means s' = means s /\ variances s' = variances s /\ pic s' = pic s /\
  rc s' = map (fun row => chosen 0 row ord) (rc s) /\
  Forall2 (fun g g' => Permutation (map (fun i => nth i ord 0%nat) g') g) (clusters s) (clusters s').

Lemma total_perm l l' : Permutation l l' -> total l = total l'.
Proof.
  induction 1 as [|x l l' H IH|x y l|]; [reflexivity| | |congruence].
  - destruct x; cbn [total]; rewrite ?IH; reflexivity.
  - destruct x as [x|], y as [y|]; cbn [total]; destruct (total l); auto. f_equal. lra.
Qed.

Lemma nth_of_nil {A} i (d : A) : nth i [] d = d. Proof. destruct i; reflexivity. Qed.

Section Order.
Variables (data : list rpoint) (density : rpoint -> matrix -> rpoint -> option R) (ord : list nat) (D : nat).
Hypothesis Hord : Permutation ord (seq 0 (length data)).
Hypothesis HD : forall p, In p data -> length p = D.
Notation data' := (@chosen rpoint [] data ord).
Notation n := (length data).
Notation f := (fun i => nth i ord 0%nat).

Lemma ord_n : length ord = n. Proof. rewrite (Permutation_length Hord). apply seq_length. Qed.
Lemma f_lt i : (i < n)%nat -> (f i < n)%nat.
Proof. intro H. assert (I : In (f i) ord) by (apply nth_In; rewrite ord_n; exact H). apply (Permutation_in _ Hord), in_seq in I. lia. Qed.
Lemma n_moved : length data' = n. Proof. unfold chosen. rewrite map_length. apply ord_n. Qed.
Lemma data_moved i : (i < n)%nat -> nth i data' [] = nth (f i) data [].
Proof. intro H. apply chosen_nth. rewrite ord_n. exact H. Qed.
Lemma over (g g' : nat -> R) : (forall i, (i < n)%nat -> g' i = g (f i)) -> rtotal (map g' (seq 0 n)) = rtotal (map g (seq 0 n)).
Proof.
  intro H. rewrite (map_ext_in _ (fun i => g (f i))) by (intros i Hi; apply in_seq in Hi; apply H; lia).
  rewrite <- (map_map f g). rewrite <- ord_n at 1. rewrite positions. apply rtotal_perm, Permutation_map, Hord.
Qed.
Lemma width_moved : width data' = width data.
Proof.
  unfold width. destruct (Nat.eq_dec n 0) as [Z|Z].
  - assert (E : ord = []) by (apply length_zero_iff_nil; rewrite ord_n; exact Z). rewrite E. apply length_zero_iff_nil in Z. rewrite Z. reflexivity.
  - rewrite data_moved by lia. rewrite !HD; auto; apply nth_In; [lia|]. apply f_lt. lia.
Qed.

(** tables with a row of a value for each point *)
Definition rows_moved (t t' : list (list R)) : Prop :=
  length t' = length t /\ (forall c, (c < length t)%nat -> length (nth c t []) = n /\ length (nth c t' []) = n) /\
  forall c i, (i < n)%nat -> nth i (nth c t' []) 0 = nth (f i) (nth c t []) 0.
Lemma row_total t t' c : rows_moved t t' -> rtotal (nth c t' []) = rtotal (nth c t []).
Proof.
  intros (L & R & E). destruct (Nat.lt_ge_cases c (length t)) as [H|H]; [|rewrite !nth_overflow by lia; reflexivity].
  destruct (R c H) as (R1 & R2). pose proof (E c) as Ec.
  assert (W : forall l, length l = n -> l = map (fun i => nth i l 0) (seq 0 n)). { clear. intros l Hl. rewrite <- Hl. rewrite <- (chosen_all 0 l) at 1. reflexivity. }
  rewrite (W _ R1), (W _ R2). apply over. intros i Hi. now apply Ec.
Qed.
Lemma mean_moved t t' c mc : rows_moved t t' -> update_mean data' (nth c t' []) mc = update_mean data (nth c t []) mc.
Proof.
  intros (_ & _ & E). unfold update_mean. rewrite width_moved, n_moved. apply map_ext. intro d. f_equal. apply over. intros i Hi. now rewrite E, data_moved by exact Hi.
Qed.
Lemma covariance_moved t t' mean c mc : rows_moved t t' -> update_covariance data' mean (nth c t' []) mc = update_covariance data mean (nth c t []) mc.
Proof.
  intros (_ & _ & E). unfold update_covariance. rewrite width_moved, n_moved. apply map_ext. intro a. apply map_ext. intro b. f_equal. apply over. intros i Hi. now rewrite E, data_moved by exact Hi.
Qed.

(** the states of the two runs *)
Definition heads (s s' : state) : Prop := amount s' = amount s /\ means s' = means s /\ variances s' = variances s /\ pic s' = pic s.
Definition densities (s s' : state) : Prop := forall c i, (i < n)%nat -> nth i (nth c (gaussians s') []) None = nth (f i) (nth c (gaussians s) []) None.
Definition linked (s s' : state) : Prop := heads s s' /\ densities s s' /\ rows_moved (rc s) (rc s') /\ Forall2 (same_members 1 ord) (clusters s) (clusters s').

Lemma mixture_moved s s' i : heads s s' -> densities s s' -> (i < n)%nat -> mixture s' i = mixture s (f i).
Proof. intros (H1 & H2 & H3 & H4) G Hi. unfold mixture. rewrite H1, H4. f_equal. apply map_ext. intro c. now rewrite G. Qed.
Lemma probability_moved s s' c i : heads s s' -> densities s s' -> (i < n)%nat -> probability s' c i = probability s c (f i).
Proof. intros H G Hi. unfold probability. rewrite (mixture_moved s s' i H G Hi). destruct H as (_ & _ & _ & H4). rewrite H4, G by exact Hi. reflexivity. Qed.

Lemma expectation_moved s s' : heads s s' ->
  same_run (fun e e' => heads e e' /\ densities e e' /\ rows_moved (rc e) (rc e') /\ length (rc e) = amount e) (expectation data density s) (expectation data' density s').
Proof.
  intros (H1 & H2 & H3 & H4). unfold expectation. rewrite H1, H2, H3, H4, n_moved.
  destruct ((length (means s) <? amount s)%nat || (length (variances s) <? amount s)%nat || (length (pic s) <? amount s)%nat); [reflexivity|]. cbn [same_run].
  set (g := map _ (seq 0 (amount s))). set (g' := map (fun c => map (density _ _) data') (seq 0 (amount s))).
  assert (G : forall c i, (i < n)%nat -> nth i (nth c g' []) None = nth (f i) (nth c g []) None).
  { intros c i Hi. unfold g, g'. destruct (Nat.lt_ge_cases c (amount s)) as [Hc|Hc]; [|rewrite !(nth_overflow _ _ (n := c)) by (rewrite map_length, seq_length; exact Hc); now rewrite !nth_of_nil].
    rewrite !nth_map_seq0 by exact Hc. set (h := density _ _). rewrite (map_chosen h [] None) by (intros j Hj; apply (Permutation_in _ Hord), in_seq in Hj; lia). apply chosen_nth. now rewrite ord_n. }
  split; [|split; [|split]]; [repeat split| |split; [|split]|]; cbn [amount means variances pic gaussians rc clusters].
  - exact G.
  - now rewrite !map_length.
  - intros c Hc. rewrite map_length, seq_length in Hc. rewrite !nth_map_seq0 by exact Hc. now rewrite !map_length, !seq_length.
  - intros c i Hi. destruct (Nat.lt_ge_cases c (amount s)) as [Hc|Hc]; [|rewrite !(nth_overflow _ _ (n := c)) by (rewrite map_length, seq_length; exact Hc); now rewrite !nth_of_nil].
    rewrite !nth_map_seq0 by (try exact Hc; try exact Hi; now apply f_lt). apply probability_moved; [repeat split|exact G|exact Hi].
  - now rewrite map_length, seq_length.
Qed.

Lemma possible_moved s s' : heads s s' -> rows_moved (rc s) (rc s') -> possible s' = possible s.
Proof. intros (H & _) R. unfold possible. rewrite H. apply filter_ext. intro c. now rewrite (row_total _ _ c R). Qed.
Lemma maximization_moved s s' : heads s s' -> rows_moved (rc s) (rc s') -> heads (maximization data s) (maximization data' s').
Proof.
  intros H R. unfold maximization, heads. cbn [amount means variances pic]. rewrite (possible_moved s s' H R), n_moved.
  assert (M : forall c, update_mean data' (nth c (rc s') []) (rtotal (nth c (rc s') [])) = update_mean data (nth c (rc s) []) (rtotal (nth c (rc s) []))) by (intro c; rewrite (row_total _ _ c R); apply mean_moved, R).
  repeat split; apply map_ext; intro c; rewrite ?M, ?(row_total _ _ c R); auto. apply covariance_moved, R.
Qed.

Lemma candidates_moved s s' i : amount s' = amount s -> rows_moved (rc s) (rc s') -> (i < n)%nat -> candidates s' i = candidates s (f i).
Proof. intros H (_ & _ & E) Hi. unfold candidates. rewrite H. apply map_ext. intro c. now rewrite E. Qed.

Lemma empty_moved cl cl' c : Forall2 (same_members 1 ord) cl cl' -> nonempty (nth c cl' []) = nonempty (nth c cl []).
Proof.
  intro H. revert c. induction H as [|g g' l l' Hg Hl IH]; intros [|c]; cbn [nth]; auto. apply Permutation_length in Hg. rewrite map_length, length_concat_repeat in Hg.
  destruct g, g'; cbn in Hg |- *; auto; lia.
Qed.
Lemma erase_moved s s' : linked s s' -> (length (clusters s) <= length (rc s))%nat -> linked (erase_empty s) (erase_empty s').
Proof.
  intros (H & G & R & C) Lc. unfold erase_empty. assert (L : length (clusters s') = length (clusters s)) by apply (both_length _ _ _ C). rewrite L.
  rewrite (filter_ext (fun c => nonempty (nth c (clusters s') [])) (fun c => nonempty (nth c (clusters s) []))) by (intro c; apply empty_moved, C). set (idx := filter _ _).
  assert (B : forall c, In c idx -> (c < length (clusters s))%nat) by (intros c Hc; apply filter_In in Hc as (Hc & _); apply in_seq in Hc; lia).
  destruct (length idx =? length (clusters s))%nat; [exact (conj H (conj G (conj R C)))|]. destruct H as (H1 & H2 & H3 & H4). destruct R as (R1 & R2 & R3).
  assert (K : forall A (d : A) l c, (c < length idx)%nat -> nth c (keep d idx l) d = nth (nth c idx 0%nat) l d) by (intros A d l c Hc; apply (chosen_nth d l idx c Hc)).
  assert (Kl : forall A (d : A) l, length (keep d idx l) = length idx) by (intros; apply map_length).
  split; [|split; [|split]]; [unfold heads; cbn [amount means variances pic]; rewrite ?H2, ?H3, ?H4; auto| |split; [|split]|]; cbn [gaussians rc clusters].
  - intros c i Hi. cbn [gaussians]. destruct (Nat.lt_ge_cases c (length idx)) as [Hc|Hc]; [rewrite !K by exact Hc; now apply G|]. rewrite !(nth_overflow _ _ (n := c)) by (rewrite Kl; exact Hc). now rewrite !nth_of_nil.
  - now rewrite !Kl.
  - intros c Hc. rewrite Kl in Hc. rewrite !K by exact Hc. apply R2. assert (I : In (nth c idx 0%nat) idx) by now apply nth_In. apply B in I. lia.
  - intros c i Hi. destruct (Nat.lt_ge_cases c (length idx)) as [Hc|Hc]; [rewrite !K by exact Hc; now apply R3|]. rewrite !(nth_overflow _ _ (n := c)) by (rewrite Kl; exact Hc). now rewrite !nth_of_nil.
  - unfold keep. clear - C. induction idx as [|c t IH]; cbn [map]; constructor; [|exact IH]. clear IH. revert c. induction C as [|g g' l l' Hg Hl IHl]; intros [|c]; cbn [nth]; auto; apply perm_nil.
Qed.

Lemma extract_moved s s' : heads s s' -> densities s s' -> rows_moved (rc s) (rc s') -> (amount s <= length (rc s))%nat -> same_run linked (extract data s) (extract data' s').
Proof.
  intros H G R La. unfold extract. pose proof H as (H1 & _). rewrite H1. destruct (amount s =? 0)%nat; [reflexivity|]. cbn [same_run].
  apply erase_moved; [|cbn [clusters rc]; rewrite push_groups; unfold groups_of; now rewrite map_length, seq_length].
  split; [split; [reflexivity|exact (proj2 H)]|]. split; [exact G|]. split; [exact R|]. cbn [clusters]. rewrite !push_groups, n_moved. unfold groups_of.
  induction (seq 0 (amount s)) as [|j t IH]; cbn [map]; constructor; [|exact IH]. clear IH. unfold same_members.
  rewrite (filter_ext_in _ (fun i => (fun p => (argmax (candidates s p) =? j)%nat) (f i))).
  2:{ intros i Hi. apply in_seq in Hi. now rewrite (candidates_moved s s' i H1 R) by lia. }
  rewrite (filter_through f (fun p => (argmax (candidates s p) =? j)%nat)). rewrite <- ord_n at 1. rewrite positions, <- filter_concat_repeat. apply perm_filter. cbn [repeat concat]. rewrite app_nil_r. exact Hord.
Qed.

Lemma step_moved s s' : heads s s' -> same_run linked (step data density s) (step data' density s').
Proof.
  intro H. unfold step. pose proof (expectation_moved s s' H) as W.
  destruct (expectation data density s) as [e|x], (expectation data' density s') as [e'|x']; cbn [same_run bind] in W |- *; try exact W; try (destruct W; fail).
  destruct W as (W1 & W2 & W3 & W4). apply extract_moved; [now apply maximization_moved|exact W2|exact W3|].
  unfold maximization. cbn [amount rc]. rewrite W4. unfold possible. rewrite <- (seq_length (amount e) 0) at 2. generalize (seq 0 (amount e)) as l. intro l. induction l as [|c l IH]; cbn [filter length]; [lia|]. destruct (Req_EM_T _ _); cbn [length]; lia.
Qed.
Lemma likelihood_moved s s' : heads s s' -> densities s s' -> log_likelihood data' s' = log_likelihood data s.
Proof.
  intros H G. unfold log_likelihood. rewrite n_moved.
  rewrite (map_ext_in _ (fun i => (fun j => log_term (mixture s j)) (f i))) by (intros i Hi; apply in_seq in Hi; rewrite (mixture_moved s s' i H G) by lia; reflexivity).
  rewrite <- (map_map f (fun j => log_term (mixture s j))). rewrite <- ord_n at 1. rewrite positions. apply total_perm, Permutation_map, Hord.
Qed.
Lemma ema_loop_moved tolerance : forall left stop previous current s s', linked s s' -> same_run linked (loop data density tolerance left stop previous current s) (loop data' density tolerance left stop previous current s').
Proof.
  induction left as [|left IH]; intros stop previous current s s' H; cbn [loop]; [exact H|]. destruct (stop || negb (changed tolerance previous current)); [exact H|].
  pose proof (step_moved s s' (proj1 H)) as W. destruct (step data density s) as [e|x], (step data' density s') as [e'|x']; cbn [same_run bind] in W |- *; try exact W; try (destruct W; fail).
  pose proof W as ((W1 & W2 & W3 & W4) & G & _). rewrite (likelihood_moved e e' (conj W1 (conj W2 (conj W3 W4))) G). unfold stop_condition. rewrite W3. now apply IH.
Qed.
Lemma normalize_moved s s' : linked s s' -> em_moved ord (normalize data s) (normalize data' s').
Proof.
  intros ((H1 & H2 & H3 & H4) & G & (R1 & R2 & R3) & C). unfold em_moved, normalize. cbn [amount means variances pic rc clusters]. repeat (split; [assumption|]). split.
  - assert (L : length (clusters s') = length (clusters s)) by apply (both_length _ _ _ C). rewrite L, R1, n_moved, map_map. apply map_ext_in. intros c Hc. apply in_seq in Hc. destruct (R2 c) as (Q1 & Q2); [lia|].
    destruct (c <? length (clusters s))%nat.
    + apply (nth_ext _ _ 0 0); [unfold chosen; rewrite !map_length, seq_length, ord_n; reflexivity|]. intros i Hi. rewrite map_length, seq_length in Hi. rewrite chosen_nth by (rewrite ord_n; exact Hi).
      rewrite !nth_map_seq0 by (try exact Hi; now apply f_lt). rewrite R3 by exact Hi. f_equal.
      assert (P : map (fun c => nth i (nth c (rc s') []) 0) (seq 0 (length (clusters s))) = map (fun c => nth (f i) (nth c (rc s) []) 0) (seq 0 (length (clusters s)))) by (apply map_ext; intro; now apply R3). rewrite P. reflexivity.
    + apply (nth_ext _ _ 0 0); [unfold chosen; rewrite map_length, ord_n; exact Q2|]. intros i Hi. rewrite Q2 in Hi. rewrite chosen_nth by (rewrite ord_n; exact Hi). now apply R3.
  - clear - C. induction C as [|g g' l l' H Hl IH]; constructor; auto. unfold same_members in H. cbn [repeat concat] in H. now rewrite app_nil_r in H.
Qed.
End Order.

Theorem C265_order (data : list rpoint) density ord D k means0 variances0 tolerance iterations : Permutation ord (seq 0 (length data)) -> (forall p, In p data -> length p = D) ->
  same_run (em_moved ord) (ema_process data density k means0 variances0 tolerance iterations) (ema_process (@chosen rpoint [] data ord) density k means0 variances0 tolerance iterations).
Proof.
  intros Ho HD. unfold ema_process. rewrite (n_moved data ord Ho). destruct (length data =? 0)%nat; [reflexivity|]. destruct (k =? 0)%nat; [reflexivity|].
  set (s0 := {| amount := k |}).
  pose proof (ema_loop_moved data density ord D Ho HD tolerance iterations false (Some (-200000)) (Some (-100000)) s0 s0) as W.
  assert (L0 : linked data ord s0 s0).
  { split; [repeat split|]. split; [|split; [split; [reflexivity|split]|constructor]]; cbn [gaussians rc].
    - intros c i Hi. assert (Z : forall k c, nth c (repeat (@nil (option R)) k) [] = []) by (clear; induction k; intros [|c]; cbn; auto). cbn [gaussians s0]. unfold s0. cbn [gaussians]. now rewrite Z, !nth_of_nil.
    - unfold s0. cbn [rc]. intros c Hc. rewrite repeat_length in Hc. rewrite (nth_indep _ [] (repeat 0 (length data))) by (rewrite repeat_length; exact Hc). rewrite nth_repeat, repeat_length. auto.
    - unfold s0. cbn [rc]. intros c i Hi. assert (Z : forall k c i, nth i (nth c (repeat (repeat 0 (length data)) k) []) 0 = 0).
      { clear. induction k; intros [|c] i; cbn [repeat nth]; try apply nth_of_nil; [apply nth_repeat|apply IHk]. } now rewrite !Z. }
  specialize (W L0). destruct (loop data density _ _ _ _ _ s0) as [s|x], (loop (@chosen rpoint [] data ord) density _ _ _ _ _ s0) as [s'|x']; cbn [same_run bind] in W |- *; try exact W; try (destruct W; fail).
  now apply (normalize_moved data ord Ho).
Qed.
Print Assumptions C265_order.

(** with the densities of the library, for every pseudo-inverse: both runs succeed *)
Theorem C265_gaussian (data : list rpoint) pinv ord D k means0 variances0 tolerance iterations : Permutation ord (seq 0 (length data)) -> (forall p, In p data -> length p = D) ->
  (0 < length data)%nat -> (0 < k)%nat -> length means0 = k -> length variances0 = k -> (forall v, In v variances0 -> norm v <> 0) -> (0 < iterations)%nat -> tolerance < 100000 ->
  exists s s', ema_process data (gaussian pinv) k means0 variances0 tolerance iterations = Ok s /\
    ema_process (@chosen rpoint [] data ord) (gaussian pinv) k means0 variances0 tolerance iterations = Ok s' /\ em_moved ord s s'.
Proof.
  intros Ho HD Hn Hk Lm Lv V Hi Ht. destruct (C44_clusters data (gaussian pinv) k means0 variances0 tolerance iterations) as (s & E & _); auto using C44_gaussian_regular.
  pose proof (C265_order data (gaussian pinv) ord D k means0 variances0 tolerance iterations Ho HD) as W. rewrite E in W. destruct (ema_process (@chosen rpoint [] data ord) _ _ _ _ _ _) as [s'|x]; [|destruct W]. exists s, s'. auto.
Qed.
Print Assumptions C265_gaussian.

Example C265_example : Permutation [2; 0; 1]%nat (seq 0 (length [[0]; [1]; [4]])) /\ (forall p, In p [[0]; [1]; [4]] -> length p = 1%nat) /\
  (forall v, In v [[[1]]; [[1]]] -> norm v <> 0) /\ @chosen rpoint [] [[0]; [1]; [4]] [2; 0; 1]%nat = [[4]; [0]; [1]].
Proof.
  split; [|split; [|split; [|reflexivity]]].
  - cbn. apply Permutation_sym. apply (Permutation_cons_append [0; 1]%nat 2%nat) || apply Permutation_sym, (Permutation_cons_append [0; 1]%nat 2%nat).
  - intros p [<- | [<- | [<- | []]]]; reflexivity.
  - intros v Hv. assert (v = [[1]]) as -> by (destruct Hv as [<- | [<- | []]]; auto). unfold norm, rtotal. cbn. replace (1 * (1 * 1) + 0) with 1 by ring. rewrite sqrt_1. apply R1_neq_R0.
Qed.
