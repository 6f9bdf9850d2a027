(** C243, continued: centroid link, the sequential algorithms and CLIQUE. *)
From Verif Require Import Base Kmeans_Model Kmedoids_Model Clique_Model Aggl_Model Bsas_Model Kmeans_Proofs Scaled_Proofs Unit_Props.
Open Scope nat_scope.

(** ** agglomerative clustering with centroid link *)
Definition same_groups (s : Q) (v : point) (r r' : Aggl_Model.ast) : Prop :=
  Aggl_Model.clusters r' = Aggl_Model.clusters r /\ Forall2 (moved s v) (Aggl_Model.centers r) (Aggl_Model.centers r').

Section Centroid.
Variables (s : Q) (v : point).
Hypothesis Hs : (0 < s)%Q.
Variables data data' : list point.
Hypothesis Hdata : Forall2 (moved s v) data data'.

Lemma upd_both {A B} (R : A -> B -> Prop) l l' i a b : Forall2 R l l' -> R a b -> Forall2 R (upd l i a) (upd l' i b).
Proof. intros H. revert i. induction H; intros [|i] Hab; cbn [upd]; constructor; auto. Qed.
Lemma pop_both {A B} (R : A -> B -> Prop) l l' j : Forall2 R l l' -> Forall2 R (pop l j) (pop l' j).
Proof. intros H. revert j. induction H; intros [|j]; cbn [pop]; auto. Qed.
Lemma in_pop {A} (x : A) l : forall j, In x (pop l j) -> In x l.
Proof. induction l as [|y t IH]; intros [|j] H; cbn [pop] in H; auto; [right; exact H|]. destruct H as [<- |H]; [left; reflexivity|right; apply (IH j); exact H]. Qed.
Lemma in_upd {A} (x : A) l : forall i a, In x (upd l i a) -> x = a \/ In x l.
Proof. induction l as [|y t IH]; intros [|i] a H; cbn [upd] in H; auto; destruct H as [<- |H]; auto; [right; right; exact H|right; left; reflexivity|]. destruct (IH i a H); [left; assumption|right; right; assumption]. Qed.

Lemma center_moved c : c <> [] -> (forall i, In i c -> i < length data) -> moved s v (calculate_center data c) (calculate_center data' c).
Proof.
  intros Hc Hi. unfold calculate_center. destruct c as [|i0 t] eqn:E; [congruence|]. rewrite <- E in *.
  assert (H0 : i0 < length data) by (apply Hi; rewrite E; left; reflexivity). replace (hd 0 c) with i0 by (rewrite E; reflexivity).
  destruct (nth_moved s v _ _ Hdata i0 H0) as (A & B & _). unfold point in *. rewrite A, B. apply moved_mean; [rewrite E; discriminate|]. apply points_moved; assumption.
Qed.

Lemma pairs_lt k i j : In (i, j) (pairs k) -> i < j < k.
Proof. unfold pairs. intro H. apply in_flat_map in H as (a & Ha & H). apply in_map_iff in H as (b & [= -> ->] & Hb). apply in_seq in Ha, Hb. lia. Qed.

Lemma step_same st st' : same_groups s v st st' -> valid_groups data (Aggl_Model.clusters st) ->
  match merge_step data CentroidLink st, merge_step data' CentroidLink st' with
  | Ok r, Ok r' => same_groups s v r r' /\ valid_groups data (Aggl_Model.clusters r) | Raise e, Raise e' => e' = e | _, _ => False end.
Proof.
  intros (H1 & H2) Hv. unfold merge_step. rewrite (both_length _ _ _ H2), H1.
  rewrite (times_min_by (s * s) (square_positive s Hs) (pair_value data CentroidLink st) (pair_value data' CentroidLink st')).
  - destruct (min_by (pair_value data CentroidLink st) (pairs (length (Aggl_Model.centers st)))) as [[i j]|] eqn:E; [|reflexivity].
    apply min_by_spec in E as (E & _). apply pairs_lt in E. destruct (Nat.ltb_spec j (length (Aggl_Model.clusters st))) as [Hj|]; [|reflexivity].
    assert (Hm : forall x, In x (nth i (Aggl_Model.clusters st) [] ++ nth j (Aggl_Model.clusters st) []) -> x < length data).
    { intros x Hx. apply in_app_or in Hx as [Hx|Hx]; (eapply (Hv (nth _ (Aggl_Model.clusters st) [])); [|exact Hx]); apply nth_In; lia. }
    assert (Hne : nth i (Aggl_Model.clusters st) [] ++ nth j (Aggl_Model.clusters st) [] <> []).
    { destruct (Hv (nth i (Aggl_Model.clusters st) [])) as (W & _); [apply nth_In; lia|]. destruct (nth i (Aggl_Model.clusters st) []); [congruence|discriminate]. }
    split; [split|]; cbn [Aggl_Model.clusters Aggl_Model.centers].
    + reflexivity.
    + apply pop_both, upd_both; [exact H2|]. apply center_moved; assumption.
    + intros g Hg. apply in_pop in Hg. apply in_upd in Hg as [-> |Hg]; [split; assumption|apply Hv; exact Hg].
  - intros [i j] Hij. apply pairs_lt in Hij. cbn [pair_value]. unfold times. apply (moved_sqdist s v); apply nth_moved; auto; unfold point in *; lia.
Qed.

Lemma merge_same number : forall fuel st st', same_groups s v st st' -> valid_groups data (Aggl_Model.clusters st) ->
  same_run (same_groups s v) (merge_loop data CentroidLink fuel number st) (merge_loop data' CentroidLink fuel number st').
Proof.
  induction fuel as [|f IH]; intros st st' H Hv; cbn [merge_loop]; destruct (H) as (H1 & _); rewrite H1; destruct (number <? length (Aggl_Model.clusters st)); try reflexivity; try exact H.
  pose proof (step_same st st' H Hv) as S. destruct (merge_step data CentroidLink st), (merge_step data' CentroidLink st'); cbn [bind]; try contradiction; [|exact S]. destruct S as (S1 & S2). apply IH; assumption.
Qed.
End Centroid.

Theorem C243_centroid_link s v data data' number : (0 < s)%Q -> Forall2 (moved s v) data data' ->
  same_run (same_groups s v) (agglomerative data CentroidLink number) (agglomerative data' CentroidLink number).
Proof.
  intros Hs H. unfold agglomerative, new. pose proof (both_length _ _ _ H) as L. destruct data as [|p t] eqn:E; [inversion H; reflexivity|]. destruct data' as [|p' t'] eqn:E'; [discriminate|]. rewrite <- E, <- E' in *.
  destruct (number =? 0); [reflexivity|]. cbn [bind]. unfold Aggl_Model.process. unfold point in *. rewrite L. apply merge_same; [exact Hs|exact H| |].
  - split; [reflexivity|exact H].
  - cbn [Aggl_Model.clusters]. intros g Hg. apply in_map_iff in Hg as (i & <- & Hi). apply in_seq in Hi. split; [discriminate|]. intros j [<- |[]]. unfold point in *. lia.
Qed.
Print Assumptions C243_centroid_link.

(** ** sequential algorithms *)
(** same clusters, representatives at the same places of the memory, memory moved *)
Definition same_state (s : Q) (v : point) (r r' : sst) : Prop :=
  clusters r' = clusters r /\ reps r' = reps r /\ Forall2 (moved s v) (heap r) (heap r').

Section Seq.
Variables (s : Q) (v : point).
Hypothesis Hs : (0 < s)%Q.
Variable data : list nat.
Let m := (s * s)%Q.

Definition fine (r : sst) : Prop := length (reps r) = length (clusters r) /\ (forall x, In x (reps r) -> x < length (heap r)) /\ (forall x, In x data -> x < length (heap r)).

Lemma ref_in r i : fine r -> i < length data -> ref data i < length (heap r).
Proof. intros (_ & _ & H) Hi. apply H. apply nth_In. exact Hi. Qed.
Lemma rep_in r k : fine r -> k < length (reps r) -> nth k (reps r) 0 < length (heap r).
Proof. intros (_ & H & _) Hk. apply H. apply nth_In. exact Hk. Qed.

Lemma nearest_same r r' i : same_state s v r r' -> fine r -> i < length data ->
  let '(k, d) := find_nearest_cluster sqdist r (deref (heap r) (ref data i)) in
  let '(k', d') := find_nearest_cluster sqdist r' (deref (heap r') (ref data i)) in
  k' = k /\ times m d d' /\ (reps r <> [] -> k < length (reps r)).
Proof.
  intros (H1 & H2 & H3) Hf Hi. unfold find_nearest_cluster. rewrite H2.
  assert (D : forall k, k < length (reps r) -> times m (sqdist (deref (heap r) (ref data i)) (deref (heap r) (nth k (reps r) 0))) (sqdist (deref (heap r') (ref data i)) (deref (heap r') (nth k (reps r) 0)))).
  { intros k Hk. unfold times, m, deref. apply (moved_sqdist s v); apply nth_moved; auto; [apply ref_in|apply rep_in]; assumption. }
  rewrite (times_min_by m (square_positive s Hs) (fun k => sqdist (deref (heap r) (ref data i)) (deref (heap r) (nth k (reps r) 0))) (fun k => sqdist (deref (heap r') (ref data i)) (deref (heap r') (nth k (reps r) 0))))
    by (intros k Hk; apply in_seq in Hk; apply D; lia).
  destruct (min_by _ (seq 0 (length (reps r)))) as [k|] eqn:E.
  - apply min_by_spec in E as (E & _). apply in_seq in E. split; [reflexivity|]. split; [apply D; lia|intros _; lia].
  - split; [reflexivity|]. split; [unfold times; ring|]. intro Hne. apply min_by_none in E. destruct (reps r); [congruence|discriminate].
Qed.

Lemma open_same r r' i : same_state s v r r' -> fine r -> i < length data -> same_state s v (open_cluster data r i) (open_cluster data r' i) /\ fine (open_cluster data r i).
Proof.
  intros (H1 & H2 & H3) Hf Hi. unfold open_cluster. split.
  - split; [|split]; cbn [clusters reps heap]; congruence.
  - pose proof (ref_in r i Hf Hi) as HR. destruct Hf as (F1 & F2 & F3). split; [|split]; cbn [clusters reps heap]; [rewrite !app_length; cbn; lia| |exact F3].
    intros x Hx. apply in_app_or in Hx as [Hx|[<- |[]]]; auto.
Qed.

Lemma updated_moved rep rep' p p' n : 1 <= n -> moved s v rep rep' -> moved s v p p' -> moved s v (updated_representative rep p n) (updated_representative rep' p' n).
Proof.
  intros Hn (A1 & A2 & A3) (B1 & B2 & B3). unfold updated_representative. unfold point in *. rewrite A1, A2. split; [now rewrite map_length, seq_length|]. split; [now rewrite map_length, seq_length|].
  intros d Hd. assert (G : forall r q, coord (map (fun d => ((inject_Z (Z.of_nat n - 1) * coord r d + coord q d) / inject_Z (Z.of_nat n))%Q) (seq 0 (length v))) d = ((inject_Z (Z.of_nat n - 1) * coord r d + coord q d) / inject_Z (Z.of_nat n))%Q).
  { intros r q. unfold coord at 1. now rewrite nth_map_seq0 by exact Hd. }
  rewrite !G, (A3 d Hd), (B3 d Hd). assert (E : (inject_Z (Z.of_nat n - 1) == inject_Z (Z.of_nat n) - 1)%Q) by (unfold Qeq, inject_Z, Qminus, Qplus, Qopp; cbn; lia). rewrite E. field.
  intro Z0. unfold Qeq, inject_Z in Z0. cbn in Z0. lia.
Qed.

Lemma join_same r r' k i : same_state s v r r' -> fine r -> i < length data -> k < length (reps r) ->
  same_state s v (join_cluster data r k i) (join_cluster data r' k i) /\ fine (join_cluster data r k i).
Proof.
  intros (H1 & H2 & H3) Hf Hi Hk. unfold join_cluster. split.
  - split; [|split]; cbn [clusters reps heap]; [congruence|exact H2|]. rewrite H1, H2. apply upd_both; [exact H3|]. apply updated_moved.
    + destruct Hf as (F1 & _). unfold push. rewrite upd_nth_eq by lia. rewrite app_length. cbn. lia.
    + apply nth_moved; [exact H3|]. apply rep_in; assumption.
    + apply nth_moved; [exact H3|]. apply ref_in; assumption.
  - destruct Hf as (F1 & F2 & F3). split; [|split]; cbn [clusters reps heap]; [rewrite push_length; exact F1| |]; rewrite upd_length; assumption.
Qed.

Lemma reps_open r i : reps (open_cluster data r i) <> []. Proof. cbn. destruct (reps r); discriminate. Qed.

Variables (amount : nat) (threshold : Q).

Lemma bsas_step_same r r' i : same_state s v r r' -> fine r -> reps r <> [] -> i < length data ->
  same_state s v (bsas_step sqdist data amount threshold r i) (bsas_step sqdist data amount (m * threshold) r' i) /\
  fine (bsas_step sqdist data amount threshold r i) /\ reps (bsas_step sqdist data amount threshold r i) <> [].
Proof.
  intros H Hf Hne Hi. unfold bsas_step. pose proof (nearest_same r r' i H Hf Hi) as N.
  destruct (find_nearest_cluster sqdist r _) as [k d], (find_nearest_cluster sqdist r' _) as [k' d']. destruct N as (-> & N & Nk). specialize (Nk Hne).
  rewrite (scale_ltb m (square_positive s Hs) threshold d (m * threshold) d' (Qeq_refl _) N). destruct (H) as (-> & _ & _).
  destruct (Qltb threshold d && (length (clusters r) <? amount)).
  - destruct (open_same r r' i H Hf Hi). split; [assumption|]. split; [assumption|apply reps_open].
  - destruct (join_same r r' k i H Hf Hi Nk). split; [assumption|]. split; [assumption|exact Hne].
Qed.

Lemma bsas_fold : forall l r r', (forall i, In i l -> i < length data) -> same_state s v r r' -> fine r -> reps r <> [] ->
  same_state s v (fold_left (bsas_step sqdist data amount threshold) l r) (fold_left (bsas_step sqdist data amount (m * threshold)) l r').
Proof.
  induction l as [|i t IH]; intros r r' Hl H Hf Hne; cbn [fold_left]; [exact H|].
  destruct (bsas_step_same r r' i H Hf Hne) as (A & B & C); [apply Hl; left; reflexivity|]. apply IH; auto. intros; apply Hl; right; assumption.
Qed.

Lemma mbsas_fold : forall l r r' sk, (forall i, In i l -> i < length data) -> (forall i, In i sk -> i < length data) -> same_state s v r r' -> fine r -> reps r <> [] ->
  let '(a, b) := fold_left (mbsas_step sqdist data amount threshold) l (r, sk) in let '(a', b') := fold_left (mbsas_step sqdist data amount (m * threshold)) l (r', sk) in
  same_state s v a a' /\ b' = b /\ fine a /\ reps a <> [] /\ (forall i, In i b -> i < length data).
Proof.
  induction l as [|i t IH]; intros r r' sk Hl Hsk H Hf Hne; cbn [fold_left]; [auto 10|].
  assert (Hi : i < length data) by (apply Hl; left; reflexivity). assert (Ht : forall j, In j t -> j < length data) by (intros; apply Hl; right; assumption).
  pose proof (nearest_same r r' i H Hf Hi) as N. cbn [mbsas_step].
  destruct (find_nearest_cluster sqdist r _) as [k d], (find_nearest_cluster sqdist r' _) as [k' d']. destruct N as (-> & N & Nk).
  rewrite (scale_ltb m (square_positive s Hs) threshold d (m * threshold) d' (Qeq_refl _) N). destruct (H) as (Hc & _ & _). rewrite Hc.
  destruct (Qltb threshold d && (length (clusters r) <? amount)).
  - destruct (open_same r r' i H Hf Hi). apply IH; auto. apply reps_open.
  - apply IH; auto. intros j Hj. apply in_app_or in Hj as [Hj|[<- |[]]]; auto.
Qed.

Lemma mbsas_join_fold : forall l r r', (forall i, In i l -> i < length data) -> same_state s v r r' -> fine r -> reps r <> [] ->
  same_state s v (fold_left (mbsas_join sqdist data) l r) (fold_left (mbsas_join sqdist data) l r').
Proof.
  induction l as [|i t IH]; intros r r' Hl H Hf Hne; cbn [fold_left]; [exact H|]. assert (Hi : i < length data) by (apply Hl; left; reflexivity).
  unfold mbsas_join at 2 4. pose proof (nearest_same r r' i H Hf Hi) as N.
  destruct (find_nearest_cluster sqdist r _) as [k d], (find_nearest_cluster sqdist r' _) as [k' d']. destruct N as (-> & N & Nk). specialize (Nk Hne).
  destruct (join_same r r' k i H Hf Hi Nk). apply IH; auto. intros; apply Hl; right; assumption.
Qed.
End Seq.

Section Clients.
Variables (s : Q) (v : point) (data : list nat) (h h' : list point).
Hypothesis Hs : (0 < s)%Q.
Hypothesis Hh : Forall2 (moved s v) h h'.
Hypothesis Hd : forall x, In x data -> x < length h.

Lemma initial_fine : fine data (mkS h [] []).
Proof. split; [reflexivity|]. split; [intros x []|exact Hd]. Qed.
Lemma initial_same : same_state s v (mkS h [] []) (mkS h' [] []).
Proof. split; [reflexivity|]. split; [reflexivity|exact Hh]. Qed.
End Clients.

(** BSAS and MBSAS on the caller's lists; a threshold for squared distances is multiplied like these *)
Theorem C243_bsas s v (data : list nat) h h' amount threshold : (0 < s)%Q -> Forall2 (moved s v) h h' -> (forall x, In x data -> x < length h) ->
  same_run (same_state s v) (bsas sqdist data amount threshold h) (bsas sqdist data amount (s * s * threshold) h') /\
  same_run (same_state s v) (mbsas sqdist data amount threshold h) (mbsas sqdist data amount (s * s * threshold) h').
Proof.
  intros Hs Hh Hd. unfold bsas, mbsas.
  assert (V : verify_arguments data amount (s * s * threshold) = verify_arguments data amount threshold).
  { unfold verify_arguments. destruct data; [reflexivity|]. destruct (amount =? 0); [reflexivity|]. rewrite (scale_ltb0 (s * s) (square_positive s Hs) threshold _ (Qeq_refl _)). reflexivity. }
  rewrite V. destruct (verify_arguments data amount threshold) eqn:EV; [split; reflexivity|]. cbn [same_run].
  assert (Hpos : 0 < length data) by (unfold verify_arguments in EV; destruct data; [discriminate|cbn; lia]).
  destruct (open_same s v data (mkS h [] []) (mkS h' [] []) 0 (initial_same s v h h' Hh) (initial_fine data h Hd) Hpos) as (O1 & O2).
  assert (Hl : forall i, In i (seq 1 (length data - 1)) -> i < length data) by (intros i Hi; apply in_seq in Hi; lia). split.
  - unfold bsas_process. apply bsas_fold; auto. apply reps_open.
  - unfold mbsas_process. pose proof (mbsas_fold s v Hs data amount threshold (seq 1 (length data - 1)) _ _ [] Hl ltac:(intros i []) O1 O2 (reps_open data _ 0)) as W.
    destruct (fold_left (mbsas_step sqdist data amount threshold) _ _) as [a b], (fold_left (mbsas_step sqdist data amount (s * s * threshold)) _ _) as [a' b'].
    destruct W as (W1 & -> & W2 & W3 & W4). apply mbsas_join_fold; auto.
Qed.
Print Assumptions C243_bsas.

(** TTSAS *)
Definition same_tstate (s : Q) (v : point) (r r' : tst) : Prop := same_state s v (base r) (base r') /\ skipped r' = skipped r.

Section Tt.
Variables (s : Q) (v : point).
Hypothesis Hs : (0 < s)%Q.
Variable data : list nat.
Variables t1 t2 : Q.
Let m := (s * s)%Q.

Definition tfine (t : tst) : Prop := fine data (base t) /\ length (skipped t) = length data.
Definition tgood (t t' : tst) : Prop := same_tstate s v t t' /\ tfine t.

Lemma ttsas_step_same t t' i : tgood t t' -> reps (base t) <> [] -> i < length data ->
  tgood (ttsas_step sqdist data t1 t2 t i) (ttsas_step sqdist data (m * t1) (m * t2) t' i) /\ reps (base (ttsas_step sqdist data t1 t2 t i)) <> [].
Proof.
  intros ((H & Hk) & Hf & HL) Hne Hi. unfold ttsas_step. rewrite Hk. destruct (nth i (skipped t) false); [|split; [split; [split|split]|]; assumption].
  pose proof (nearest_same s v Hs data (base t) (base t') i H Hf Hi) as N. destruct (find_nearest_cluster sqdist (base t) _) as [k d], (find_nearest_cluster sqdist (base t') _) as [k' d'].
  destruct N as (-> & N & Nk). specialize (Nk Hne).
  rewrite (scale_leb m (square_positive s Hs) d t1 d' (m * t1) N (Qeq_refl _)), (scale_ltb m (square_positive s Hs) t2 d (m * t2) d' (Qeq_refl _) N).
  destruct (Qle_bool d t1).
  - destruct (join_same s v data (base t) (base t') k i H Hf Hi Nk). unfold ttsas_append. split; [split; [split|split]|]; cbn [base skipped]; auto; [congruence|rewrite upd_length; exact HL].
  - destruct (Qltb t2 d); [|split; [split; [split|split]|]; assumption].
    destruct (open_same s v data (base t) (base t') i H Hf Hi). unfold ttsas_allocate. split; [split; [split|split]|]; cbn [base skipped]; auto; [congruence|rewrite upd_length; exact HL|apply reps_open].
Qed.

Lemma ttsas_fold : forall l t t', (forall i, In i l -> i < length data) -> tgood t t' -> reps (base t) <> [] ->
  tgood (fold_left (ttsas_step sqdist data t1 t2) l t) (fold_left (ttsas_step sqdist data (m * t1) (m * t2)) l t') /\ reps (base (fold_left (ttsas_step sqdist data t1 t2) l t)) <> [].
Proof.
  induction l as [|i l IH]; intros t t' Hl H Hne; cbn [fold_left]; [split; assumption|].
  destruct (ttsas_step_same t t' i H Hne) as (A & B); [apply Hl; left; reflexivity|]. apply IH; auto. intros; apply Hl; right; assumption.
Qed.

Lemma index_true_lt l : length (filter (fun b => b) l) <> 0 -> index_true l < length l.
Proof. induction l as [|[] t IH]; cbn; intro H; [lia|lia|]. specialize (IH H). lia. Qed.

Lemma ttsas_loop_same : forall fuel changes t t', tgood t t' -> (changes = 0 \/ reps (base t) <> []) ->
  match ttsas_loop sqdist data t1 t2 fuel changes t, ttsas_loop sqdist data (m * t1) (m * t2) fuel changes t' with
  | Some a, Some b => same_tstate s v a b | None, None => True | _, _ => False end.
Proof.
  induction fuel as [|f IH]; intros changes t t' Hg Hc; destruct (Hg) as ((H & Hk) & Hf & HL);
    assert (Ha' : amount_skipped t' = amount_skipped t) by (unfold amount_skipped; now rewrite Hk); cbn [ttsas_loop]; rewrite Ha';
    destruct (Nat.eqb_spec (amount_skipped t) 0) as [E|E]; try (split; assumption); try exact I.
  cbv zeta.
  assert (Hi : index_true (skipped t) < length data) by (rewrite <- HL; apply index_true_lt; exact E).
  assert (P : tgood (ttsas_pass sqdist data t1 t2 changes t) (ttsas_pass sqdist data (m * t1) (m * t2) changes t') /\ reps (base (ttsas_pass sqdist data t1 t2 changes t)) <> []).
  { unfold ttsas_pass. rewrite Hk. destruct (Nat.eqb_spec changes 0) as [E0|E0].
    - destruct (open_same s v data (base t) (base t') (index_true (skipped t)) H Hf Hi). apply ttsas_fold.
      + intros i Hin. apply in_seq in Hin. lia.
      + unfold ttsas_allocate. split; [split|split]; cbn [base skipped]; auto; [congruence|rewrite upd_length; exact HL].
      + apply reps_open.
    - apply ttsas_fold; auto; [intros i Hin; apply in_seq in Hin; lia|]. destruct Hc; [contradiction|assumption]. }
  destruct P as (P1 & P2). assert (Hp : amount_skipped (ttsas_pass sqdist data (m * t1) (m * t2) changes t') = amount_skipped (ttsas_pass sqdist data t1 t2 changes t)).
  { destruct P1 as ((_ & W) & _). unfold amount_skipped. now rewrite W. }
  rewrite Hp. apply IH; [exact P1|right; exact P2].
Qed.
End Tt.

Theorem C243_ttsas s v (data : list nat) h h' t1 t2 fuel : (0 < s)%Q -> Forall2 (moved s v) h h' -> (forall x, In x data -> x < length h) ->
  match ttsas_new data t1 h, ttsas_new data (s * s * t1) h' with
  | Ok t, Ok t' => match ttsas_process sqdist data t1 t2 fuel t, ttsas_process sqdist data (s * s * t1) (s * s * t2) fuel t' with
                   | Some a, Some b => same_tstate s v a b | None, None => True | _, _ => False end
  | Raise e, Raise e' => e' = e
  | _, _ => False
  end.
Proof.
  intros Hs Hh Hd. unfold ttsas_new.
  assert (V : verify_arguments data (length data) (s * s * t1) = verify_arguments data (length data) t1).
  { unfold verify_arguments. destruct data as [|x0 dt]; [reflexivity|]. destruct (length (x0 :: dt) =? 0); [reflexivity|]. rewrite (scale_ltb0 (s * s) (square_positive s Hs) t1 _ (Qeq_refl _)). reflexivity. }
  rewrite V. destruct (verify_arguments data (length data) t1); [reflexivity|]. unfold ttsas_process. apply ttsas_loop_same; [exact Hs| |left; reflexivity].
  split; [split|split]; cbn [base skipped]; [apply initial_same; exact Hh|reflexivity|apply initial_fine; exact Hd|apply repeat_length].
Qed.
Print Assumptions C243_ttsas.

(** ** CLIQUE: also when every coordinate has its own unit *)
Definition rescaled (ss v p q : point) : Prop :=
  length p = length v /\ length q = length v /\ length ss = length v /\ (forall d, d < length v -> (0 < coord ss d)%Q) /\
  forall d, d < length v -> (coord q d == coord ss d * coord p d + coord v d)%Q.

Section Grid.
Variables (ss v : point).
Variables data data' : list point.
Hypothesis Hdata : Forall2 (rescaled ss v) data data'.
Variables intervals threshold : nat.

Lemma corner_ltb d a b a' b' : (0 < coord ss d)%Q -> (a' == coord ss d * a + coord v d)%Q -> (b' == coord ss d * b + coord v d)%Q -> Qltb a' b' = Qltb a b.
Proof.
  intros H Ha Hb. destruct (Qltb a b) eqn:E; [apply Qltb_true in E; apply Qltb_true|apply Qltb_false in E; apply Qltb_false]; rewrite Ha, Hb; nra.
Qed.

Hypothesis Hne : data <> [].
Lemma corners d : d < length v -> (0 < coord ss d)%Q -> (min_corner data' d == coord ss d * min_corner data d + coord v d)%Q /\ (max_corner data' d == coord ss d * max_corner data d + coord v d)%Q.
Proof.
  intros Hd Hp. unfold min_corner, max_corner. destruct Hdata as [|p q l l' Hpq Hl]; [congruence|]. cbn [tl hd]. destruct Hpq as (_ & _ & _ & _ & E0). specialize (E0 d Hd).
  assert (C : forall (f : Q -> Q -> bool), (forall a b a' b', (a' == coord ss d * a + coord v d)%Q -> (b' == coord ss d * b + coord v d)%Q -> f a' b' = f a b) ->
    forall a a', (a' == coord ss d * a + coord v d)%Q -> (fold_left (fun m p => if f (coord p d) m then coord p d else m) l' a' == coord ss d * fold_left (fun m p => if f (coord p d) m then coord p d else m) l a + coord v d)%Q).
  { intros f Hf. clear - Hl Hf Hd. induction Hl as [|p1 q1 l l' H1 Hl IH]; intros a a' Ha; cbn [fold_left]; [exact Ha|]. destruct H1 as (_ & _ & _ & _ & E). specialize (E d Hd).
    rewrite (Hf _ _ _ _ E Ha). apply IH. destruct (f (coord p1 d) a); assumption. }
  split; [apply (C Qltb)|apply (C (fun x y => Qltb y x))]; auto; intros; apply (corner_ltb d); assumption.
Qed.

Lemma grid_contains loc p q : rescaled ss v p q -> contains data' intervals loc q = contains data intervals loc p.
Proof.
  intros (A & B & _ & Hp & E). unfold contains. unfold point in *. rewrite A, B.
  assert (G : forall l, (forall d, In d l -> d < length v) -> forallb (fun d => negb (Qltb (coord q d) (cell_min data' intervals loc d) || Qltb (cell_max data' intervals loc d) (coord q d))) l = forallb (fun d => negb (Qltb (coord p d) (cell_min data intervals loc d) || Qltb (cell_max data intervals loc d) (coord p d))) l).
  { induction l as [|d t IH]; intro Hl; cbn [forallb]; [reflexivity|]. assert (Hd : d < length v) by (apply Hl; left; reflexivity). destruct (corners d Hd (Hp d Hd)) as (C1 & C2).
    rewrite (IH ltac:(intros; apply Hl; right; assumption)). do 2 f_equal.
    assert (S : (cell_size data' intervals d == coord ss d * cell_size data intervals d)%Q) by (unfold cell_size; rewrite C1, C2; unfold Qdiv; ring).
    assert (M1 : (cell_min data' intervals loc d == coord ss d * cell_min data intervals loc d + coord v d)%Q) by (unfold cell_min; rewrite C1, S; ring).
    assert (M2 : (cell_max data' intervals loc d == coord ss d * cell_max data intervals loc d + coord v d)%Q) by (unfold cell_max; destruct (nth d loc 0 =? intervals - 1); [exact C2|]; rewrite M1, S; ring).
    f_equal; apply (corner_ltb d); auto. }
  apply G. intros d Hd. apply in_seq in Hd. lia.
Qed.

Lemma cells_same : cells data' intervals = cells data intervals.
Proof. unfold cells, dimension. destruct Hdata as [|p q l l' Hp Hl]; [congruence|]. cbn [nth]. destruct Hp as (A & B & _). unfold point in *. now rewrite A, B. Qed.

Lemma capture_same loc av : capture_points data' intervals loc av = capture_points data intervals loc av.
Proof.
  unfold capture_points. assert (E : filter (fun i => nth i av false && contains data' intervals loc (nth i data' [])) (seq 0 (length data')) = filter (fun i => nth i av false && contains data intervals loc (nth i data [])) (seq 0 (length data))).
  { rewrite (both_length _ _ _ Hdata). apply filter_ext_in. intros i Hi. apply in_seq in Hi. f_equal. apply grid_contains.
    assert (Hi' : i < length data) by (unfold point in *; lia). clear Hi Hne. revert i Hi'. generalize Hdata. clear. intro H. induction H; intros [|i] Hi; cbn [nth length] in *; auto; try lia. apply IHForall2. unfold point in *. lia. }
  rewrite E. reflexivity.
Qed.

Lemma cell_points_same : cell_points data' intervals = cell_points data intervals.
Proof.
  unfold cell_points. rewrite cells_same, (both_length _ _ _ Hdata). generalize (repeat true (length data)). induction (cells data intervals) as [|loc t IH]; intro av; cbn [capture_all]; [reflexivity|].
  rewrite capture_same. destruct (capture_points data intervals loc av) as [c a]. now rewrite IH.
Qed.

Lemma get_same : forall locs vis, get_neighbors data' intervals locs vis = get_neighbors data intervals locs vis.
Proof. induction locs as [|l t IH]; intro vis; cbn [get_neighbors]; [reflexivity|]. rewrite cells_same. destruct (index_of l (cells data intervals)); [|reflexivity]. destruct (nth n vis false); [apply IH|]. now rewrite IH. Qed.
Lemma neighbors_same c vis : Clique_Model.neighbors data' intervals c vis = Clique_Model.neighbors data intervals c vis.
Proof. unfold Clique_Model.neighbors. rewrite cells_same. apply get_same. Qed.
Lemma points_same c : points_of data' intervals c = points_of data intervals c.
Proof. unfold points_of. now rewrite cell_points_same. Qed.
Lemma dense_same c : dense data' intervals threshold c = dense data intervals threshold c.
Proof. unfold dense. now rewrite points_same. Qed.
Lemma expand_loop_same : forall fuel work cl no vis, Clique_Model.expand_loop data' intervals threshold fuel work cl no vis = Clique_Model.expand_loop data intervals threshold fuel work cl no vis.
Proof.
  induction fuel as [|f IH]; intros [|c work] cl no vis; cbn [Clique_Model.expand_loop]; try reflexivity. rewrite dense_same, neighbors_same, points_same.
  destruct (dense data intervals threshold c); [|apply IH]. destruct (Clique_Model.neighbors data intervals c vis); cbn [bind]; [apply IH|reflexivity].
Qed.
Lemma allocate_same : forall cs vis st, allocate data' intervals threshold cs vis st = allocate data intervals threshold cs vis st.
Proof.
  induction cs as [|c t IH]; intros vis st; cbn [allocate]; [reflexivity|]. destruct (nth c vis false); [apply IH|].
  assert (E : Clique_Model.expand_cluster data' intervals threshold c vis st = Clique_Model.expand_cluster data intervals threshold c vis st).
  { unfold Clique_Model.expand_cluster. rewrite dense_same, points_same, cells_same. destruct (dense data intervals threshold c); [|reflexivity]. rewrite neighbors_same.
    destruct (Clique_Model.neighbors data intervals c (upd vis c true)); cbn [bind]; [|reflexivity]. now rewrite expand_loop_same. }
  rewrite E. destruct (Clique_Model.expand_cluster data intervals threshold c vis st); cbn [bind]; [apply IH|reflexivity].
Qed.
End Grid.

Theorem C243_clique ss v data data' intervals threshold : Forall2 (rescaled ss v) data data' -> clique data' intervals threshold = clique data intervals threshold.
Proof.
  intros H. unfold clique. destruct data as [|p t] eqn:E; [inversion H; reflexivity|]. destruct data' as [|p' t'] eqn:E'; [inversion H|]. rewrite <- E, <- E' in *.
  destruct (intervals =? 0); [reflexivity|]. assert (Hne : data <> []) by (rewrite E; discriminate). unfold Clique_Model.process. rewrite (cells_same ss v data data' H intervals Hne). apply (allocate_same ss v); assumption.
Qed.
Print Assumptions C243_clique.

(** ** the tolerances that the classes use when none is given do not follow the unit *)
Definition metres : list point := [[0]; [1]; [2]; [3]; [10]]%Q.
Definition kilometres : list point := [[0]; [1 # 1000]; [2 # 1000]; [3 # 1000]; [10 # 1000]]%Q.
Lemma metres_kilometres : Forall2 (moved (1 # 1000) [0%Q]) metres kilometres.
Proof. repeat constructor; intros [|d] H; cbn in H; try lia; reflexivity. Qed.

Definition found (r : res (list (list nat) * list point * Q)) : option (list (list nat)) := match r with Ok (cl, _, _) => Some cl | _ => None end.
Lemma other_clusters s m v r r' : found r' <> found r -> ~ same_run (same_partition s m v) r r'.
Proof. destruct r as [[[cl ce] w]|], r' as [[[cl' ce'] w']|]; cbn [found same_run same_partition]; intros H G; try contradiction; try (apply H; reflexivity); destruct G as (-> & _); apply H; reflexivity. Qed.

Theorem C243_default_tolerance_refuted : exists s v data data' initial initial', (0 < s)%Q /\ Forall2 (moved s v) data data' /\ Forall2 (moved s v) initial initial' /\
  ~ same_run (same_partition s (s * s) v) (kmeans_process sqdist data initial (1 # 1000) 200) (kmeans_process sqdist data' initial' (1 # 1000) 200).
Proof.
  exists (1 # 1000), [0%Q], metres, kilometres, (firstn 2 metres), (firstn 2 kilometres). split; [reflexivity|]. split; [exact metres_kilometres|]. split.
  - repeat constructor; intros [|d] H; cbn in H; try lia; reflexivity.
  - apply other_clusters. vm_compute. discriminate.
Qed.
Print Assumptions C243_default_tolerance_refuted.

Definition ex_old : list point := [[0; 0]; [1; 1]; [5; 5]; [9; 0]]%Q.
Definition ex_new : list point := [[7; -1]; [9; 1]; [17; 9]; [25; -1]]%Q.
Example C243_example : Forall2 (moved 2 [7; -1]%Q) ex_old ex_new /\ Forall2 (rescaled [2; 2]%Q [7; -1]%Q) ex_old ex_new /\ (forall x, In x [0; 1; 2; 3] -> x < length ex_old) /\
  match bsas sqdist [0; 1; 2; 3] 3 9%Q ex_old, bsas sqdist [0; 1; 2; 3] 3 (2 * 2 * 9)%Q ex_new with
  | Ok a, Ok b => clusters a = [[0; 1]; [2]; [3]] /\ clusters b = [[0; 1]; [2]; [3]] | _, _ => False end /\
  match agglomerative ex_old CentroidLink 2, agglomerative ex_new CentroidLink 2 with
  | Ok a, Ok b => Aggl_Model.clusters a = [[0; 1; 2]; [3]] /\ Aggl_Model.clusters b = [[0; 1; 2]; [3]] | _, _ => False end /\
  clique ex_new 3 0 = clique ex_old 3 0 /\
  match kmeans_process sqdist ex_new (firstn 2 ex_new) (2 * 2 * (1 # 1000))%Q 200 with Ok (cl, _, _) => length cl = 2 | _ => False end.
Proof.
  split; [repeat constructor; intros [|[|d]] H; cbn in H; try lia; reflexivity|].
  split; [repeat constructor; intros [|[|d]] H; cbn in H; try lia; reflexivity|].
  split; [intros x H; cbn in H |- *; lia|]. vm_compute. auto 10.
Qed.
