(** C230, C231: which point k-means++ takes as the next centre; its data types and results. *)
From Verif Require Import Base Kmeans_Model Kmeans_Proofs Kmedoids_Model Kmedoids_Proofs Init_Model Init_Proofs Init_Props Plus_Model.
From Coq Require Import Lqa Lia.
Open Scope nat_scope.

(** * C230 *)

(** the sum of the first [i] distances *)
Fixpoint before (ds : list Q) (i : nat) : Q :=
  match i, ds with S i', d :: t => (d + before t i')%Q | _, _ => 0%Q end.
Definition total (ds : list Q) : Q := before ds (length ds).

(** point [i] is the one a random number [r] of [0, 1) falls on when every point has a share of
    this interval proportional to its distance *)
Definition falls_on (ds : list Q) (r : Q) (i : nat) : Prop :=
  i < length ds /\ (before ds i <= r * total ds)%Q /\ (r * total ds < before ds (S i))%Q.

Lemma before_S ds : forall i, i < length ds -> (before ds (S i) == before ds i + nth i ds 0)%Q.
Proof.
  induction ds as [|d t IH]; intros [|i] H; cbn [length] in H; try lia.
  - cbn [before nth]. destruct t; cbn [before]; lra.
  - change (before (d :: t) (S (S i))) with (d + before t (S i))%Q. change (before (d :: t) (S i)) with (d + before t i)%Q. cbn [nth].
    rewrite IH by lia. lra.
Qed.

Lemma before_mono ds : (forall x, In x ds -> 0 <= x)%Q -> forall i j, i <= j -> (before ds i <= before ds j)%Q.
Proof.
  intro H. assert (Hs : forall i, (before ds i <= before ds (S i))%Q).
  { intro i. destruct (Nat.lt_ge_cases i (length ds)) as [L|L].
    - rewrite before_S by auto. assert (0 <= nth i ds 0)%Q by (apply H, nth_In; auto). lra.
    - clear H. revert i L. induction ds as [|d t IH]; intros i L; [destruct i; cbn; lra|]. destruct i as [|i]; [cbn in L; lia|].
      change (before (d :: t) (S (S i))) with (d + before t (S i))%Q. change (before (d :: t) (S i)) with (d + before t i)%Q.
      cbn [length] in L. specialize (IH i ltac:(lia)). lra. }
  intros i j Hij. induction Hij as [|j Hij IH]; [lra|]. specialize (Hs j). lra.
Qed.

Lemma total_qsum ds : (total ds == sumQ ds)%Q.
Proof.
  rewrite sumQ_qsum. unfold total. induction ds as [|d t IH]; cbn [length before fold_right]; [reflexivity|]. cbn [qsum fold_right] in *. rewrite IH. reflexivity.
Qed.

Lemma find_interval (T : Q) : (0 < T)%Q -> forall ds r acc i, (acc <= r)%Q -> (forall x, In x ds -> 0 <= x)%Q ->
  match find_candidate r i (cumsum acc (map (fun d => (d / T)%Q) ds)) with
  | Some c => i <= c /\ c - i < length ds /\ (before ds (c - i) <= (r - acc) * T)%Q /\ ((r - acc) * T < before ds (S (c - i)))%Q
  | None => (total ds <= (r - acc) * T)%Q
  end.
Proof.
  intro HT. induction ds as [|d t IH]; intros r acc i Ha Hp; cbn [map cumsum find_candidate].
  - unfold total. cbn. assert (0 <= (r - acc) * T)%Q by (apply Qmult_le_0_compat; lra). lra.
  - assert (Hd : (0 <= d)%Q) by (apply Hp; left; auto).
    assert (Em : ((acc + d / T - acc) * T == d)%Q) by (field; lra).
    destruct (Qltb r (acc + d / T)) eqn:E.
    + apply Qltb_true in E. rewrite Nat.sub_diag. cbn [before length]. split; [lia|]. split; [lia|].
      split; [apply Qmult_le_0_compat; lra|].
      assert (((r - acc) * T < (acc + d / T - acc) * T)%Q) by (apply Qmult_lt_compat_r; lra).
      destruct t; cbn [before]; lra.
    + apply Qltb_false in E. specialize (IH r (acc + d / T)%Q (S i) E ltac:(intros; apply Hp; right; auto)).
      assert (Es : ((r - acc) * T == (r - (acc + d / T)) * T + d)%Q) by (field; lra).
      destruct (find_candidate r (S i) (cumsum (acc + d / T) (map (fun d => (d / T)%Q) t))) as [c|].
      * destruct IH as (H1 & H2 & H3 & H4). replace (c - i) with (S (c - S i)) by lia. cbn [length]. split; [lia|]. split; [lia|].
        change (before (d :: t) (S (S (c - S i)))) with (d + before t (S (c - S i)))%Q.
        change (before (d :: t) (S (c - S i))) with (d + before t (c - S i))%Q. split; lra.
      * unfold total in *. cbn [length before]. lra.
Qed.

Lemma total_nonneg ds : (forall x, In x ds -> 0 <= x)%Q -> (0 <= total ds)%Q.
Proof. intro H. pose proof (before_mono ds H 0 (length ds) ltac:(lia)). unfold total. destruct ds; cbn [before] in *; lra. Qed.

(** the candidate of the random number [r] *)
Lemma candidate_falls ds r : (forall x, In x ds -> 0 <= x)%Q -> (0 <= r)%Q -> (r < 1)%Q -> ~ (total ds == 0)%Q ->
  exists i, find_candidate r 0 (probabilities ds) = Some i /\ falls_on ds r i.
Proof.
  intros Hp Hr Hr1 Ht. pose proof (total_nonneg ds Hp) as Hn. assert (HT : (0 < total ds)%Q) by lra.
  pose proof (total_qsum ds) as Eq. unfold probabilities. destruct (Qeq_bool (sumQ ds) 0) eqn:E; [apply Qeq_bool_iff in E; lra|].
  assert (HS : (0 < sumQ ds)%Q) by lra.
  pose proof (find_interval (sumQ ds) HS ds r 0%Q 0 Hr Hp) as H.
  destruct (find_candidate r 0 (cumsum 0 (map (fun d => (d / sumQ ds)%Q) ds))) as [c|].
  - destruct H as (_ & H2 & H3 & H4). rewrite Nat.sub_0_r in *. exists c. split; [reflexivity|]. split; [auto|].
    assert (Ex : ((r - 0) * sumQ ds == r * total ds)%Q) by (rewrite Eq; ring). split; lra.
  - exfalso. assert (Ex : ((r - 0) * sumQ ds == r * total ds)%Q) by (rewrite Eq; ring).
    assert ((r * total ds < 1 * total ds)%Q) by (apply Qmult_lt_compat_r; lra). lra.
Qed.

Lemma falls_unique ds r i j : (forall x, In x ds -> 0 <= x)%Q -> falls_on ds r i -> falls_on ds r j -> i = j.
Proof.
  intros Hp (Hi & Hi1 & Hi2) (Hj & Hj1 & Hj2). destruct (Nat.lt_trichotomy i j) as [L|[L|L]]; auto.
  - pose proof (before_mono ds Hp (S i) j L). lra.
  - pose proof (before_mono ds Hp (S j) i L). lra.
Qed.

(** [d] is the distance of point [j] to the closest of the centres *)
Definition closest (D : nat -> nat -> Q) (centers : list nat) (j : nat) (d : Q) : Prop :=
  (exists c, In c centers /\ d = D c j) /\ forall c, In c centers -> (d <= D c j)%Q.

Lemma shortest_closest D n centers j : centers <> [] -> j < n -> closest D centers j (nth j (shortest D n centers) 0%Q).
Proof.
  intros Hc Hj. unfold shortest. rewrite nth_map_seq0 by auto. destruct centers as [|c t]; [congruence|].
  rewrite (fold_map (fun c' => D c' j)). split.
  - assert (G : forall l m, exists v, (v = m \/ In v l) /\ fold_left (fun m v => pymin m v) l m = v).
    { induction l as [|v l IH]; intro m; cbn [fold_left]; [eauto|]. destruct (IH (pymin m v)) as (w & [Hw | Hw] & E).
      - exists w. split; auto. unfold pymin in Hw. destruct (Qltb v m); subst; cbn; auto.
      - exists w. split; auto. right. right. auto. }
    destruct (G (map (fun c' => D c' j) t) (D c j)) as (v & [Hv | Hv] & E); rewrite E.
    + exists c. split; [left|]; auto.
    + apply in_map_iff in Hv as (c' & <- & Hc'). exists c'. split; [right|]; auto.
  - destruct (fold_pymin_le (map (fun c' => D c' j) t) (D c j)) as [H1 H2]. intros c' [<- | Hc']; [exact H1|].
    apply H2. apply in_map_iff. eauto.
Qed.

(** the distances of all points to their closest centres *)
Definition distances_to (D : nat -> nat -> Q) (n : nat) (centers : list nat) (ds : list Q) : Prop :=
  length ds = n /\ forall j, j < n -> closest D centers j (nth j ds 0%Q).

Lemma shortest_distances D n centers : centers <> [] -> distances_to D n centers (shortest D n centers).
Proof. intro H. split; [unfold shortest; rewrite map_length, seq_length; auto|]. intros j Hj. apply shortest_closest; auto. Qed.

Section Next.
Variables (pick : list nat -> nat) (D : nat -> nat -> Q) (n : nat).
Hypothesis D_pos : forall i j, i < n -> j < n -> (0 <= D i j)%Q.

Lemma shortest_pos centers x : (forall c, In c centers -> c < n) -> In x (shortest D n centers) -> (0 <= x)%Q.
Proof.
  intros Hv Hx. unfold shortest in Hx. apply in_map_iff in Hx as (j & <- & Hj). apply in_seq in Hj. destruct centers as [|c t]; [lra|].
  rewrite (fold_map (fun c' => D c' j)). apply fold_pymin_ge; [apply D_pos; [apply Hv; left; auto|lia]|].
  intros v Hv'. apply in_map_iff in Hv' as (c' & <- & Hc'). apply D_pos; [apply Hv; right; auto|lia].
Qed.

(** the next centre out of [k] candidates: every random number gives the point it falls on; the
    farthest of these points and of point 0 is taken *)
Theorem next_of_candidates centers free k draws : centers <> [] -> (forall c, In c centers -> c < n) ->
  (forall j, (0 <= draws j /\ draws j < 1)%Q) -> let ds := shortest D n centers in ~ (total ds == 0)%Q ->
  exists x, next_center pick D n (Some k) draws centers free = Ok x /\
    (x = 0 \/ exists j, j < k /\ falls_on ds (draws j) x /\ (nth 0 ds 0 < nth x ds 0)%Q) /\
    (nth 0 ds 0 <= nth x ds 0)%Q /\
    forall j i, j < k -> falls_on ds (draws j) i -> (nth i ds 0 <= nth x ds 0)%Q.
Proof.
  intros Hne Hv Hd ds Ht. cbn [next_center]. fold ds.
  assert (Hp : forall x, In x ds -> (0 <= x)%Q) by (intros x Hx; apply (shortest_pos centers); auto).
  eexists. split; [reflexivity|]. unfold probable_center.
  match goal with |- context [fold_left ?f _ 0] => set (step := f) end.
  assert (G : forall js best, (best = 0 \/ exists j, j < k /\ falls_on ds (draws j) best /\ (nth 0 ds 0 < nth best ds 0)%Q) -> (nth 0 ds 0 <= nth best ds 0)%Q ->
    (forall j, In j js -> j < k) -> let x := fold_left step (map draws js) best in
    (x = 0 \/ exists j, j < k /\ falls_on ds (draws j) x /\ (nth 0 ds 0 < nth x ds 0)%Q) /\ (nth best ds 0 <= nth x ds 0)%Q /\
    forall j i, In j js -> falls_on ds (draws j) i -> (nth i ds 0 <= nth x ds 0)%Q).
  { induction js as [|j js IH]; intros best Hb H0 Hjs; cbn [map fold_left]; cbn zeta; [split; [auto|split; [lra|intros j i []]]|].
    destruct (Hd j) as [Hd1 Hd2]. destruct (candidate_falls ds (draws j) Hp Hd1 Hd2 Ht) as (c & Ec & Fc).
    assert (Es : step best (draws j) = if Qltb (nth best ds 0%Q) (nth c ds 0%Q) then c else best) by (unfold step; rewrite Ec; reflexivity).
    rewrite Es. destruct (Qltb (nth best ds 0%Q) (nth c ds 0%Q)) eqn:El.
    - apply Qltb_true in El. destruct (IH c) as (I1 & I2 & I3).
      + right. exists j. split; [apply Hjs; left; auto|]. split; [auto|lra].
      + lra.
      + intros; apply Hjs; right; auto.
      + split; [exact I1|]. split; [lra|]. intros j' i [<- | Hj'] Fi; [|apply (I3 j'); auto]. rewrite (falls_unique ds (draws j) i c Hp Fi Fc). auto.
    - apply Qltb_false in El. destruct (IH best) as (I1 & I2 & I3); auto; [intros; apply Hjs; right; auto|].
      split; [exact I1|]. split; [lra|]. intros j' i [<- | Hj'] Fi; [|apply (I3 j'); auto]. rewrite (falls_unique ds (draws j) i c Hp Fi Fc). lra. }
  destruct (G (seq 0 k) 0) as (G1 & G2 & G3); [auto|lra|intros j Hj; apply in_seq in Hj; lia|].
  split; [exact G1|]. split; [exact G2|]. intros j i Hj. apply G3. apply in_seq. lia.
Qed.
End Next.

(** C230: the next centre for points of any data *)
Theorem C230_next_center pick (data : list point) centers free k draws :
  centers <> [] -> (forall c, In c centers -> c < length data) -> (forall j, (0 <= draws j /\ draws j < 1)%Q) ->
  exists ds, distances_to (data_distance data) (length data) centers ds /\
   (~ (total ds == 0)%Q ->
    exists x, next_center pick (data_distance data) (length data) (Some k) draws centers free = Ok x /\
      (x = 0 \/ exists j, j < k /\ falls_on ds (draws j) x /\ (nth 0 ds 0 < nth x ds 0)%Q) /\
      (nth 0 ds 0 <= nth x ds 0)%Q /\
      forall j i, j < k -> falls_on ds (draws j) i -> (nth i ds 0 <= nth x ds 0)%Q) /\
   ((total ds == 0)%Q -> 1 <= k -> next_center pick (data_distance data) (length data) (Some k) draws centers free = Ok (pick free)).
Proof.
  intros Hne Hv Hd. exists (shortest (data_distance data) (length data) centers). split; [apply shortest_distances; auto|]. split.
  - apply (next_of_candidates pick (data_distance data) (length data)); auto. intros; apply sqdist_nonneg.
  - intros Ht Hk. cbn [next_center]. f_equal. unfold probabilities. rewrite total_qsum in Ht. apply Qeq_bool_iff in Ht. rewrite Ht.
    unfold probable_center. rewrite shortest_length. destruct k as [|k]; [lia|]. clear Hk.
    assert (G : forall l best, (forall r, In r l -> (0 <= r)%Q) -> best = pick free \/ l <> [] -> fold_left (fun best r =>
       match find_candidate r 0 (repeat 0%Q (length data)) with
       | None => pick free
       | Some c => if Qltb (nth best (shortest (data_distance data) (length data) centers) 0%Q) (nth c (shortest (data_distance data) (length data) centers) 0%Q) then c else best
       end) l best = pick free).
    { induction l as [|r l IH]; intros best Hr Hb; cbn [fold_left]; [destruct Hb as [Hb | Hb]; [auto|congruence]|].
      rewrite find_zeros by (apply Hr; left; auto). apply IH; auto. intros; apply Hr; right; auto. }
    apply G; [|right; discriminate]. intros r Hr. apply in_map_iff in Hr as (j & <- & _). apply Hd.
Qed.
Print Assumptions C230_next_center.

(** the share of every point of [0, 1) is its distance divided by the sum of all distances *)
Theorem C230_shares (ds : list Q) : (forall x, In x ds -> (0 <= x)%Q) -> ~ (total ds == 0)%Q ->
  (forall r, (0 <= r /\ r < 1)%Q -> exists i, falls_on ds r i /\ forall j, falls_on ds r j -> j = i) /\
  forall i, i < length ds -> exists lo hi, (forall r, (falls_on ds r i <-> lo <= r /\ r < hi)%Q) /\ (hi - lo == nth i ds 0 / total ds)%Q.
Proof.
  intros Hp Ht. pose proof (total_nonneg ds Hp) as Hn. assert (HT : (0 < total ds)%Q) by lra. split.
  - intros r [H0 H1]. destruct (candidate_falls ds r Hp H0 H1 Ht) as (i & _ & F). exists i. split; auto. intros j Fj. apply (falls_unique ds r); auto.
  - intros i Hi. exists (before ds i / total ds)%Q, (before ds (S i) / total ds)%Q. split.
    + intro r. assert (E1 : (before ds i / total ds * total ds == before ds i)%Q) by (field; lra).
      assert (E2 : (before ds (S i) / total ds * total ds == before ds (S i))%Q) by (field; lra). split.
      * intros (_ & F1 & F2). split; [apply Qle_shift_div_r; auto|apply Qlt_shift_div_l; auto].
      * intros [F1 F2]. split; [auto|]. split.
        -- rewrite <- E1. apply Qmult_le_compat_r; lra.
        -- rewrite <- E2. apply Qmult_lt_compat_r; lra.
    + rewrite before_S by auto. field. lra.
Qed.
Print Assumptions C230_shares.

(** documented: with one candidate the next centre is point i with probability D(i) / sum of D.
    A point which is not farther than point 0 is never taken, whatever its probability. *)
Theorem C230_probability_refuted : exists (data : list point) centers ds i, centers <> [] /\ (forall c, In c centers -> c < length data) /\
  distances_to (data_distance data) (length data) centers ds /\ (nth i ds 0 / total ds == 1 # 2)%Q /\ ~ In i centers /\
  forall pick free draws, (forall j, (0 <= draws j /\ draws j < 1)%Q) ->
    next_center pick (data_distance data) (length data) (Some 1) draws centers free = Ok 0 /\ i <> 0.
Proof.
  set (data := [[0]; [1]; [2]]%Q : list point).
  exists data, [1], (shortest (data_distance data) (length data) [1]), 2. split; [discriminate|]. split; [intros c [<- | []]; cbn; lia|].
  split; [apply shortest_distances; discriminate|]. split; [vm_compute; reflexivity|]. split; [intros [E | []]; discriminate|].
  intros pick free draws Hd. split; [|discriminate].
  destruct (next_of_candidates pick (data_distance data) (length data) (fun i j _ _ => sqdist_nonneg _ _) [1] free 1 draws) as (x & E & Hx & _); auto.
  - discriminate.
  - intros c [<- | []]; cbn; lia.
  - vm_compute. discriminate.
  - rewrite E. destruct Hx as [-> | (j & _ & (Hl & _) & Hlt)]; auto. exfalso.
    unfold data in Hl. rewrite shortest_length in Hl. cbn in Hl. destruct x as [|[|[|x]]]; [vm_compute in Hlt; discriminate|vm_compute in Hlt; discriminate|vm_compute in Hlt; discriminate|lia].
Qed.
Print Assumptions C230_probability_refuted.

Lemma nanargmax_first l : forall i best, (forall b v, best = Some (b, v) -> b < i) ->
  forall k v, nanargmax_from i l best = Some (k, v) ->
  (forall b w, best = Some (b, w) -> (w <= v)%Q /\ (k <> b -> (w < v)%Q)) /\
  forall m w, nth_error l m = Some (Some w) -> (w <= v)%Q /\ (i + m < k -> (w < v)%Q).
Proof.
  induction l as [|o t IH]; intros i best Hb k v E; cbn [nanargmax_from] in E.
  - split; [|intros [|m] w H; discriminate]. intros b w Eb. rewrite Eb in E. injection E as -> ->. split; [lra|congruence].
  - destruct o as [u|].
    + match type of E with nanargmax_from _ _ ?nb = _ => set (nb' := nb) in E end.
      assert (Hnb : forall b w, nb' = Some (b, w) -> b < S i).
      { intros b w. unfold nb'. destruct best as [[b0 w0]|]; [destruct (Qltb w0 u)|]; intro H; injection H as <- <-; try lia. specialize (Hb b0 w0 eq_refl). lia. }
      destruct (IH (S i) nb' Hnb k v E) as [H1 H2].
      assert (Hu : (u <= v)%Q /\ (i < k -> (u < v)%Q)).
      { unfold nb' in H1. destruct best as [[b0 w0]|].
        - destruct (Qltb w0 u) eqn:El.
          + destruct (H1 i u eq_refl) as [Ha Hc]. split; auto. intro L. apply Hc. lia.
          + apply Qltb_false in El. destruct (H1 b0 w0 eq_refl) as [Ha Hc]. split; [lra|]. intro L. specialize (Hb b0 w0 eq_refl). specialize (Hc ltac:(lia)). lra.
        - destruct (H1 i u eq_refl) as [Ha Hc]. split; auto. intro L. apply Hc. lia. }
      split.
      * intros b w Eb. unfold nb' in H1. rewrite Eb in H1. destruct (Qltb w u) eqn:El.
        -- apply Qltb_true in El. destruct (H1 i u eq_refl) as [Ha _]. split; [lra|]. intros _. lra.
        -- apply H1. reflexivity.
      * intros [|m] w Hm; cbn [nth_error] in Hm; [injection Hm as <-; rewrite Nat.add_0_r; exact Hu|].
        replace (i + S m) with (S i + m) by lia. apply H2. exact Hm.
    + destruct (IH (S i) best) with (k := k) (v := v) as [H1 H2]; auto; [intros b w Eb; specialize (Hb b w Eb); lia|]. split; auto.
      intros [|m] w Hm; cbn [nth_error] in Hm; [discriminate|]. replace (i + S m) with (S i + m) by lia. apply H2. exact Hm.
Qed.

(** FARTHEST_CENTER_CANDIDATE: the first of the points which are farthest from their closest
    centre *)
Theorem C230_farthest pick (data : list point) centers free draws :
  centers <> [] -> (exists j, j < length data /\ ~ In j centers) ->
  exists x ds, next_center pick (data_distance data) (length data) None draws centers free = Ok x /\
    distances_to (data_distance data) (length data) centers ds /\ x < length data /\ ~ In x centers /\
    forall j, j < length data -> ~ In j centers -> (nth j ds 0 <= nth x ds 0)%Q /\ (j < x -> (nth j ds 0 < nth x ds 0)%Q).
Proof.
  intros Hne (j0 & Hj0 & Hn0). set (n := length data) in *. set (D := data_distance data). set (ds := shortest D n centers).
  set (free0 := filter (fun x => negb (mem x centers)) (seq 0 n)).
  assert (Hf0 : forall x, In x free0 <-> x < n /\ ~ In x centers).
  { intro x. unfold free0. rewrite filter_In, in_seq. destruct (mem x centers) eqn:E; cbn [negb].
    - apply mem_true in E. split; [intros [_ H]; discriminate|intros [_ H]; contradiction].
    - split; [intros [H _]; split; [lia|]; intro Hc; apply mem_true in Hc; congruence|intros [H _]; split; [lia|auto]]. }
  assert (Hfne : free0 <> []) by (intro E; assert (In j0 free0) by (apply Hf0; auto); rewrite E in H; destruct H).
  destruct (farthest_spec D n centers free0 Hfne Hf0) as (x & E & Hx). apply Hf0 in Hx as [Hx1 Hx2].
  exists x, ds. cbn [next_center]. split; [exact E|]. split; [apply shortest_distances; auto|]. split; [auto|]. split; [auto|].
  unfold farthest in E. match type of E with context [nanargmax_from 0 ?l0 None] => set (l := l0) in E end.
  destruct (nanargmax_from 0 l None) as [[k v]|] eqn:Ek; [|discriminate]. injection E as ->.
  assert (Hl : forall j, j < n -> ~ In j centers -> nth_error l j = Some (Some (nth j ds 0%Q))).
  { intros j Hj Hnj. unfold l. rewrite (map_nth_error _ j (seq 0 n) (d := j)).
    - destruct (mem j centers) eqn:Em; [apply mem_true in Em; contradiction|reflexivity].
    - rewrite (nth_error_nth' _ 0) by (rewrite seq_length; auto). rewrite seq_nth by auto. reflexivity. }
  destruct (nanargmax_first l 0 None ltac:(discriminate) x v Ek) as [_ H].
  assert (Hv : v = nth x ds 0%Q).
  { pose proof (nanargmax_spec l 0 None ltac:(discriminate)) as Hs. rewrite Ek in Hs. destruct Hs as [Hs | [_ Hs]]; [discriminate|].
    rewrite Nat.sub_0_r in Hs. pose proof (Hl x Hx1 Hx2) as Hlx. apply (nth_error_nth _ _ None) in Hlx. congruence. }
  intros j Hj Hnj. rewrite <- Hv. apply (H j). apply Hl; auto.
Qed.
Print Assumptions C230_farthest.

Example C230_case : exists ds, distances_to (data_distance [[0]; [1]; [5]]%Q) 3 [0] ds /\ ~ (total ds == 0)%Q /\ falls_on ds (1 # 2) 2 /\ falls_on ds (1 # 100) 1 /\
  next_center (hd 0) (data_distance [[0]; [1]; [5]]%Q) 3 (Some 2) (fun j => if j =? 0 then 1 # 100 else 1 # 2) [0] [1; 2] = Ok 2.
Proof.
  exists (shortest (data_distance [[0]; [1]; [5]]%Q) 3 [0]). split; [apply shortest_distances; discriminate|]. split; [vm_compute; discriminate|].
  split; [split; [cbn; auto|]; split; vm_compute; congruence|]. split; [split; [cbn; auto|]; split; vm_compute; congruence|]. vm_compute. reflexivity.
Qed.

(** * C231: data types and results of k-means++ *)

(** the sources of randomness of one run: an index of the first centre, numbers of [0, 1) *)
Definition random_source (n draw0 : nat) (draws : nat -> nat -> Q) : Prop := draw0 < n /\ forall t j, (0 <= draws t j)%Q.

(** arguments the constructor accepts *)
Definition accepted (n amount : nat) (a : candidates_arg) : Prop :=
  1 <= amount <= n /\ forall k, a = Candidates k -> 1 <= k <= n.

(** [amount] different valid indexes *)
Definition different (n amount : nat) (xs : list nat) : Prop := length xs = amount /\ NoDup xs /\ forall x, In x xs -> x < n.

Lemma accepted_ok n amount a : accepted n amount a -> candidates_ok n (amount_candidates n a).
Proof.
  intros [H1 H2]. destruct a as [|k|]; cbn [amount_candidates candidates_ok]; auto. destruct (Nat.ltb_spec n 3); lia.
Qed.

Lemma run_body pick t (data : list point) amount a draw0 draws : picks pick -> accepted (length data) amount a -> random_source (length data) draw0 draws ->
  (forall i, i < length data -> (center_distance t data i i == 0)%Q) ->
  (forall i j, i < length data -> j < length data -> (0 <= center_distance t data i j)%Q) ->
  exists xs f, plus_new (length data) amount (amount_candidates (length data) a) = Ok (seq 0 (length data)) /\
    plus_initialize pick (center_distance t data) (length data) amount (amount_candidates (length data) a) draw0 draws (seq 0 (length data)) = Ok (xs, f) /\
    different (length data) amount xs.
Proof.
  intros Hp Ha [H0 Hd] Hz Hn. pose proof (accepted_ok _ _ _ Ha) as Hc. destruct Ha as [[H1 H2] _].
  destruct (plus_initialize_spec pick Hp (center_distance t data) (length data) Hz Hn amount (amount_candidates (length data) a) draw0 draws H1 H2 Hc H0 Hd)
    as (xs & f & E1 & E2 & E3 & E4 & E5 & _). exists xs, f. repeat split; auto.
Qed.

(** points: different indexes when asked for, otherwise the points of different indexes *)
Theorem C231_points pick (data : list point) amount a draw0 draws : picks pick -> accepted (length data) amount a -> random_source (length data) draw0 draws ->
  exists xs, different (length data) amount xs /\
    plus_run pick Points data amount a (Some true) draw0 draws = Ok (Indexes xs) /\
    plus_run pick Points data amount a None draw0 draws = Ok (Centers (map (fun i => nth i data []) xs)) /\
    plus_run pick Points data amount a (Some false) draw0 draws = Ok (Centers (map (fun i => nth i data []) xs)).
Proof.
  intros Hp Ha Hr. destruct (run_body pick Points data amount a draw0 draws Hp Ha Hr) as (xs & f & E1 & E2 & H).
  - intros i _. apply sqdist_refl.
  - intros i j _ _. apply sqdist_nonneg.
  - exists xs. split; auto. unfold plus_run, plus_call. rewrite E1. cbn [bind use_index negb andb]. rewrite E2. cbn [bind fst]. auto.
Qed.
Print Assumptions C231_points.

(** a square matrix of distances: no distance is negative, that of a point to itself is 0 *)
Definition distance_matrix (m : list point) : Prop :=
  (forall row, In row m -> length row = length m) /\
  forall i j, i < length m -> j < length m -> (0 <= coord (nth i m []) j)%Q /\ (coord (nth i m []) i == 0)%Q.

(** distance matrix: different indexes; points can not be asked for *)
Theorem C231_matrix pick (m : list point) amount a draw0 draws : picks pick -> accepted (length m) amount a -> random_source (length m) draw0 draws ->
  distance_matrix m ->
  (exists xs, different (length m) amount xs /\
    plus_run pick DistanceMatrix m amount a None draw0 draws = Ok (Indexes xs) /\
    plus_run pick DistanceMatrix m amount a (Some true) draw0 draws = Ok (Indexes xs)) /\
  plus_run pick DistanceMatrix m amount a (Some false) draw0 draws = Raise ValueError.
Proof.
  intros Hp Ha Hr [_ Hm]. destruct (run_body pick DistanceMatrix m amount a draw0 draws Hp Ha Hr) as (xs & f & E1 & E2 & H).
  - intros i Hi. apply (Hm i i); auto.
  - intros i j Hi Hj. apply (Hm i j); auto.
  - split.
    + exists xs. split; auto. unfold plus_run, plus_call. rewrite E1. cbn [bind use_index negb andb]. rewrite E2. cbn [bind fst]. auto.
    + unfold plus_run, plus_call. rewrite E1. reflexivity.
Qed.
Print Assumptions C231_matrix.

Lemma shortest_ext D1 D2 n centers : (forall c j, In c centers -> j < n -> D1 c j = D2 c j) -> shortest D1 n centers = shortest D2 n centers.
Proof.
  intro H. unfold shortest. apply map_ext_in. intros j Hj. apply in_seq in Hj. destruct centers as [|c t]; auto.
  rewrite (H c j) by (cbn; auto; lia). assert (G : forall l m, (forall c, In c l -> D1 c j = D2 c j) ->
    fold_left (fun m c' => pymin m (D1 c' j)) l m = fold_left (fun m c' => pymin m (D2 c' j)) l m).
  { induction l as [|x l IH]; intros m Hl; cbn [fold_left]; auto. rewrite (Hl x) by (left; auto). apply IH. intros; apply Hl; right; auto. }
  apply G. intros c' Hc'. apply H; [right; auto|lia].
Qed.

Lemma plus_loop_ext pick D1 D2 n candidates draws more : (forall c j, c < n -> j < n -> D1 c j = D2 c j) ->
  forall t centers free, (forall c, In c centers -> c < n) -> (forall x, In x free -> x < n) ->
  plus_loop pick D1 n candidates draws t more centers free = plus_loop pick D2 n candidates draws t more centers free.
Proof.
  intro HD. induction more as [|more IH]; intros t centers free Hc Hf; cbn [plus_loop]; auto.
  assert (E : next_center pick D1 n candidates (draws t) centers free = next_center pick D2 n candidates (draws t) centers free).
  { unfold next_center, farthest. rewrite (shortest_ext D1 D2 n centers) by (intros; apply HD; auto). reflexivity. }
  rewrite E. destruct (next_center pick D2 n candidates (draws t) centers free) as [x|e]; cbn [bind]; auto.
  unfold set_remove. destruct (mem x free) eqn:Em; cbn [bind]; auto. apply mem_true in Em. apply IH.
  - intros c H. apply in_app_iff in H as [H | [<- | []]]; auto.
  - intros y H. apply remove_nat_in in H as [H _]. auto.
Qed.

(** the matrix of the squared distances of points gives the same centres as the points *)
Theorem C231_same_centers pick (data m : list point) amount a draw0 draws : length m = length data ->
  (forall i j, i < length data -> j < length data -> coord (nth i m []) j = sqdist (nth j data []) (nth i data [])) -> draw0 < length data ->
  plus_run pick DistanceMatrix m amount a None draw0 draws = plus_run pick Points data amount a (Some true) draw0 draws.
Proof.
  intros Hl Hm H0. unfold plus_run, plus_call. rewrite Hl. destruct (plus_new (length data) amount (amount_candidates (length data) a)) as [free|e] eqn:En; cbn [bind]; auto.
  assert (Ef : free = seq 0 (length data)).
  { unfold plus_new in En. destruct ((amount =? 0) || (length data <? amount)); [discriminate|].
    destruct (amount_candidates (length data) a) as [k|]; [destruct ((k =? 0) || (length data <? k)); [discriminate|]|]; injection En as <-; reflexivity. }
  cbn [use_index negb andb bind]. assert (E : plus_initialize pick (center_distance DistanceMatrix m) (length data) amount (amount_candidates (length data) a) draw0 draws free =
    plus_initialize pick (center_distance Points data) (length data) amount (amount_candidates (length data) a) draw0 draws free).
  { unfold plus_initialize, set_remove. destruct (mem draw0 free) eqn:Em; cbn [bind]; auto. apply plus_loop_ext.
    - intros c j Hc Hj. apply Hm; auto.
    - intros c [<- | []]. auto.
    - intros x Hx. apply remove_nat_in in Hx as [Hx _]. subst free. apply in_seq in Hx. lia. }
  rewrite E. reflexivity.
Qed.
Print Assumptions C231_same_centers.

(** a misspelt data type is not refused: all distances count as 0, the centres are those the set
    of free indexes yields, whatever the data *)
Theorem C231_other_type_refuted : exists pick (data1 : list point) amount draw0 draws, picks pick /\ accepted (length data1) amount DefaultCandidates /\
  random_source (length data1) draw0 draws /\
  plus_run pick OtherData data1 amount DefaultCandidates (Some true) draw0 draws = Ok (Indexes [0; 1]) /\
  plus_run pick Points data1 amount DefaultCandidates (Some true) draw0 draws = Ok (Indexes [0; 2]).
Proof.
  exists (hd 0), [[0]; [0]; [5]]%Q, 2, 0, (fun _ _ => (1 # 2)%Q). split; [exact C27_pick_example|].
  split; [split; [cbn; lia|discriminate]|]. split; [split; [cbn; lia|intros; lra]|]. split; vm_compute; reflexivity.
Qed.
Print Assumptions C231_other_type_refuted.

Example C231_case : distance_matrix [[0; 4; 25]; [4; 0; 9]; [25; 9; 0]]%Q /\ plus_run (hd 0) DistanceMatrix [[0; 4; 25]; [4; 0; 9]; [25; 9; 0]]%Q 2 Farthest None 1 (fun _ _ => 0%Q) = Ok (Indexes [1; 2]) /\ plus_run (hd 0) Points [[0]; [2]; [5]]%Q 2 Farthest None 1 (fun _ _ => 0%Q) = Ok (Centers [[2]; [5]]%Q).
Proof.
  split; [|split; vm_compute; reflexivity]. split.
  - intros row H. repeat destruct H as [<- | H]; try reflexivity. destruct H.
  - intros i j Hi Hj. cbn in Hi, Hj. destruct i as [|[|[|i]]]; [| | |lia]; (destruct j as [|[|[|j]]]; [| | |lia]); split; vm_compute; congruence.
Qed.
