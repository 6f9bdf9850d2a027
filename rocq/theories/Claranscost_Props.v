(** CLARANS: what the price of a swap measures (C93), where the medoids of two clusters are found (C236), when a local
    search stops (C237). *)
From Coq Require Import QArith.Qminmax.
From Verif Require Import Base Kmeans_Model Kmeans_Proofs Clarans_Model Clarans_Proofs Clarans_Props.
Open Scope nat_scope.

(** clarans.py:260 measures the distance to the current medoid for every other medoid, so the first one stays *)
Lemma another_first data : forall l p cm, find_another data l p cm None None = find (fun x => negb (x =? cm)) l.
Proof.
  assert (G : forall l p cm x, find_another data l p cm (Some (d2 data p cm)) (Some x) = Some x).
  { induction l as [|y l IH]; intros p cm x; cbn [find_another]; [reflexivity|]. destruct (y =? cm); [apply IH|]. replace (Qltb (d2 data p cm) (d2 data p cm)) with false; [apply IH|]. symmetry. apply Qltb_false. apply Qle_refl. }
  induction l as [|y l IH]; intros p cm; cbn [find_another find]; [reflexivity|]. destruct (y =? cm); cbn [negb]; [apply IH|apply G].
Qed.

(** the points of the replaced medoid's cluster j and of one other cluster - the first, or the second if the replaced
    one is the first - that are nearer to the candidate x than to their own medoid *)
Definition partner (j : nat) : nat := match j with 0 => 1 | _ => 0 end.
Definition gain (data : list point) (medoids labels : list nat) (j x p : nat) : Q :=
  if (nth p labels 0 =? j) || (nth p labels 0 =? partner j)
  then Qmin 0 (sqdist (nth p data []) (nth x data []) - sqdist (nth p data []) (nth (nth (nth p labels 0) medoids 0) data []))
  else 0%Q.

Lemma fold_costs (f : nat -> option Q) (g : nat -> Q) : forall l a, (forall p, In p l -> exists q, f p = Some q /\ (q == g p)%Q) ->
  exists r, fold_left add_cost (map f l) (Some a) = Some r /\ (r == a + fold_right Qplus 0 (map g l))%Q.
Proof.
  induction l as [|p l IH]; intros a H; cbn [map fold_left fold_right]; [exists a; split; [reflexivity|ring]|].
  destruct (H p (or_introl eq_refl)) as (q & E & Hq). rewrite E. cbn [add_cost]. destruct (IH (a + q)%Q) as (r & Er & Hr); [intros; apply H; right; auto|].
  exists r. split; [exact Er|]. rewrite Hr, Hq. ring.
Qed.
Lemma fold_drop (g : nat -> Q) (keep : nat -> bool) : forall l, (forall p, In p l -> keep p = false -> (g p == 0)%Q) ->
  (fold_right Qplus 0 (map g (filter keep l)) == fold_right Qplus 0 (map g l))%Q.
Proof.
  induction l as [|p l IH]; intros H; cbn [map fold_right filter]; [reflexivity|].
  assert (IH' := IH (fun q Hq => H q (or_intror Hq))). destruct (keep p) eqn:E; cbn [map fold_right]; rewrite IH'; [reflexivity|]. rewrite (H p (or_introl eq_refl) E). ring.
Qed.
Lemma fold_strict (g : nat -> Q) x : forall l, (forall p, In p l -> (g p <= 0)%Q) -> In x l -> (g x < 0)%Q -> (fold_right Qplus 0 (map g l) < 0)%Q.
Proof.
  assert (W : forall l, (forall p, In p l -> (g p <= 0)%Q) -> (fold_right Qplus 0 (map g l) <= 0)%Q).
  { induction l as [|p l IH]; intros H; cbn [map fold_right]; [lra|]. pose proof (H p (or_introl eq_refl)). pose proof (IH (fun q Hq => H q (or_intror Hq))). lra. }
  induction l as [|p l IH]; intros H I Hx; [destruct I|]. cbn [map fold_right]. pose proof (H p (or_introl eq_refl)). destruct I as [->|I].
  - pose proof (W l (fun q Hq => H q (or_intror Hq))). lra.
  - pose proof (IH (fun q Hq => H q (or_intror Hq)) I Hx). lra.
Qed.
Lemma qmin_nonpos a : (Qmin 0 a <= 0)%Q.
Proof. apply Q.le_min_l. Qed.
Lemma gain_nonpos data medoids labels j x p : (gain data medoids labels j x p <= 0)%Q.
Proof. unfold gain. destruct (_ || _); [apply qmin_nonpos|apply Qle_refl]. Qed.
Lemma qmin_le a : (a <= 0)%Q -> (Qmin 0 a == a)%Q.
Proof. intros H. apply Q.min_r. exact H. Qed.
Lemma qmin_ge a : (0 <= a)%Q -> (Qmin 0 a == 0)%Q.
Proof. intros H. apply Q.min_l. exact H. Qed.

Section Cost.
Variable data : list point.
Variable k : nat.
Let n := length data.
Hypothesis Hk : 2 <= k.
Hypothesis Hdistinct : forall i j, i < n -> j < n -> i <> j -> (0 < sqdist (nth i data []) (nth j data []))%Q.

Lemma label_of st i : consistent data k st -> i < n -> nth i (belong st) 0 < k /\ nth i (belong st) 0 = nearest_index data (current st) i.
Proof. intros [V U] Hi. destruct (belong_spec data _ _ _ i U Hi) as [E L]. destruct V as (_ & Lk & _). rewrite E. split; [lia|reflexivity]. Qed.
Lemma label_medoid st j : consistent data k st -> j < k -> nth (nth j (current st) 0) (belong st) 0 = j.
Proof.
  intros C Hj. assert (Hi : nth j (current st) 0 < n) by (destruct C as [(_ & L & V) _]; apply V; apply nth_In; lia).
  destruct (label_of st _ C Hi) as [_ ->]. apply (own_cluster data k ltac:(lia) Hdistinct); [apply C|exact Hj].
Qed.
Lemma other_label st p j : consistent data k st -> j < k ->
  match find_another data (current st) p (nth j (current st) 0) None None with Some o => nth o (belong st) 0 | None => nth (n - 1) (belong st) 0 end = partner j.
Proof.
  intros C Hj. rewrite another_first. pose proof C as [(N & L & V) _]. destruct (current st) as [|a [|b t]] eqn:E; [simpl in L; lia|simpl in L; lia|].
  assert (Ha : nth a (belong st) 0 = 0) by (pose proof (label_medoid st 0 C ltac:(lia)) as H; rewrite E in H; exact H).
  assert (Hb : nth b (belong st) 0 = 1) by (pose proof (label_medoid st 1 C ltac:(lia)) as H; rewrite E in H; exact H).
  destruct j as [|j].
  - cbn [nth find]. rewrite Nat.eqb_refl. cbn [negb]. destruct (Nat.eqb_spec b a) as [->|]; cbn [negb]; [|exact Hb]. inversion N as [|? ? I]. exfalso. apply I. left. reflexivity.
  - cbn [find]. destruct (Nat.eqb_spec a (nth (S j) (a :: b :: t) 0)) as [Ea|]; cbn [negb]; [|exact Ha]. inversion N as [|? ? I _]. exfalso. apply I. rewrite Ea. apply (nth_In (b :: t) 0). simpl in L. simpl. lia.
Qed.
Lemma point_price st j x p : consistent data k st -> j < k -> (forall m, In m (current st) -> m <> j) -> x < n -> ~ In x (current st) -> p < n ->
  exists q, point_cost data st (nth j (current st) 0) x p = Some q /\ (q == gain data (current st) (belong st) j x p)%Q.
Proof.
  intros C Hj Hnj Hx Hnx Hp. unfold point_cost. fold n. rewrite (label_medoid st j C Hj), (other_label st p j C Hj). destruct (label_of st p C Hp) as [Hlab _].
  assert (Im : In (nth (nth p (belong st) 0) (current st) 0) (current st)) by (apply nth_In; destruct C as [(_ & L & _) _]; lia).
  cbn zeta. destruct (Nat.eqb_spec (nth (nth p (belong st) 0) (current st) 0) x) as [E|_]; [exfalso; apply Hnx; rewrite <- E; exact Im|].
  destruct (Nat.eqb_spec (nth (nth p (belong st) 0) (current st) 0) j) as [E|_]; [exfalso; apply (Hnj _ Im E)|]. cbn [negb andb].
  unfold gain, d2. destruct (Nat.eqb_spec (nth p (belong st) 0) j) as [Ej|Nj]; cbn [orb].
  - rewrite Ej. destruct (Qle_bool _ _) eqn:E; [apply Qle_bool_iff in E|apply Qle_bool_false in E]; eexists; (split; [reflexivity|]).
    + rewrite qmin_ge by lra. lra.
    + rewrite qmin_le by lra. reflexivity.
  - destruct (Nat.eqb_spec (nth p (belong st) 0) (partner j)) as [Ep|Np].
    + destruct (Qltb _ _) eqn:E; [apply Qltb_true in E|apply Qltb_false in E]; eexists; (split; [reflexivity|]).
      * rewrite qmin_ge by lra. reflexivity.
      * rewrite qmin_le by lra. reflexivity.
    + eexists. split; reflexivity.
Qed.
Lemma gain_medoid st j x p : consistent data k st -> p < n -> In p (current st) -> (gain data (current st) (belong st) j x p == 0)%Q.
Proof.
  intros C Hp I. unfold gain. destruct (_ || _); [|reflexivity]. destruct (In_nth _ _ 0 I) as (i & Hi & E). assert (Hik : i < k) by (destruct C as [(_ & L & _) _]; lia).
  pose proof (label_medoid st i C Hik) as El. rewrite E in El. rewrite El, E, sqdist_refl. apply qmin_ge. pose proof (sqdist_nonneg (nth p data []) (nth x data [])). lra.
Qed.
(** C93, what the price is: it never grows with the points that lose by the swap *)
Theorem price st j x : consistent data k st -> j < k -> (forall m, In m (current st) -> m <> j) -> x < n -> ~ In x (current st) ->
  exists q, candidate_cost data st (nth j (current st) 0) x = Some q /\ (q == fold_right Qplus 0 (map (gain data (current st) (belong st) j x) (seq 0 n)))%Q.
Proof.
  intros C Hj Hnj Hx Hnx. unfold candidate_cost. fold n.
  destruct (fold_costs (point_cost data st (nth j (current st) 0) x) (gain data (current st) (belong st) j x) (filter (fun p => negb (mem p (current st))) (seq 0 n)) 0) as (r & E & Hr).
  - intros p I. apply filter_In in I as [I _]. apply in_seq in I. apply point_price; auto. lia.
  - exists r. split; [exact E|]. rewrite Hr, fold_drop; [ring|]. intros p I K. apply in_seq in I. apply gain_medoid; auto; [lia|]. apply mem_spec. destruct (mem p (current st)); [reflexivity|discriminate].
Qed.
Theorem accepted st j x : consistent data k st -> j < k -> (forall m, In m (current st) -> m <> j) -> x < n -> ~ In x (current st) ->
  nth x (belong st) 0 = j \/ nth x (belong st) 0 = partner j -> negative (candidate_cost data st (nth j (current st) 0) x) = true.
Proof.
  intros C Hj Hnj Hx Hnx Hl. destruct (price st j x C Hj Hnj Hx Hnx) as (q & -> & Hq). cbn [negative]. apply Qltb_true. rewrite Hq. apply (fold_strict _ x).
  - intros p _. apply gain_nonpos.
  - apply in_seq. lia.
  - unfold gain. replace ((nth x (belong st) 0 =? j) || (nth x (belong st) 0 =? partner j)) with true by (symmetry; apply orb_true_iff; rewrite !Nat.eqb_eq; exact Hl).
    rewrite sqdist_refl. destruct (label_of st x C Hx) as [Hlab _]. assert (I : In (nth (nth x (belong st) 0) (current st) 0) (current st)) by (apply nth_In; destruct C as [(_ & L & _) _]; lia).
    pose proof (proj2 (proj2 (proj1 C)) _ I) as Hm. assert (Hne : x <> nth (nth x (belong st) 0) (current st) 0) by (intros E; apply Hnx; rewrite E; exact I).
    pose proof (Hdistinct _ _ Hx Hm Hne). rewrite qmin_le by lra. lra.
Qed.
End Cost.

(** C93, the price of any swap of k >= 2 clusters, for all data of pairwise different points: unless some medoid's
    index equals the number j of the replaced medoid, only the points that gain are counted, and only those of two of
    the clusters, so no price is positive *)
Theorem C93_price data k st j x : 2 <= k -> (forall i j, i < length data -> j < length data -> i <> j -> (0 < sqdist (nth i data []) (nth j data []))%Q) ->
  consistent data k st -> j < k -> (forall m, In m (current st) -> m <> j) -> x < length data -> ~ In x (current st) ->
  exists q, candidate_cost data st (nth j (current st) 0) x = Some q /\ (q == fold_right Qplus 0 (map (gain data (current st) (belong st) j x) (seq 0 (length data))))%Q /\ (q <= 0)%Q /\
    (nth x (belong st) 0 = j \/ nth x (belong st) 0 = partner j -> (q < 0)%Q).
Proof.
  intros Hk Hd C Hj Hnj Hx Hnx. destruct (price data k Hk Hd st j x C Hj Hnj Hx Hnx) as (q & E & Hq). exists q. split; [exact E|]. split; [exact Hq|]. split.
  - rewrite Hq. clear. assert (W : forall l, (fold_right Qplus 0 (map (gain data (current st) (belong st) j x) l) <= 0)%Q); [|apply W]. induction l as [|p l IH]; cbn [map fold_right]; [apply Qle_refl|]. pose proof (gain_nonpos data (current st) (belong st) j x p). lra.
  - intros Hl. pose proof (accepted data k Hk Hd st j x C Hj Hnj Hx Hnx Hl) as A. rewrite E in A. cbn [negative] in A. apply Qltb_true. exact A.
Qed.
Print Assumptions C93_price.

(** * Two clusters *)
Lemma upd_second (m : list nat) j x y : In y m -> y <> nth j m 0 -> In y (upd m j x).
Proof. revert j. induction m as [|a m IH]; intros [|j] I Hne; cbn [upd nth] in *; [destruct I|destruct I|destruct I as [->|I]; [congruence|right; exact I]|]. destruct I as [->|I]; [left; reflexivity|right; apply IH; auto]. Qed.

Section Two.
Variable data : list point.
Variable rnd : nat -> nat.
Let n := length data.
Hypothesis Hdistinct : forall i j, i < n -> j < n -> i <> j -> (0 < sqdist (nth i data []) (nth j data []))%Q.
Lemma two_stops maxneighbor : 1 <= maxneighbor -> 0 < n -> forall fuel idx pos st pos' st', consistent data 2 st -> (idx = 0 \/ In 0 (current st) \/ In 1 (current st)) ->
  optimize data 2 rnd maxneighbor fuel idx pos st = Ok (pos', st') -> In 0 (current st') \/ In 1 (current st').
Proof.
  intros Hmx Hn. induction fuel as [|f IH]; intros idx pos st pos' st' C I E; cbn [optimize] in E; [discriminate|].
  destruct (Nat.ltb_spec idx maxneighbor) as [Hlt|Hge]; [|apply Ok_inj in E; injection E as _ <-; destruct I as [->|I]; [lia|exact I]].
  set (j := rnd pos mod 2) in *. assert (Hj : j < 2) by (apply Nat.mod_upper_bound; lia).
  destruct (draw_candidate data rnd (S f) (current st) (S pos)) as [[x p]|] eqn:D; cbn [bind fst snd] in E; [|discriminate]. destruct (draw_spec data rnd _ _ _ _ _ D Hn) as [Hx Hm].
  destruct (negative _) eqn:N.
  - destruct (update_clusters data (upd _ _ _)) as [u|] eqn:Eu; cbn [bind] in E; [|discriminate]. eapply IH; [|left; reflexivity|exact E]. apply start_consistent; auto. apply valid_upd; auto. apply C.
  - eapply IH; [exact C| |exact E]. right. destruct (in_dec Nat.eq_dec 0 (current st)) as [|N0]; [left; auto|]. destruct (in_dec Nat.eq_dec 1 (current st)) as [|N1]; [right; auto|]. exfalso.
    rewrite (accepted data 2 ltac:(lia) Hdistinct st j x C Hj) in N; [discriminate| |exact Hx|exact Hm|].
    + intros m Im ->. destruct j as [|[|j']]; [auto|auto|lia].
    + destruct (label_of data 2 (le_n 2) st x C Hx) as [Hl _]. destruct j as [|[|j']]; [| |lia]; cbn [partner]; lia.
Qed.
End Two.

(** C236.  For two clusters and all data of pairwise different points a run that finishes returns one of the first two
    points of the data as a medoid, whatever the random numbers and the samples are ... *)
Theorem C236_first_points data rnd sample numlocal maxneighbor fuel clusters medoids : samples (length data) 2 sample -> 1 <= numlocal -> 1 <= maxneighbor ->
  (forall i j, i < length data -> j < length data -> i <> j -> (0 < sqdist (nth i data []) (nth j data []))%Q) ->
  clarans_process data 2 rnd sample numlocal maxneighbor fuel = Ok (clusters, medoids) -> In 0 medoids \/ In 1 medoids.
Proof.
  intros Hs Hl Hmx Hd E. pose proof (proj2 (process_ok _ _ _ _ _ _ _ _ E)) as Hn.
  destruct (process_spec data 2 rnd ltac:(lia) sample Hs maxneighbor fuel numlocal clusters medoids Hl E) as (l & st & R & _ & _ & I & -> & _ & _ & _).
  assert (G : forall i j pos l, runs data 2 rnd sample maxneighbor fuel i j pos l -> forall s, In s l -> In 0 (current s) \/ In 1 (current s)).
  { induction 1 as [|i j pos s pos' l0 (u & Eu & Eo) _ IH]; intros s0 H0; [destruct H0|]. destruct H0 as [<-|H0]; [|auto].
    eapply (two_stops data rnd Hd maxneighbor Hmx Hn); [apply start_consistent; [apply Hs|exact Eu]|left; reflexivity|exact Eo]. }
  eapply G; eauto.
Qed.
Print Assumptions C236_first_points.
Example C236_case : samples 6 2 sample6 /\ (forall i j, i < length data6 -> j < length data6 -> i <> j -> (0 < sqdist (nth i data6 []) (nth j data6 []))%Q) /\
  clarans_process data6 2 rnd6 sample6 2 2 60 = Ok ([[0; 1; 2]; [3; 4; 5]], [0; 3]).
Proof.
  split; [apply C33_example|]. split; [|apply C33_example]. intros i j Hi Hj Hne. simpl in Hi, Hj. do 6 (destruct i as [|i]; [do 6 (destruct j as [|j]; [try congruence; reflexivity|]); lia|]). lia.
Qed.
Example C93_price_case : exists st, consistent data6 2 st /\ current st = [3; 4] /\ (forall m, In m (current st) -> m <> 1) /\ candidate_cost data6 st 4 5 = Some (-4 # 1)%Q.
Proof.
  exists (mkS [3; 4] [0; 0; 0; 0; 1; 1] [[0; 1; 2; 3]; [4; 5]]). split; [split; [split; [repeat constructor; simpl; intuition lia|split; [reflexivity|simpl; intuition lia]]|reflexivity]|]. split; [reflexivity|]. split; [simpl; intuition lia|]. vm_compute. reflexivity.
Qed.

(** ... so "the medoids found may be any of the points" is false: here the two middle points have the total distance
    4, and no run that finishes returns medoids with less than 7 *)
Definition groups6 : list point := [[0%Q]; [10%Q]; [1%Q]; [2%Q]; [11%Q]; [12%Q]].
Theorem C236_any_point_refuted : exists data best, total_distance data best 4 /\ forall rnd sample numlocal maxneighbor fuel clusters medoids c, samples (length data) 2 sample -> 1 <= numlocal -> 1 <= maxneighbor ->
  clarans_process data 2 rnd sample numlocal maxneighbor fuel = Ok (clusters, medoids) -> total_distance data medoids c -> (7 <= c)%Q.
Proof.
  exists groups6, [2; 4]. split.
  - exists (fun i => match i with 1 | 4 | 5 => 4 | _ => 2 end). split; [|reflexivity]. intros i Hi. simpl in Hi. do 6 (destruct i as [|i]; [split; [simpl; auto|intros m' [<-|[<-|[]]]; vm_compute; discriminate]|]). lia.
  - intros rnd sample numlocal maxneighbor fuel clusters medoids c Hs Hl Hmx E T.
    assert (Hd : forall i j, i < length groups6 -> j < length groups6 -> i <> j -> (0 < sqdist (nth i groups6 []) (nth j groups6 []))%Q).
    { intros i j Hi Hj Hne. simpl in Hi, Hj. do 6 (destruct i as [|i]; [do 6 (destruct j as [|j]; [try congruence; reflexivity|]); lia|]). lia. }
    pose proof (C236_first_points _ _ _ _ _ _ _ _ Hs Hl Hmx Hd E) as F.
    destruct (process_spec groups6 2 rnd ltac:(lia) sample Hs maxneighbor fuel numlocal clusters medoids Hl E) as (l & st & _ & _ & _ & _ & -> & _ & C & _).
    rewrite (total_distance_fun _ _ _ _ T (estimation_total groups6 2 ltac:(lia) Hd st C)). destruct C as [(N & L & V) U]. destruct st as [cur b cl]. cbn [current belong Clarans_Model.clusters] in *.
    destruct cur as [|a [|a' [|? ?]]]; try discriminate L. pose proof (V a (or_introl eq_refl)) as Ha. pose proof (V a' (or_intror (or_introl eq_refl))) as Ha'. simpl in Ha, Ha'.
    assert (Hne : a <> a') by (intros ->; inversion N as [|? ? I]; apply I; left; reflexivity).
    assert (F' : a = 0 \/ a = 1 \/ a' = 0 \/ a' = 1) by (destruct F as [[F|[F|[]]]|[F|[F|[]]]]; auto).
    clear - U Ha Ha' Hne F'. do 6 (destruct a as [|a]; [do 6 (destruct a' as [|a']; [first [congruence|lia|vm_compute in U; injection U as <- <-; vm_compute; discriminate]|]); lia|]). lia.
Qed.
Print Assumptions C236_any_point_refuted.

(** * When a local search stops *)
(** the first number drawn from position [pos] on that is no medoid *)
Definition first_new (n : nat) (rnd : nat -> nat) (medoids : list nat) (pos x pos' : nat) : Prop :=
  exists t, pos' = pos + t + 1 /\ x = rnd (pos + t) mod n /\ ~ In x medoids /\ forall s, s < t -> In (rnd (pos + s) mod n) medoids.
Lemma draw_first data rnd : forall fuel m pos x p, draw_candidate data rnd fuel m pos = Ok (x, p) -> first_new (length data) rnd m pos x p.
Proof.
  induction fuel as [|f IH]; intros m pos x p E; cbn [draw_candidate] in E; [discriminate|]. destruct (mem (rnd pos mod length data) m) eqn:M.
  - destruct (IH _ _ _ _ E) as (t & Ep & Ex & Hn & Hb). exists (S t). split; [lia|]. split; [rewrite Ex; f_equal; f_equal; lia|]. split; [exact Hn|]. intros [|s] Hs; [rewrite Nat.add_0_r; apply mem_spec; exact M|]. replace (pos + S s) with (S pos + s) by lia. apply Hb. lia.
  - apply Ok_inj in E. injection E as <- <-. exists 0. rewrite Nat.add_0_r. split; [lia|]. split; [reflexivity|]. split; [intros I; apply mem_spec in I; congruence|lia].
Qed.
(** [m] swaps priced one after another, none of them taken: the medoid drawn at a position, the candidate drawn after it *)
Inductive rejected (data : list point) (k : nat) (rnd : nat -> nat) (st : state) : nat -> nat -> nat -> Prop :=
| rej_none pos : rejected data k rnd st 0 pos pos
| rej_more m pos mid x pos' q : rejected data k rnd st m pos mid -> first_new (length data) rnd (current st) (S mid) x pos' ->
    candidate_cost data st (nth (rnd mid mod k) (current st) 0) x = Some q -> (0 <= q)%Q -> rejected data k rnd st (S m) pos pos'.
(** one swap that is taken: the candidate has the place of the drawn medoid, and all points are assigned anew *)
Definition swapped (data : list point) (k : nat) (rnd : nat -> nat) (st : state) (pos : nat) (st' : state) (pos' : nat) : Prop :=
  exists x, first_new (length data) rnd (current st) (S pos) x pos' /\
    (forall q, candidate_cost data st (nth (rnd pos mod k) (current st) 0) x = Some q -> (q < 0)%Q) /\
    current st' = upd (current st) (nth (nth (rnd pos mod k) (current st) 0) (belong st) 0) x /\ update_clusters data (current st') = Ok (belong st', clusters st').
Inductive search_run (data : list point) (k : nat) (rnd : nat -> nat) (maxneighbor : nat) : state -> nat -> state -> nat -> Prop :=
| run_stop st pos pos' : rejected data k rnd st maxneighbor pos pos' -> search_run data k rnd maxneighbor st pos st pos'
| run_swap st pos m mid st1 pos1 st' pos' : m < maxneighbor -> rejected data k rnd st m pos mid -> swapped data k rnd st mid st1 pos1 -> search_run data k rnd maxneighbor st1 pos1 st' pos' ->
    search_run data k rnd maxneighbor st pos st' pos'.

Lemma optimize_run data k rnd maxneighbor : forall fuel idx from pos st st' pos', rejected data k rnd st idx from pos -> idx <= maxneighbor ->
  optimize data k rnd maxneighbor fuel idx pos st = Ok (pos', st') -> search_run data k rnd maxneighbor st from st' pos'.
Proof.
  induction fuel as [|f IH]; intros idx from pos st st' pos' R Hi E; cbn [optimize] in E; [discriminate|]. destruct (Nat.ltb_spec idx maxneighbor) as [Hlt|Hge].
  - destruct (draw_candidate data rnd (S f) (current st) (S pos)) as [[x p]|] eqn:D; cbn [bind fst snd] in E; [|discriminate]. apply draw_first in D.
    destruct (candidate_cost data st (nth (rnd pos mod k) (current st) 0) x) as [q|] eqn:Eq; cbn [negative] in E.
    + destruct (Qltb q 0) eqn:Lq; [apply Qltb_true in Lq|apply Qltb_false in Lq].
      * destruct (update_clusters data (upd _ _ _)) as [u|] eqn:Eu; cbn [bind] in E; [|discriminate]. eapply run_swap; [exact Hlt|exact R| |eapply IH; [apply rej_none|lia|exact E]].
        exists x. split; [exact D|]. split; [intros q' E'; rewrite Eq in E'; injection E' as <-; exact Lq|]. split; [reflexivity|]. cbn [current belong clusters]. destruct u. exact Eu.
      * eapply IH; [eapply rej_more; [exact R|exact D|exact Eq|exact Lq]|lia|exact E].
    + destruct (update_clusters data (upd _ _ _)) as [u|] eqn:Eu; cbn [bind] in E; [|discriminate]. eapply run_swap; [exact Hlt|exact R| |eapply IH; [apply rej_none|lia|exact E]].
      exists x. split; [exact D|]. split; [intros q' E'; rewrite Eq in E'; discriminate|]. split; [reflexivity|]. cbn [current belong clusters]. destruct u. exact Eu.
  - apply Ok_inj in E. injection E as <- <-. apply run_stop. replace maxneighbor with idx by lia. exact R.
Qed.
(** C237.  Every local search of a finished run starts at the sample, goes from one set of medoids to the next by
    swaps that are priced below zero, counts the rejected candidates anew after each of them and stops at the first
    medoids for which maxneighbor candidates in a row were rejected; a candidate is the first number drawn that is no
    medoid.  The searches use up the random numbers one after another. *)
Inductive all_searches (data : list point) (k : nat) (rnd : nat -> nat) (sample : nat -> list nat) (maxneighbor : nat) : nat -> nat -> list state -> Prop :=
| all_none i pos : all_searches data k rnd sample maxneighbor i pos []
| all_more i pos st0 st pos' l : current st0 = sample i -> update_clusters data (sample i) = Ok (belong st0, clusters st0) -> search_run data k rnd maxneighbor st0 pos st pos' ->
    all_searches data k rnd sample maxneighbor (S i) pos' l -> all_searches data k rnd sample maxneighbor i pos (st :: l).
Theorem C237_local_search data k rnd sample numlocal maxneighbor fuel clusters medoids : samples (length data) k sample -> 1 <= numlocal ->
  clarans_process data k rnd sample numlocal maxneighbor fuel = Ok (clusters, medoids) ->
  exists results, all_searches data k rnd sample maxneighbor 0 0 results /\ length results = numlocal /\ In medoids (map current results).
Proof.
  intros Hs Hl E. pose proof (proj1 (process_ok _ _ _ _ _ _ _ _ E)) as Hk.
  destruct (process_spec data k rnd Hk sample Hs maxneighbor fuel numlocal clusters medoids Hl E) as (l & st & R & L & _ & I & -> & _ & _ & _). exists l. split; [|split; [exact L|apply in_map; exact I]].
  assert (G : forall i j pos l0, runs data k rnd sample maxneighbor fuel i j pos l0 -> all_searches data k rnd sample maxneighbor i pos l0); [|exact (G _ _ _ _ R)].
  clear. induction 1 as [|i j pos st0 pos' l0 (u & Eu & Eo) _ IH]; [constructor|]. econstructor; [| |eapply optimize_run; [apply rej_none|lia|exact Eo]|exact IH]; [reflexivity|]. cbn [belong Clarans_Model.clusters]. rewrite Eu. destruct u. reflexivity.
Qed.
Print Assumptions C237_local_search.
Example C237_case : exists results, all_searches data6 2 rnd6 sample6 2 0 0 results /\ length results = 2 /\ In [0; 3] (map current results).
Proof. destruct C33_example as [Hs E]. exact (C237_local_search data6 2 rnd6 sample6 2 2 60 _ _ Hs ltac:(lia) E). Qed.
