(** CLARANS: specification and proofs. *)
From Verif Require Import Base Kmeans_Model Kmeans_Proofs Clarans_Model.

(** * Specification *)
Definition valid_medoids (n k : nat) (m : list nat) : Prop := NoDup m /\ length m = k /\ forall i, In i m -> i < n.
(** m is a nearest medoid of point i *)
Definition nearest_medoid (data : list point) (medoids : list nat) (i m : nat) : Prop :=
  In m medoids /\ forall m', In m' medoids -> (sqdist (nth i data []) (nth m data []) <= sqdist (nth i data []) (nth m' data []))%Q.

Section C.
Variable data : list point.
Variable k : nat.
Variable rnd : nat -> nat.
Let n := length data.
Hypothesis Hk : 0 < k.

Lemma nearest_spec medoids i : medoids <> [] -> nearest_index data medoids i < length medoids /\ nearest_medoid data medoids i (nth (nearest_index data medoids i) medoids 0).
Proof.
  intros H. unfold nearest_index. rewrite kmedians_nearest_eq by (destruct medoids; [congruence|discriminate]). set (l := map (sqdist (nth i data [])) (map (fun i0 => nth i0 data []) medoids)).
  destruct (argmin_spec l) as [A B]; [unfold l; destruct medoids; [congruence|discriminate]|]. assert (L : length l = length medoids) by (unfold l; rewrite !map_length; auto). rewrite L in *. split; [exact A|]. split; [apply nth_In; auto|].
  assert (N : forall j, j < length medoids -> nth j l 0%Q = sqdist (nth i data []) (nth (nth j medoids 0) data [])).
  { intros j Hj. unfold l. rewrite map_map. rewrite (nth_indep _ 0%Q (sqdist (nth i data []) (nth 0 data []))) by (rewrite map_length; auto). rewrite (map_nth (fun x => sqdist (nth i data []) (nth x data []))). reflexivity. }
  intros m' Hm'. apply In_nth with (d := 0) in Hm' as (j & Hj & <-). specialize (B j Hj). rewrite !N in B by auto. exact B.
Qed.

Definition consistent (st : state) : Prop := valid_medoids n k (current st) /\ update_clusters data (current st) = Ok (belong st, clusters st).

Lemma valid_nonempty m : valid_medoids n k m -> m <> [].
Proof. intros (_ & L & _) ->. simpl in L. lia. Qed.
Lemma update_ok m : m <> [] -> exists u, update_clusters data m = Ok u.
Proof. intros H. unfold update_clusters. destruct (Nat.eqb_spec (length m) 0) as [E|_]; [destruct m; [congruence|discriminate]|]. eexists. reflexivity. Qed.
Lemma belong_spec m b c i : update_clusters data m = Ok (b, c) -> i < n -> nth i b 0 = nearest_index data m i /\ nearest_index data m i < length m.
Proof.
  unfold update_clusters. destruct (Nat.eqb_spec (length m) 0) as [E|E]; [discriminate|]. intros R Hi. apply Ok_inj in R. injection R as <- _. rewrite nth_map_seq0 by auto. split; auto. apply nearest_spec. intros ->. auto.
Qed.
Lemma mem_spec i l : mem i l = true <-> In i l.
Proof. unfold mem. rewrite existsb_exists. split; [intros (x & H & E); apply Nat.eqb_eq in E; subst; auto|intros H; exists i; split; auto; apply Nat.eqb_refl]. Qed.
Lemma draw_spec : forall fuel m pos c p, draw_candidate data rnd fuel m pos = Ok (c, p) -> 0 < n -> c < n /\ ~ In c m.
Proof.
  clear Hk. clear k.
  induction fuel as [|f IH]; intros m pos c p E Hn; cbn [draw_candidate] in E; [discriminate|]. destruct (mem (rnd pos mod length data) m) eqn:M; [eauto|]. apply Ok_inj in E. injection E as <- _. split; [apply Nat.mod_upper_bound; unfold n in Hn; lia|]. intros H. apply mem_spec in H. congruence.
Qed.
Lemma upd_in {A} : forall (l : list A) j x y, In y (upd l j x) -> y = x \/ In y l.
Proof. induction l as [|a l IH]; intros [|j] x y H; simpl in *; auto; destruct H as [H|H]; auto. destruct (IH _ _ _ H); auto. Qed.
Lemma upd_nodup : forall (l : list nat) j x, NoDup l -> ~ In x l -> NoDup (upd l j x).
Proof.
  induction l as [|a l IH]; intros j x N H; destruct j; cbn [upd]; auto; inversion N; subst.
  - constructor; auto. intros Hx. apply H. right. auto.
  - constructor; [|apply IH; auto; intros Hx; apply H; right; auto]. intros Ha. apply upd_in in Ha as [->|Ha]; auto. apply H. left. auto.
Qed.

Lemma valid_upd m j c : valid_medoids n k m -> c < n -> ~ In c m -> valid_medoids n k (upd m j c).
Proof. intros (N & L & V) Hc Hn. split; [apply upd_nodup; auto|]. split; [rewrite upd_length; auto|]. intros i Hi. apply upd_in in Hi as [->|Hi]; auto. Qed.

Lemma optimize_spec maxneighbor : 0 < n -> forall fuel idx pos st pos' st', consistent st -> optimize data k rnd maxneighbor fuel idx pos st = Ok (pos', st') -> consistent st'.
Proof.
  intros Hn. induction fuel as [|f IH]; intros idx pos st pos' st' C E; cbn [optimize] in E; [discriminate|]. destruct (idx <? maxneighbor); [|apply Ok_inj in E; injection E as _ <-; auto].
  destruct (draw_candidate data rnd (S f) (current st) (S pos)) as [[c p]|] eqn:D; cbn [bind fst snd] in E; [|discriminate]. destruct (draw_spec _ _ _ _ _ D Hn) as [Hc Hm].
  destruct (negative _); [|eauto]. destruct C as [V U]. pose proof (valid_upd (current st) (nth (nth (rnd pos mod k) (current st) 0) (belong st) 0) c V Hc Hm) as V'.
  destruct (update_clusters data (upd _ _ _)) as [u|] eqn:Eu; cbn [bind] in E; [|discriminate]. apply IH in E; auto. split; [exact V'|]. cbn [current belong clusters]. destruct u. exact Eu.
Qed.
(** the only failure is lack of fuel *)
Lemma draw_raises : forall fuel m pos e, draw_candidate data rnd fuel m pos = Raise e -> e = OutOfFuel.
Proof. induction fuel as [|f IH]; intros m pos e E; cbn [draw_candidate] in E; [congruence|]. destruct (mem _ m); [eauto|discriminate]. Qed.
Lemma optimize_raises maxneighbor : 0 < n -> forall fuel idx pos st e, consistent st -> optimize data k rnd maxneighbor fuel idx pos st = Raise e -> e = OutOfFuel.
Proof.
  intros Hn. induction fuel as [|f IH]; intros idx pos st e C E; cbn [optimize] in E; [congruence|]. destruct (idx <? maxneighbor); [|discriminate].
  destruct (draw_candidate data rnd (S f) (current st) (S pos)) as [[c p]|] eqn:D; cbn [bind fst snd] in E; [|injection E as <-; eapply draw_raises; eauto]. destruct (draw_spec _ _ _ _ _ D Hn) as [Hc Hm].
  destruct (negative _); [|eauto]. destruct C as [V U]. pose proof (valid_upd (current st) (nth (nth (rnd pos mod k) (current st) 0) (belong st) 0) c V Hc Hm) as V'.
  destruct (update_ok _ (valid_nonempty _ V')) as (u & Eu). rewrite Eu in E. cbn [bind] in E. eapply IH; [|exact E]. split; [exact V'|]. cbn [current belong clusters]. destruct u. exact Eu.
Qed.

Lemma start_consistent m u : valid_medoids n k m -> update_clusters data m = Ok u -> consistent (mkS m (fst u) (snd u)).
Proof. intros V E. split; [exact V|]. cbn [current belong clusters]. destruct u. exact E. Qed.

(** every local search and its result *)
Section Search.
Variable sample : nat -> list nat.
Hypothesis Hs : forall i, valid_medoids n k (sample i).
Variable maxneighbor fuel : nat.
(** [local i pos st pos']: the search number i, started at position pos of the random stream, ends with st *)
Definition local (i pos : nat) (st : state) (pos' : nat) : Prop := exists u, update_clusters data (sample i) = Ok u /\ optimize data k rnd maxneighbor fuel 0 pos (mkS (sample i) (fst u) (snd u)) = Ok (pos', st).
Inductive runs : nat -> nat -> nat -> list state -> Prop :=
| runs_nil i pos : runs i i pos []
| runs_cons i j pos st pos' l : local i pos st pos' -> runs (S i) j pos' l -> runs i j pos (st :: l).

Lemma search_spec : 0 < n -> k <= n -> forall left done pos best best', search data k rnd sample maxneighbor fuel left done pos best = Ok best' ->
  exists l, runs done (done + left) pos l /\ length l = left /\ Forall consistent l /\
    (best' = best /\ (forall st, In st l -> exists b, best = Some b /\ (snd b <= estimation data st)%Q) \/
     exists st, In st l /\ best' = Some (current st, estimation data st) /\ (forall st', In st' l -> (estimation data st <= estimation data st')%Q) /\ forall b, best = Some b -> (estimation data st < snd b)%Q).
Proof.
  intros Hn Hkn. induction left as [|left IH]; intros done pos best best' E; cbn [search] in E.
  - apply Ok_inj in E. subst. exists []. rewrite Nat.add_0_r. split; [constructor|]. split; auto. split; auto. left. split; auto. intros st [].
  - destruct (Nat.ltb_spec (length data) k); [unfold n in Hkn; lia|]. destruct (update_clusters data (sample done)) as [u|] eqn:Eu; cbn [bind] in E; [|discriminate].
    destruct (optimize data k rnd maxneighbor fuel 0 pos (mkS (sample done) (fst u) (snd u))) as [[p st]|] eqn:Eo; cbn [bind fst snd] in E; [|discriminate].
    pose proof (optimize_spec _ Hn _ _ _ _ _ _ (start_consistent _ _ (Hs done) Eu) Eo) as Cs.
    apply IH in E. destruct E as (l & R & L & F & D). exists (st :: l). split; [replace (done + S left) with (S done + left) by lia; econstructor; [exists u; eauto|exact R]|]. split; [simpl; lia|]. split; [constructor; auto|].
    destruct best as [b|].
    + destruct (Qltb (estimation data st) (snd b)) eqn:El; [apply Qltb_true in El|apply Qltb_false in El].
      * right. destruct D as [[-> D]|(st' & I & -> & M & B)].
        -- exists st. split; [left; auto|]. split; [auto|]. split; [|intros b0 [= <-]; auto]. intros s [<-|I]; [apply Qle_refl|]. destruct (D s I) as (b0 & [= <-] & H'). exact H'.
        -- exists st'. split; [right; auto|]. split; [auto|]. specialize (B _ eq_refl). cbn [snd] in B. split; [intros s [<-|I']; [lra|auto]|]. intros b0 [= <-]. lra.
      * destruct D as [[-> D]|(st' & I & -> & M & B)].
        -- left. split; auto. intros s [<-|I]; [exists b; split; auto|]. apply D. auto.
        -- right. exists st'. split; [right; auto|]. split; [auto|]. specialize (B _ eq_refl). split; [intros s [<-|I']; [lra|auto]|]. intros b0 [= <-]. lra.
    + right. destruct D as [[-> D]|(st' & I & -> & M & B)].
      * exists st. split; [left; auto|]. split; [auto|]. split; [|intros b0 [=]]. intros s [<-|I]; [apply Qle_refl|]. destruct (D s I) as (b0 & [= <-] & H'). exact H'.
      * exists st'. split; [right; auto|]. split; [auto|]. specialize (B _ eq_refl). cbn [snd] in B. split; [intros s [<-|I']; [lra|auto]|]. intros b0 [=].
Qed.

Theorem process_spec numlocal cl medoids : 1 <= numlocal -> clarans_process data k rnd sample numlocal maxneighbor fuel = Ok (cl, medoids) ->
  exists l st, runs 0 numlocal 0 l /\ length l = numlocal /\ Forall consistent l /\ In st l /\ medoids = current st /\ cl = clusters st /\ consistent st /\ forall st', In st' l -> (estimation data st <= estimation data st')%Q.
Proof.
  intros Hl. unfold clarans_process. destruct (Nat.eqb_spec (length data) 0) as [|Hn]; [discriminate|]. destruct (Nat.eqb_spec k 0); [discriminate|]. intros E.
  destruct (search data k rnd sample maxneighbor fuel numlocal 0 0 None) as [best|] eqn:Es; cbn [bind] in E; [|discriminate].
  assert (Hkn : k <= n). { destruct (Hs 0) as (N & L & V). rewrite <- L. replace n with (length (seq 0 n)) by apply seq_length. apply NoDup_incl_length; auto. intros x Hx. apply in_seq. specialize (V x Hx). lia. }
  apply search_spec in Es; [|unfold n; lia|auto]. destruct Es as (l & R & L & F & [[-> D]|(st & I & -> & M & _)]).
  - exfalso. destruct l as [|st l]; [simpl in L; lia|]. destruct (D st (or_introl eq_refl)) as (b & [=] & _).
  - exists l, st. cbn [fst] in E. pose proof (proj1 (Forall_forall _ _) F st I) as C. destruct C as [V U]. rewrite U in E. cbn [bind snd] in E. apply Ok_inj in E. injection E as <- <-. simpl in R. repeat (split; auto).
Qed.
End Search.

(** what a consistent state says about the clusters *)
Lemma clusters_spec st : consistent st -> partitions n (clusters st) /\ no_empty (clusters st) /\ (forall g, In g (clusters st) -> exists m, forall i, In i g -> nearest_medoid data (current st) i m).
Proof.
  intros [V U]. pose proof (valid_nonempty _ V) as Hne. unfold update_clusters in U. destruct (Nat.eqb_spec (length (current st)) 0); [discriminate|]. apply Ok_inj in U. injection U as _ <-. rewrite push_groups. fold n.
  split; [apply groups_partition; intros i _; apply nearest_spec; auto|]. split; [apply filter_nonempty_no_empty|]. intros g Hg. apply filter_In in Hg as [Hg _]. unfold groups_of in Hg. apply in_map_iff in Hg as (j & <- & Hj). exists (nth j (current st) 0). intros i Hi. apply filter_In in Hi as [_ Ei]. apply Nat.eqb_eq in Ei. subst j. apply nearest_spec. auto.
Qed.
End C.

(** * One cluster *)
Section One.
Variable data : list point.
Variable rnd : nat -> nat.
Let n := length data.
Hypothesis Hdistinct : forall i j, i < n -> j < n -> i <> j -> (0 < sqdist (nth i data []) (nth j data []))%Q.

Lemma one_nearest c i : nearest_index data [c] i = 0.
Proof. unfold nearest_index. simpl. destruct (Qltb _ _); reflexivity. Qed.
Lemma one_belong c b cl i : update_clusters data [c] = Ok (b, cl) -> nth i b 0 = 0.
Proof.
  unfold update_clusters. simpl length. cbn [Nat.eqb]. intros E. apply Ok_inj in E. injection E as <- _. destruct (le_lt_dec (length data) i) as [H|H]; [apply nth_overflow; rewrite map_length, seq_length; auto|]. rewrite nth_map_seq0 by auto. apply one_nearest.
Qed.

Lemma sum_negative l : forall a, (forall x, In x l -> exists q, x = Some q /\ (q <= 0)%Q) -> (exists q, In (Some q) l /\ (q < 0)%Q) -> exists r, fold_left add_cost l (Some a) = Some r /\ (r < a)%Q.
Proof.
  assert (W : forall l a, (forall x, In x l -> exists q, x = Some q /\ (q <= 0)%Q) -> exists r, fold_left add_cost l (Some a) = Some r /\ (r <= a)%Q).
  { induction l0 as [|x l0 IH]; intros a H; cbn [fold_left]; [exists a; split; auto; lra|]. destruct (H x (or_introl eq_refl)) as (q & -> & Hq). cbn [add_cost]. destruct (IH (a + q)%Q) as (r & E & Hr); [intros; apply H; right; auto|]. exists r. split; auto. lra. }
  induction l as [|x l IH]; intros a H (q0 & Hin & Hq0); [destruct Hin|]. cbn [fold_left]. destruct (H x (or_introl eq_refl)) as (q & -> & Hq). cbn [add_cost]. destruct Hin as [[= ->]|Hin].
  - destruct (W l (a + q0)%Q) as (r & E & Hr); [intros; apply H; right; auto|]. exists r. split; auto. lra.
  - destruct (IH (a + q)%Q) as (r & E & Hr); [intros; apply H; right; auto|eauto|]. exists r. split; auto. lra.
Qed.

Lemma one_cost c b cl p x : update_clusters data [c] = Ok (b, cl) -> x <> c -> c <> 0 -> exists q, point_cost data (mkS [c] b cl) c x p = Some q /\
  (q <= 0)%Q /\ ((d2 data p x < d2 data p c)%Q -> (q < 0)%Q).
Proof.
  intros U Hx Hc. unfold point_cost. cbn [current belong clusters]. rewrite !(one_belong c b cl _ U). cbn [nth Nat.eqb]. destruct (Nat.eqb_spec c x); [congruence|]. destruct (Nat.eqb_spec c 0); [congruence|]. cbn [negb andb].
  destruct (Qle_bool (d2 data p c) (d2 data p x)) eqn:E; [apply Qle_bool_iff in E|apply Qle_bool_false in E]; eexists; (split; [reflexivity|]); split; try lra; intros; lra.
Qed.
Lemma one_accept c b cl x : update_clusters data [c] = Ok (b, cl) -> c <> 0 -> c < n -> x < n -> x <> c -> negative (candidate_cost data (mkS [c] b cl) c x) = true.
Proof.
  intros U Hc Hcn Hxn Hx. unfold candidate_cost. destruct (sum_negative (map (point_cost data (mkS [c] b cl) c x) (filter (fun p => negb (mem p [c])) (seq 0 (length data)))) 0%Q) as (r & E & Hr).
  - intros y Hy. apply in_map_iff in Hy as (p & <- & _). destruct (one_cost c b cl p x U Hx Hc) as (q & E & Hq & _). eauto.
  - destruct (one_cost c b cl x x U Hx Hc) as (q & E & _ & Hq). exists q. split; [apply in_map_iff; exists x; split; auto; apply filter_In; split; [apply in_seq; unfold n in *; lia|]|].
    + simpl. destruct (Nat.eqb_spec x c); [congruence|reflexivity].
    + apply Hq. unfold d2. rewrite sqdist_refl. apply Hdistinct; auto.
  - cbn [current] in *. rewrite E. apply Qltb_true. exact Hr.
Qed.
Lemma valid_one m : valid_medoids n 1 m -> exists c, m = [c] /\ c < n.
Proof. intros (_ & L & V). destruct m as [|c [|? ?]]; try discriminate. exists c. split; auto. apply V. left. auto. Qed.
Lemma nth_mod1 r (c : nat) : nth (r mod 1) [c] 0 = c.
Proof. assert (E : r mod 1 = 0) by apply Nat.mod_1_r. rewrite E. reflexivity. Qed.

Lemma one_stops maxneighbor : 1 <= maxneighbor -> 0 < n -> forall fuel idx pos st pos' st', consistent data 1 st -> (idx = 0 \/ current st = [0]) -> optimize data 1 rnd maxneighbor fuel idx pos st = Ok (pos', st') -> current st' = [0].
Proof.
  intros Hmx Hn. induction fuel as [|f IH]; intros idx pos st pos' st' C I E; cbn [optimize] in E; [discriminate|]. destruct (Nat.ltb_spec idx maxneighbor) as [Hlt|Hge]; [|apply Ok_inj in E; injection E as _ <-; destruct I; [lia|auto]].
  destruct C as [V U]. destruct (valid_one _ V) as (c & Ec & Hc). rewrite Ec in E. rewrite nth_mod1 in E.
  destruct (draw_candidate data rnd (S f) [c] (S pos)) as [[x p]|] eqn:D; cbn [bind fst snd] in E; [|discriminate]. destruct (draw_spec data rnd _ _ _ _ _ D Hn) as [Hx Hm].
  destruct (negative _) eqn:N.
  - destruct (update_clusters data (upd [c] (nth c (belong st) 0) x)) as [u|] eqn:Eu; cbn [bind] in E; [|discriminate]. eapply IH; [|left; reflexivity|exact E]. apply start_consistent; auto. apply valid_upd; auto. rewrite <- Ec. auto.
  - eapply IH; [split; eauto| |exact E]. right. destruct (Nat.eq_dec c 0) as [->|Hc0]; auto. exfalso. destruct st as [cur b cl]. cbn [current belong clusters] in *. subst cur. rewrite (one_accept c b cl x U Hc0 Hc Hx) in N; [discriminate|]. intros ->. apply Hm. left. auto.
Qed.

(** when every other medoid is better than point 0 the search does not stop *)
Hypothesis Hworst : forall x, 0 < x < n -> (sumQ (map (fun p => d2 data p x) (seq 1 (n - 1))) < sumQ (map (fun p => d2 data p 0) (seq 1 (n - 1))))%Q.

Lemma zero_cost b cl p x : update_clusters data [0] = Ok (b, cl) -> x <> 0 -> point_cost data (mkS [0] b cl) 0 x p = Some (d2 data p x - d2 data p 0)%Q.
Proof. intros U Hx. unfold point_cost. cbn [current belong clusters]. rewrite !(one_belong 0 b cl _ U). cbn [nth Nat.eqb]. destruct x; [congruence|]. reflexivity. Qed.
Lemma fold_some (f : nat -> Q) l : forall a, exists r, fold_left add_cost (map (fun p => Some (f p)) l) (Some a) = Some r /\ (r == a + fold_left Qplus (map f l) 0)%Q.
Proof.
  assert (G : forall l a, (fold_left Qplus (map f l) a == a + fold_left Qplus (map f l) 0)%Q). { induction l0 as [|x l0 IH]; intros a; cbn [map fold_left]; [lra|]. rewrite IH, (IH (0 + f x)%Q). lra. }
  induction l as [|x l IH]; intros a; cbn [map fold_left add_cost]; [exists a; split; auto; lra|]. destruct (IH (a + f x)%Q) as (r & E & Hr). exists r. split; auto. rewrite Hr, (G l (0 + f x)%Q). lra.
Qed.
Lemma sum_diff (f g : nat -> Q) l : (fold_left Qplus (map (fun p => f p - g p)%Q l) 0 == fold_left Qplus (map f l) 0 - fold_left Qplus (map g l) 0)%Q.
Proof.
  assert (G : forall (h : nat -> Q) l a, (fold_left Qplus (map h l) a == a + fold_left Qplus (map h l) 0)%Q). { intros h. induction l0 as [|x l0 IH]; intros a; cbn [map fold_left]; [lra|]. rewrite IH, (IH (0 + h x)%Q). lra. }
  induction l as [|x l IH]; cbn [map fold_left]; [lra|]. rewrite (G _ l (0 + (f x - g x))%Q), (G f l (0 + f x)%Q), (G g l (0 + g x)%Q), IH. lra.
Qed.
Lemma zero_accept b cl x : update_clusters data [0] = Ok (b, cl) -> 0 < x < n -> negative (candidate_cost data (mkS [0] b cl) 0 x) = true.
Proof.
  intros U Hx. unfold candidate_cost. cbn [current]. assert (F : filter (fun p => negb (mem p [0])) (seq 0 (length data)) = seq 1 (n - 1)).
  { unfold n in *. destruct (length data) as [|m]; [lia|]. replace (S m - 1) with m by lia. cbn [seq filter]. change (mem 0 [0]) with true. cbn [negb]. assert (G : forall a len, 0 < a -> filter (fun p => negb (mem p [0])) (seq a len) = seq a len). { intros a len. revert a. induction len as [|len IH]; intros a Ha; cbn [seq filter]; auto. destruct a; [lia|]. cbn. f_equal. apply IH. lia. } apply G. lia. }
  rewrite F. rewrite (map_ext _ (fun p => Some (d2 data p x - d2 data p 0)%Q)) by (intros p; apply zero_cost; auto; lia).
  destruct (fold_some (fun p => (d2 data p x - d2 data p 0)%Q) (seq 1 (n - 1)) 0%Q) as (r & E & Hr). rewrite E. apply Qltb_true. rewrite sum_diff in Hr. specialize (Hworst x Hx). unfold sumQ in Hworst. lra.
Qed.
Lemma never_stops maxneighbor : 1 <= maxneighbor -> 0 < n -> forall fuel pos st, consistent data 1 st -> optimize data 1 rnd maxneighbor fuel 0 pos st = Raise OutOfFuel.
Proof.
  intros Hmx Hn. induction fuel as [|f IH]; intros pos st C; cbn [optimize]; [reflexivity|]. destruct (Nat.ltb_spec 0 maxneighbor); [|lia].
  destruct C as [V U]. destruct (valid_one _ V) as (c & Ec & Hc). rewrite Ec. rewrite nth_mod1.
  destruct (draw_candidate data rnd (S f) [c] (S pos)) as [[x p]|e] eqn:D; cbn [bind fst snd]; [|f_equal; eapply draw_raises; eauto]. destruct (draw_spec data rnd _ _ _ _ _ D Hn) as [Hx Hm].
  assert (N : negative (candidate_cost data st c x) = true). { destruct st as [cur b cl]. cbn [current belong clusters] in *. subst cur. assert (x <> c) by (intros ->; apply Hm; left; auto). destruct (Nat.eq_dec c 0) as [->|Hc0]; [apply zero_accept; auto; lia|apply one_accept; auto]. }
  rewrite N. pose proof (valid_upd data 1 [c] (nth c (belong st) 0) x ltac:(rewrite <- Ec; exact V) Hx Hm) as V'. destruct (update_ok data _ (valid_nonempty data 1 ltac:(lia) _ V')) as (u & Eu). rewrite Eu. cbn [bind]. apply IH. apply start_consistent; auto.
Qed.
End One.

(** * The estimation *)
(** [c] is the sum of the distances of all points to their nearest medoids *)
Definition total_distance (data : list point) (medoids : list nat) (c : Q) : Prop :=
  exists f, (forall i, i < length data -> nearest_medoid data medoids i (f i)) /\ (c == fold_right Qplus 0 (map (fun i => sqdist (nth i data []) (nth (f i) data [])) (seq 0 (length data))))%Q.

Lemma total_distance_fun data medoids c c' : total_distance data medoids c -> total_distance data medoids c' -> (c == c')%Q.
Proof.
  intros (f & Hf & E) (g & Hg & E'). rewrite E, E'. assert (G : forall l, (forall i, In i l -> i < length data) -> (fold_right Qplus 0 (map (fun i => sqdist (nth i data []) (nth (f i) data [])) l) == fold_right Qplus 0 (map (fun i => sqdist (nth i data []) (nth (g i) data [])) l))%Q).
  { induction l as [|i l IH]; intros H; cbn [map fold_right]; [reflexivity|]. rewrite IH by (intros; apply H; right; auto). destruct (Hf i (H i (or_introl eq_refl))) as [A B]. destruct (Hg i (H i (or_introl eq_refl))) as [A' B']. specialize (B _ A'). specialize (B' _ A). lra. }
  apply G. intros i Hi. apply in_seq in Hi. lia.
Qed.

Section Est.
Variable data : list point.
Let n := length data.
Variable k : nat.
Hypothesis Hk : 0 < k.
Hypothesis Hdistinct : forall i j, i < n -> j < n -> i <> j -> (0 < sqdist (nth i data []) (nth j data []))%Q.

Lemma own_cluster m j : valid_medoids n k m -> j < k -> nearest_index data m (nth j m 0) = j.
Proof.
  intros V Hj. destruct V as (N & L & B). assert (Hne : m <> []) by (intros ->; simpl in L; lia). destruct (nearest_spec data m (nth j m 0) Hne) as [A [I M]]. set (r := nearest_index data m (nth j m 0)) in *.
  destruct (Nat.eq_dec r j) as [|Hr]; auto. exfalso. assert (Ij : In (nth j m 0) m) by (apply nth_In; lia). specialize (M _ Ij). rewrite sqdist_refl in M. assert (nth j m 0 <> nth r m 0). { intros E. apply Hr. symmetry. eapply (proj1 (NoDup_nth m 0)); eauto. lia. } pose proof (Hdistinct (nth j m 0) (nth r m 0) (B _ Ij) (B _ I) H). lra.
Qed.
Lemma filter_all {A} (f : A -> bool) l : (forall x, In x l -> f x = true) -> filter f l = l.
Proof. induction l as [|x l IH]; simpl; intros H; auto. rewrite (H x (or_introl eq_refl)), IH; auto. Qed.
Lemma clusters_full m u : valid_medoids n k m -> update_clusters data m = Ok u -> snd u = groups_of (nearest_index data m) n k.
Proof.
  intros V U. unfold update_clusters in U. destruct (length m =? 0); [discriminate|]. apply Ok_inj in U. subst u. cbn [snd]. rewrite push_groups. fold n. destruct V as (N & L & B). rewrite L. apply filter_all. intros g Hg. unfold groups_of in Hg. apply in_map_iff in Hg as (j & <- & Hj). apply in_seq in Hj.
  assert (I : In (nth j m 0) (filter (fun i => nearest_index data m i =? j) (seq 0 n))). { assert (Hjm : j < length m) by lia. pose proof (B _ (nth_In m 0 Hjm)). apply filter_In. split; [apply in_seq; lia|]. apply Nat.eqb_eq. apply own_cluster; [split; auto|lia]. }
  destruct (filter _ _); [destruct I|reflexivity].
Qed.
Lemma estimation_total st : consistent data k st -> total_distance data (current st) (estimation data st).
Proof.
  intros [V U]. pose proof (clusters_full _ _ V U) as Ec. cbn [snd] in Ec. pose proof (valid_nonempty data k Hk _ V) as Hne. destruct V as (N & L & B).
  exists (fun i => nth (nearest_index data (current st) i) (current st) 0). split; [intros i _; apply nearest_spec; auto|]. unfold estimation. rewrite sumQ_qsum. rewrite Ec. assert (Lg : length (groups_of (nearest_index data (current st)) n k) = k) by (unfold groups_of; rewrite map_length, seq_length; auto). rewrite Lg.
  set (F := fun i => sqdist (nth i data []) (nth (nth (nearest_index data (current st) i) (current st) 0) data [])).
  assert (E : concat (map (fun k0 => map (fun i => d2 data i (nth k0 (current st) 0)) (nth k0 (groups_of (nearest_index data (current st)) n k) [])) (seq 0 k)) = map F (concat (groups_of (nearest_index data (current st)) n k))).
  { unfold groups_of at 2. rewrite concat_map, map_map. f_equal. apply map_ext_in. intros j Hj. apply in_seq in Hj. unfold groups_of. rewrite nth_map_seq0 by lia. apply map_ext_in. intros i Hi. apply filter_In in Hi as [_ Hi]. apply Nat.eqb_eq in Hi. unfold d2, F. rewrite Hi. reflexivity. }
  rewrite E. change (fold_right Qplus 0%Q) with qsum. apply qsum_perm. apply Permutation_map. apply filter_label_perm. intros i _. rewrite <- L. apply nearest_spec. auto.
Qed.
End Est.
