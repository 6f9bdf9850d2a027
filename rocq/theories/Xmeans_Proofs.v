(** X-means and G-means: proofs *)
From Verif Require Import Base Kmeans_Model Kmeans_Proofs Xmeans_Model.

(** k-means++ chooses [amount] points of the data (C27) *)
Definition good_seeds (seeds : nat -> nat -> nat -> list nat) : Prop :=
  forall pos n amount, 1 <= amount <= n -> length (seeds pos n amount) = amount /\ forall i, In i (seeds pos n amount) -> i < n.

(** * the result of a k-means run *)
Lemma kmeans_total metric data initial tol itermax : data <> [] -> initial <> [] -> (0 <= tol)%Q -> length (nth 0 initial []) = dimension data ->
  exists r, kmeans_process metric data initial tol itermax = Ok r.
Proof.
  intros Hd Hi Ht Hl. unfold kmeans_process. unfold dimension in Hl. destruct data as [|p0 t]; [congruence|]. destruct initial as [|c0 ct]; [congruence|].
  destruct (Qltb tol 0) eqn:E; [apply Qltb_true in E; lra|]. simpl in Hl. rewrite Hl, Nat.eqb_refl.
  destruct (kmeans_loop metric (p0 :: t) tol itermax None [] (c0 :: ct)) as [cl ce]. eauto.
Qed.

Lemma uniform_updated data cl : uniform (dimension data) (kmeans_update_centers data cl).
Proof. intros p Hp. apply in_map_iff in Hp as (g & <- & _). unfold mean_point. now rewrite map_length, seq_length. Qed.

(** the clusters come from the previous centres, the centres from the clusters *)
Definition lloyd (metric : point -> point -> Q) (data : list point) (U : Prop) (k : nat) (cl : list (list nat)) (ce : list point) : Prop :=
  exists prev, prev <> [] /\ length prev <= k /\ (U -> uniform (dimension data) prev) /\ cl = assign metric data prev /\ ce = kmeans_update_centers data cl.

Lemma loop_lloyd metric data tol U k left : data <> [] -> forall change cl ce, lloyd metric data U k cl ce ->
  let '(cl', ce') := kmeans_loop metric data tol left change cl ce in lloyd metric data U k cl' ce'.
Proof.
  intros Hd. induction left as [|left IH]; intros change cl ce H; cbn [kmeans_loop]; auto. destruct (exceeds change tol); auto. apply IH.
  destruct H as (prev & Hne & Hk & _ & -> & ->). exists (kmeans_update_centers data (assign metric data prev)).
  assert (L : length (kmeans_update_centers data (assign metric data prev)) = length (assign metric data prev)) by apply map_length.
  split; [intros Z; rewrite Z in L; apply (partition_ne data Hd _ (assign_partition metric data prev Hne)); destruct (assign metric data prev); [reflexivity|discriminate]|].
  split; [rewrite L; pose proof (assign_length metric data prev); lia|]. split; [intros _; apply uniform_updated|]. rewrite kmeans_assign. auto.
Qed.

Lemma process_lloyd metric data initial tol itermax cl ce w : 1 <= itermax -> kmeans_process metric data initial tol itermax = Ok (cl, ce, w) -> lloyd metric data (uniform (dimension data) initial) (length initial) cl ce.
Proof.
  intros Hi E. apply kmeans_process_inv in E as (Hd & Hin & _ & _ & E). destruct itermax as [|m]; [lia|]. rewrite kmeans_first in E.
  match type of E with context [kmeans_loop _ _ _ m ?c ?f ?g] => pose proof (loop_lloyd metric data tol (uniform (dimension data) initial) (length initial) m Hd c f g) as L; destruct (kmeans_loop metric data tol m c f g) as [cl' ce'] end.
  inversion E; subst. apply L. exists initial. rewrite kmeans_assign. auto.
Qed.

Lemma lloyd_ok metric data U k cl ce : lloyd metric data U k cl ce ->
  partitions (length data) cl /\ no_empty cl /\ length ce = length cl /\ length cl <= k /\ uniform (dimension data) ce.
Proof.
  intros (prev & Hne & Hk & _ & -> & ->). split; [apply assign_partition; auto|]. split; [apply assign_no_empty|]. split; [apply map_length|]. split; [pose proof (assign_length metric data prev); lia|]. apply uniform_updated.
Qed.

Lemma process_wce metric data initial tol cl ce w : kmeans_process metric data initial tol 100 = Ok (cl, ce, w) -> (w == cost metric data cl ce)%Q.
Proof. intros E. apply (kmeans_process_ok _ _ _ _ _ _ _ _ E). lia. Qed.

(** * the search with repeats *)
Section SearchSpec.
Variable metric : point -> point -> Q.
Variable tol : Q.
Variable seeds : nat -> nat -> nat -> list nat.
Hypothesis seeds_ok : good_seeds seeds.

Definition from_run (data : list point) (amount : nat) (s : solution) : Prop :=
  exists idx, length idx = amount /\ (forall i, In i idx -> i < length data) /\ kmeans_process metric data (select data idx) tol 100 = Ok s.

Lemma search_inv stop data amount repeats : 1 <= amount -> forall pos best r, search_optimal metric tol seeds stop data amount repeats pos best = Ok r ->
  (forall s, best = Some s -> from_run data amount s) -> forall s, fst r = Some s -> from_run data amount s.
Proof.
  intros Ha. induction repeats as [|reps IH]; intros pos best r E Hb; cbn [search_optimal] in E.
  - apply Ok_inj in E. subst r. exact Hb.
  - destruct (Nat.ltb_spec (length data) amount) as [|Hle]; [discriminate|].
    destruct (kmeans_process metric data (select data (seeds pos (length data) amount)) tol 100) as [k|e] eqn:Ek; [|discriminate]. cbn [bind] in E.
    assert (Hk : from_run data amount k) by (exists (seeds pos (length data) amount); destruct (seeds_ok pos (length data) amount) as [S1 S2]; [lia|]; auto).
    assert (Hb' : forall s, match best with None => Some k | Some b => if Qltb (snd k) (snd b) then Some k else best end = Some s -> from_run data amount s).
    { intros s Hs. destruct best as [b|]; [destruct (Qltb (snd k) (snd b))|]; try (injection Hs as <-; auto). }
    match type of E with context [if ?b then _ else _] => destruct b end; [apply Ok_inj in E; subst r; exact Hb'|]. eapply IH; eauto.
Qed.

Lemma search_total stop data amount repeats : (0 <= tol)%Q -> 1 <= amount <= length data -> uniform (dimension data) data ->
  forall pos best, exists r, search_optimal metric tol seeds stop data amount repeats pos best = Ok r /\ (repeats <> 0 \/ best <> None -> fst r <> None).
Proof.
  intros Ht Ha Hu. induction repeats as [|reps IH]; intros pos best; cbn [search_optimal].
  - exists (best, pos). split; [reflexivity|]. intros [H|H]; [congruence|exact H].
  - destruct (Nat.ltb_spec (length data) amount); [lia|]. destruct (seeds_ok pos (length data) amount Ha) as [S1 S2].
    destruct (kmeans_total metric data (select data (seeds pos (length data) amount)) tol 100) as [k Ek].
    + intros ->. simpl in *. lia.
    + intros Z. apply (f_equal (@length point)) in Z. unfold select in Z. rewrite map_length in Z. simpl in Z. lia.
    + exact Ht.
    + unfold select. destruct (seeds pos (length data) amount) as [|i l]; [simpl in *; lia|]. cbn [map nth]. apply Hu, nth_In, S2. left. auto.
    + rewrite Ek. cbn [bind]. set (b' := match best with None => _ | Some b => _ end).
      assert (Hb' : b' <> None) by (unfold b'; destruct best as [b|]; [destruct (Qltb (snd k) (snd b))|]; congruence).
      match goal with |- context [if ?b then _ else _] => destruct b end; [exists (b', S pos); split; auto|].
      destruct (IH (S pos) b') as (r & Er & Hr). exists r. auto.
Qed.
End SearchSpec.

(** * X-means: number of clusters *)
Section Bound.
Variable metric : point -> point -> Q.
Variable tol : Q.
Variable seeds : nat -> nat -> nat -> list nat.
Variable data : list point.
Variable kmax repeats : nat.
Variable split_require : list (list nat) -> list point -> list (list nat) -> list point -> bool.

Lemma improve_bound cl : forall ce free pos a, improve_structure metric tol seeds data repeats split_require cl ce free pos = Ok a -> length cl <= length (fst a) <= length cl + free.
Proof.
  induction cl as [|g cl IH]; intros ce free pos a E; cbn [improve_structure] in E; [apply Ok_inj in E; subst; simpl; lia|].
  destruct (children metric tol seeds data repeats g pos) as [[[chcl chce] pos']|]; [|discriminate]. cbn [bind] in E.
  set (sp := (1 <? length chcl) && split_require [g] [hd [] ce] [nth 0 chcl []; nth 1 chcl []] chce && (0 <? free)) in E.
  destruct (improve_structure metric tol seeds data repeats split_require cl (tl ce) (if sp then free - 1 else free) pos') as [rest|] eqn:Er; [|discriminate].
  cbn [bind] in E. apply Ok_inj in E. subst a. cbn [fst]. rewrite app_length. specialize (IH _ _ _ _ Er). destruct sp eqn:Esp; simpl; [|lia].
  unfold sp in Esp. apply andb_true_iff in Esp as [_ Hf]. apply Nat.ltb_lt in Hf. lia.
Qed.

Lemma loop_bound fuel : forall ce pos ce', xmeans_loop metric tol seeds data kmax repeats split_require fuel ce pos = Ok ce' -> length ce <= kmax -> length ce' <= kmax.
Proof.
  induction fuel as [|f IH]; intros ce pos ce' E Hk; cbn [xmeans_loop] in E; [discriminate|].
  destruct (Nat.leb_spec (length ce) kmax); [|lia]. destruct (kmeans_process metric data ce tol 100) as [[[cl ce1] w]|] eqn:Ek; [|discriminate]. cbn [bind] in E.
  destruct (improve_structure metric tol seeds data repeats split_require cl ce1 (kmax - length ce1) pos) as [a|] eqn:Ea; [|discriminate]. cbn [bind] in E.
  destruct (lloyd_ok metric data (uniform (dimension data) ce) (length ce) cl ce1) as (_ & _ & L1 & L2 & _); [eapply process_lloyd; [|exact Ek]; lia|].
  apply improve_bound in Ea. destruct (Nat.eqb_spec (length ce) (length (fst a))); [apply Ok_inj in E; subst; lia|]. eapply IH; [exact E|]. lia.
Qed.

Theorem xmeans_spec initial fuel clusters centers wce : xmeans_process metric tol seeds data kmax repeats split_require initial fuel = Ok (clusters, centers, wce) ->
  kmeans_ok data (Nat.max kmax (length initial)) clusters centers /\ (length initial <= kmax -> length clusters <= kmax) /\ (wce == cost metric data clusters centers)%Q.
Proof.
  unfold xmeans_process. intros E. destruct (length data =? 0); [discriminate|]. destruct (length initial =? 0); [discriminate|]. destruct (Qltb tol 0); [discriminate|]. destruct (repeats =? 0); [discriminate|].
  destruct (xmeans_loop metric tol seeds data kmax repeats split_require fuel initial 0) as [ce|] eqn:El; [|discriminate]. cbn [bind] in E.
  destruct (kmeans_process_ok _ _ _ _ _ _ _ _ E ltac:(lia)) as [(P & N & L & B & M) W].
  assert (Hb : length initial <= kmax -> length ce <= kmax) by (eapply loop_bound; eauto).
  assert (Hb' : length ce <= Nat.max kmax (length initial)).
  { destruct (Nat.leb_spec (length initial) kmax) as [H|H]; [specialize (Hb H); lia|]. destruct fuel as [|f]; [discriminate|]. cbn [xmeans_loop] in El. destruct (Nat.leb_spec (length initial) kmax); [lia|]. apply Ok_inj in El. subst. lia. }
  split; [split; [exact P|split; [exact N|split; [exact L|split; [lia|exact M]]]]|]. split; [intros H; specialize (Hb H); lia|exact W].
Qed.
End Bound.

(** * a split lowers the error *)
Lemma qsum_filter_split {A} (f : A -> Q) (b : A -> bool) l : (qsum (map f l) == qsum (map f (filter b l)) + qsum (map f (filter (fun x => negb (b x)) l)))%Q.
Proof. induction l as [|x t IH]; simpl; [reflexivity|]. destruct (b x); simpl; rewrite IH; ring. Qed.

Section Split.
Variable loc : list point.
Hypothesis loc_dim : uniform (dimension loc) loc.
Let dim := dimension loc.
Let pts (g : list nat) : list point := map (fun i => nth i loc []) g.

Lemma decomposition g c : g <> [] -> (forall i, In i g -> i < length loc) -> length c = dim ->
  (qsum (map (fun i => sqdist (nth i loc []) c) g) == qsum (map (fun i => sqdist (nth i loc []) (mean_point dim (pts g))) g) + sqdist c (mean_point dim (pts g)) * inject_Z (Z.of_nat (length g)))%Q.
Proof.
  intros Hg Hi Hc. pose proof (mean_strict (pts g) dim (mean_point dim (pts g)) c) as H. unfold pts in *. rewrite map_length, !map_map in H. symmetry. apply H; auto.
  - destruct g; [congruence|discriminate].
  - intros p Hp. apply in_map_iff in Hp as (i & <- & Hig). apply loc_dim, nth_In, Hi, Hig.
  - apply mean_is_mean. destruct g; [congruence|discriminate].
Qed.

Lemma posQ (g : list nat) : g <> [] -> (0 < inject_Z (Z.of_nat (length g)))%Q.
Proof. intros H. change 0%Q with (inject_Z 0). rewrite <- Zlt_Qlt. destruct g; [congruence|simpl; lia]. Qed.

(** two clusters of a k-means run are better than one, whatever its centre *)
Lemma split_strict cl ce c k : k <= 2 -> lloyd sqdist loc True k cl ce -> 1 < length cl -> length c = dim ->
  (cost sqdist loc cl ce < qsum (map (fun i => sqdist (nth i loc []) c) (seq 0 (length loc))))%Q /\ length cl = 2.
Proof.
  intros Hk (prev & Hne & Hlk & Hu & Ecl & Ece) H1 Hc. specialize (Hu I).
  pose proof (assign_length sqdist loc prev) as Hal. rewrite <- Ecl in Hal.
  destruct prev as [|a [|b [|? ?]]]; simpl in Hal, Hlk; try lia; try congruence. assert (L2 : length cl = 2) by lia. split; [|exact L2].
  assert (La : length a = dim) by (apply Hu; simpl; auto). assert (Lb : length b = dim) by (apply Hu; simpl; auto).
  pose proof (assign_no_empty sqdist loc [a; b]) as Ne. rewrite <- Ecl in Ne.
  rewrite (assign_full loc sqdist [a; b]) in Ecl by (rewrite <- Ecl; exact L2). set (lab := fun i => argmin (map (sqdist (nth i loc [])) [a; b])) in Ecl.
  change (cl = [filter (fun i => lab i =? 0) (seq 0 (length loc)); filter (fun i => lab i =? 1) (seq 0 (length loc))]) in Ecl. 
  assert (Hlab : forall i, (lab i = 0 /\ (sqdist (nth i loc []) a <= sqdist (nth i loc []) b)%Q) \/ (lab i = 1 /\ (sqdist (nth i loc []) b < sqdist (nth i loc []) a)%Q)).
  { intros i. unfold lab. cbn [map argmin argmin_from]. destruct (Qltb (sqdist (nth i loc []) b) (sqdist (nth i loc []) a)) eqn:E; [right|left]; (split; [reflexivity|]); [apply Qltb_true in E|apply Qltb_false in E]; auto. }
  set (A := filter (fun i => lab i =? 0) (seq 0 (length loc))) in *. set (B := filter (fun i => lab i =? 1) (seq 0 (length loc))) in *.
  assert (NA : A <> []) by (rewrite Ecl in Ne; inversion Ne; auto). assert (NB : B <> []) by (rewrite Ecl in Ne; inversion Ne as [|? ? ? N2]; inversion N2; auto).
  assert (IA : forall i, In i A -> i < length loc /\ (sqdist (nth i loc []) a <= sqdist (nth i loc []) b)%Q).
  { intros i Hi. apply filter_In in Hi as [Hi E]. apply in_seq in Hi. apply Nat.eqb_eq in E. split; [lia|]. destruct (Hlab i) as [[_ H]|[E' _]]; [auto|lia]. }
  assert (IB : forall i, In i B -> i < length loc /\ (sqdist (nth i loc []) b < sqdist (nth i loc []) a)%Q).
  { intros i Hi. apply filter_In in Hi as [Hi E]. apply in_seq in Hi. apply Nat.eqb_eq in E. split; [lia|]. destruct (Hlab i) as [[E' _]|[_ H]]; [lia|auto]. }
  assert (Sum : forall f : nat -> Q, (qsum (map f (seq 0 (length loc))) == qsum (map f A) + qsum (map f B))%Q).
  { intros f. rewrite (qsum_filter_split f (fun i => lab i =? 0)). fold A. replace (filter (fun x => negb (lab x =? 0)) (seq 0 (length loc))) with B; [reflexivity|]. unfold B. apply filter_ext. intros i. destruct (Hlab i) as [[-> _]|[-> _]]; reflexivity. }
  rewrite Sum. subst ce. rewrite Ecl. unfold kmeans_update_centers. cbn [map cost]. fold dim. fold (pts A) (pts B).
  set (mA := mean_point dim (pts A)). set (mB := mean_point dim (pts B)).
  assert (VA : forall i, In i A -> i < length loc) by (intros i Hi; apply IA; auto). assert (VB : forall i, In i B -> i < length loc) by (intros i Hi; apply IB; auto).
  pose proof (decomposition A c NA VA Hc) as DA. pose proof (decomposition B c NB VB Hc) as DB. fold mA in DA. fold mB in DB. rewrite DA, DB.
  pose proof (sqdist_nonneg c mA) as PA. pose proof (sqdist_nonneg c mB) as PB. pose proof (posQ A NA) as QA. pose proof (posQ B NB) as QB.
  pose proof (Qmult_le_0_compat _ _ PA (Qlt_le_weak _ _ QA)) as RA. pose proof (Qmult_le_0_compat _ _ PB (Qlt_le_weak _ _ QB)) as RB.
  destruct (Qlt_le_dec 0 (sqdist c mA)) as [HA|HA]; [pose proof (Qmult_lt_0_compat _ _ HA QA); lra|]. destruct (Qlt_le_dec 0 (sqdist c mB)) as [HB|HB]; [pose proof (Qmult_lt_0_compat _ _ HB QB); lra|]. exfalso.
  assert (LmA : length mA = dim) by (unfold mA, mean_point; now rewrite map_length, seq_length). assert (LmB : length mB = dim) by (unfold mB, mean_point; now rewrite map_length, seq_length).
  assert (EA : peq c mA) by (apply sqdist_zero; [congruence|lra]). assert (EB : peq c mB) by (apply sqdist_zero; [congruence|lra]).
  pose proof (decomposition A a NA VA La) as D1. pose proof (decomposition A b NA VA Lb) as D2. pose proof (decomposition B a NB VB La) as D3. pose proof (decomposition B b NB VB Lb) as D4. fold mA in D1, D2. fold mB in D3, D4.
  rewrite <- (sqdist_peq_r a c mA EA) in D1. rewrite <- (sqdist_peq_r b c mA EA) in D2. rewrite <- (sqdist_peq_r a c mB EB) in D3. rewrite <- (sqdist_peq_r b c mB EB) in D4.
  assert (SA : (qsum (map (fun i => sqdist (nth i loc []) a) A) <= qsum (map (fun i => sqdist (nth i loc []) b) A))%Q) by (apply qsum_le; intros i Hi; apply IA; auto).
  assert (SB : (qsum (map (fun i => sqdist (nth i loc []) b) B) < qsum (map (fun i => sqdist (nth i loc []) a) B))%Q).
  { destruct B as [|x B'] eqn:EBx; [congruence|]. rewrite <- EBx in *. apply (qsum_lt _ _ _ x); [rewrite EBx; left; auto|intros i Hi; apply Qlt_le_weak, IB; auto|apply IB; rewrite EBx; left; auto]. }
  rewrite D1, D2 in SA. rewrite D3, D4 in SB. assert (H3 : (sqdist a c <= sqdist b c)%Q) by (apply (Qmult_le_r _ _ _ QA); lra). assert (H4 : (sqdist b c < sqdist a c)%Q) by (apply (Qmult_lt_r _ _ _ QB); lra). lra.
Qed.
End Split.

(** * refinement of a clustering *)
Lemma cost_app metric data a ca b cb : length a = length ca -> (cost metric data (a ++ b) (ca ++ cb) == cost metric data a ca + cost metric data b cb)%Q.
Proof. revert ca. induction a as [|g a IH]; intros [|c ca] H; simpl in *; try lia; [ring|]. rewrite IH by lia. ring. Qed.

Lemma cost_select data g cl ce : (forall h, In h cl -> forall i, In i h -> i < length g) ->
  (cost sqdist (select data g) cl ce == cost sqdist data (to_global cl g) ce)%Q.
Proof.
  revert ce. induction cl as [|h cl IH]; intros ce H; destruct ce as [|c ce]; cbn [cost to_global map]; try reflexivity.
  fold (to_global cl g). rewrite IH by (intros; eapply H; [right|]; eauto). apply Qplus_inj_r. rewrite map_map. apply qsum_ext. intros i Hi.
  unfold select. assert (Hg : i < length g) by (apply (H h); [left; auto|auto]). rewrite (nth_indep _ [] (nth 0 data [])) by (rewrite map_length; auto). rewrite (map_nth (fun i => nth i data [])). reflexivity.
Qed.

Lemma map_nth_seq (g : list nat) : map (fun i => nth i g 0) (seq 0 (length g)) = g.
Proof.
  apply nth_ext with (d := 0) (d' := 0); [now rewrite map_length, seq_length|]. intros j Hj. rewrite map_length, seq_length in Hj. rewrite nth_map_seq0 by auto. reflexivity.
Qed.

Lemma concat_map_map (f : nat -> nat) cl : concat (map (map f) cl) = map f (concat cl).
Proof. induction cl as [|g cl IH]; simpl; auto. now rewrite IH, map_app. Qed.

Lemma to_global_perm cl g : partitions (length g) cl -> Permutation (concat (to_global cl g)) g.
Proof.
  intros P. unfold to_global. rewrite concat_map_map. pose proof (Permutation_map (fun i => nth i g 0) P) as H. rewrite map_nth_seq in H. exact H.
Qed.

Lemma partition_index n cl : partitions n cl -> forall h, In h cl -> forall i, In i h -> i < n.
Proof. intros P h Hh i Hi. assert (In i (seq 0 n)); [|apply in_seq in H; lia]. eapply Permutation_in; [exact P|]. apply in_concat. eauto. Qed.

Section Refine.
Variable tol : Q.
Variable seeds : nat -> nat -> nat -> list nat.
Hypothesis seeds_ok : good_seeds seeds.
Variable data : list point.
Hypothesis data_dim : uniform (dimension data) data.
Hypothesis tol_ok : (0 <= tol)%Q.
Variable repeats : nat.
Let dim := dimension data.

Definition valid (g : list nat) : Prop := g <> [] /\ forall i, In i g -> i < length data.

Lemma select_dim g : valid g -> dimension (select data g) = dim /\ uniform dim (select data g) /\ length (select data g) = length g.
Proof.
  intros [Hne Hi]. assert (U : uniform dim (select data g)) by (intros p Hp; apply in_map_iff in Hp as (i & <- & Hig); apply data_dim, nth_In, Hi, Hig).
  split; [|split; [exact U|apply map_length]]. unfold dimension at 1. apply U. apply nth_In. unfold select. rewrite map_length. destruct g; [congruence|simpl; lia].
Qed.

(** a two-cluster solution on the points of a cluster *)
Lemma run_split g c s : valid g -> length c = dim -> from_run sqdist tol (select data g) 2 s -> let '(cl, ce, _) := s in
  length ce = length cl /\ (1 < length cl -> length cl = 2 /\ uniform dim ce /\ Permutation (concat (to_global cl g)) g /\
    (cost sqdist data (to_global cl g) ce < qsum (map (fun i => sqdist (nth i data []) c) g))%Q).
Proof.
  intros Hv Hc (idx & Li & Hidx & Ek). destruct s as [[cl ce] w]. destruct (select_dim g Hv) as (Ed & Eu & El).
  assert (Ui : uniform dim (select (select data g) idx)) by (intros p Hp; apply in_map_iff in Hp as (i & <- & Hig); apply Eu, nth_In, Hidx, Hig).
  pose proof (process_lloyd _ _ _ _ _ _ _ _ (le_n_S _ _ (Nat.le_0_l 99)) Ek) as L. rewrite Ed in L.
  assert (L2 : length (select (select data g) idx) = 2) by (unfold select at 1; rewrite map_length; exact Li). rewrite L2 in L.
  assert (L' : lloyd sqdist (select data g) True 2 cl ce).
  { destruct L as (prev & a1 & a2 & a3 & a4 & a5). exists prev. split; [exact a1|]. split; [exact a2|]. split; [intros _; apply a3; exact Ui|]. split; [exact a4|exact a5]. }
  destruct (lloyd_ok _ _ _ _ _ _ L) as (P & Ne & Le & Lk & U). split; [exact Le|]. intros H1.
  destruct (split_strict (select data g) ltac:(rewrite Ed; exact Eu) cl ce c 2 (le_n _) L' H1 ltac:(rewrite Ed; exact Hc)) as [S S2]. split; [exact S2|]. split; [rewrite Ed in U; exact U|].
  rewrite El in P. split; [apply to_global_perm; exact P|]. rewrite <- cost_select by (apply partition_index; exact P). eapply Qlt_le_trans; [exact S|]. apply Qle_lteq. right. rewrite El.
  rewrite <- (f_equal (map (fun i => sqdist (nth i data []) c)) (map_nth_seq g)). rewrite map_map. apply qsum_ext. intros i Hi. apply in_seq in Hi. unfold select. rewrite (nth_indep _ [] (nth 0 data [])) by (rewrite map_length; lia). rewrite (map_nth (fun i => nth i data [])). reflexivity.
Qed.

Definition refines (cl : list (list nat)) (ce : list point) (a : list point) : Prop :=
  uniform dim a /\ exists cl', length cl' = length a /\ Permutation (concat cl') (concat cl) /\ (cost sqdist data cl' a <= cost sqdist data cl ce)%Q /\
    (length a <> length cl -> (cost sqdist data cl' a < cost sqdist data cl ce)%Q).

Lemma refines_keep g c cl ce a : length c = dim -> length cl <= length a -> refines cl ce a -> refines (g :: cl) (c :: ce) (c :: a).
Proof.
  intros Hc Hl (U & cl' & L & P & C & S). split; [intros p [<-|Hp]; auto|]. exists (g :: cl'). split; [simpl; lia|]. split; [simpl; apply Permutation_app_head; exact P|]. cbn [cost]. split; [lra|]. intros H. simpl in H. assert (length a <> length cl) by lia. specialize (S H0). lra.
Qed.
Lemma refines_split g h ch c cl ce a : length h = 2 -> length ch = length h -> uniform dim ch -> Permutation (concat h) g -> (cost sqdist data h ch < qsum (map (fun i => sqdist (nth i data []) c) g))%Q -> length cl <= length a -> refines cl ce a -> refines (g :: cl) (c :: ce) (ch ++ a).
Proof.
  intros L2 Lc Uc P S Hl (U & cl' & L & P' & C & S'). split; [intros p Hp; apply in_app_iff in Hp as [Hp|Hp]; auto|]. exists (h ++ cl'). split; [rewrite !app_length; lia|]. split; [rewrite concat_app; simpl; apply Permutation_app; auto|].
  cbn [cost]. rewrite cost_app by lia. split; [lra|]. intros _. lra.
Qed.

(** ** X-means *)
Variable kmax : nat.
Variable split_require : list (list nat) -> list point -> list (list nat) -> list point -> bool.

Lemma children_total g pos : valid g -> repeats <> 0 -> exists cl ce pos', children sqdist tol seeds data repeats g pos = Ok (cl, ce, pos') /\
  (1 < length cl -> forall c, length c = dim -> length cl = 2 /\ length ce = 2 /\ uniform dim ce /\ Permutation (concat cl) g /\ (cost sqdist data cl ce < qsum (map (fun i => sqdist (nth i data []) c) g))%Q).
Proof.
  intros Hv Hr. unfold children. destruct (Nat.eqb_spec (length g) 1) as [E1|E1]; [exists [g], [], pos; split; [reflexivity|simpl; lia]|].
  destruct (select_dim g Hv) as (Ed & Eu & El). assert (L2 : 2 <= length g) by (destruct Hv as [Hne _]; destruct g as [|? [|? ?]]; simpl in *; try congruence; lia).
  destruct (search_total sqdist tol seeds seeds_ok false (select data g) 2 repeats tol_ok) with (pos := pos) (best := @None solution) as (r & Er & Hn).
  - split; [lia|]. rewrite El. exact L2.
  - rewrite Ed. exact Eu.
  - rewrite Er. cbn [bind]. destruct (fst r) as [s|] eqn:Es; [|exfalso; apply Hn; auto].
    pose proof (search_inv sqdist tol seeds seeds_ok false (select data g) 2 repeats (le_S _ _ (le_n _)) pos None r Er ltac:(discriminate) s Es) as F.
    destruct s as [[cl ce] w]. exists (to_global cl g), ce, (snd r). split; [reflexivity|]. unfold to_global at 1. rewrite map_length. intros H1 c Hc.
    destruct (run_split g c _ Hv Hc F) as (a1 & a2). destruct (a2 H1) as (b1 & b2 & b3 & b4). unfold to_global at 1. rewrite map_length. rewrite a1. auto.
Qed.

Lemma improve_total : repeats <> 0 -> forall cl ce free pos, Forall valid cl -> length ce = length cl -> uniform dim ce ->
  exists a, improve_structure sqdist tol seeds data repeats split_require cl ce free pos = Ok a /\ refines cl ce (fst a).
Proof.
  intros Hr. induction cl as [|g cl IH]; intros ce free pos Hv Hl Hu; cbn [improve_structure].
  - exists ([], pos). split; [reflexivity|]. split; [intros p []|]. exists []. destruct ce; [|discriminate]. split; [reflexivity|]. split; [constructor|]. simpl. split; [lra|intros H; congruence].
  - destruct ce as [|c ce]; [discriminate|]. cbn [hd tl]. inversion Hv as [|? ? Hg Hv']; subst. destruct (children_total g pos Hg Hr) as (h & ch & pos' & Ec & Hs). rewrite Ec. cbn [bind].
    match goal with |- context [if ?b then free - 1 else free] => set (sp := b) end.
    destruct (IH ce (if sp then free - 1 else free) pos' Hv' ltac:(simpl in Hl; lia) ltac:(intros p Hp; apply Hu; right; auto)) as (rest & Er & Rr). rewrite Er. cbn [bind]. eexists. split; [reflexivity|]. cbn [fst].
    pose proof (improve_bound _ _ _ _ _ _ _ _ _ _ _ Er) as Bd. assert (Hc : length c = dim) by (apply Hu; left; auto).
    destruct sp eqn:Esp; [|apply refines_keep; auto; lia].
    unfold sp in Esp. apply andb_true_iff in Esp as [Esp _]. apply andb_true_iff in Esp as [Esp _]. apply Nat.ltb_lt in Esp. destruct (Hs Esp c Hc) as (b1 & b2 & b3 & b4 & b5).
    assert (E2 : [nth 0 ch []; nth 1 ch []] = ch) by (destruct ch as [|x [|y [|? ?]]]; simpl in b2; try lia; reflexivity). rewrite E2. apply (refines_split g h ch); auto; lia.
Qed.

Hypothesis data_ne : data <> [].

(** the error of the best assignment to given centres *)
Definition error_of (ce : list point) : Q := qsum (map (best sqdist data ce) (seq 0 (length data))).
Definition own_error (cl : list (list nat)) : Q := cost sqdist data cl (kmeans_update_centers data cl).
Definition rank (K : nat) (v : Q) : nat := length (filter (fun cl => Qle_bool (own_error cl) v) (all_assignments (length data) K)).

Lemma filter_le {A} (f g : A -> bool) l : (forall x, f x = true -> g x = true) -> length (filter f l) <= length (filter g l).
Proof. intros H. induction l as [|x l IH]; simpl; auto. specialize (H x). destruct (f x); [rewrite H by auto; simpl; lia|destruct (g x); simpl; lia]. Qed.
Lemma filter_lt {A} (f g : A -> bool) l y : (forall x, f x = true -> g x = true) -> In y l -> f y = false -> g y = true -> length (filter f l) < length (filter g l).
Proof.
  intros H. induction l as [|x l IH]; intros Hi Hf Hg; [destruct Hi|]. destruct Hi as [ ->|Hy].
  - simpl. rewrite Hf, Hg. simpl. pose proof (filter_le f g l H). lia.
  - specialize (IH Hy Hf Hg). simpl. specialize (H x). destruct (f x); [rewrite H by auto; simpl; lia|destruct (g x); simpl; lia].
Qed.
Lemma rank_le K v w : (v <= w)%Q -> rank K v <= rank K w.
Proof. intros H. apply filter_le. intros x Hx. apply Qle_bool_iff in Hx. apply Qle_bool_iff. lra. Qed.
Lemma rank_lt K v w cl : In cl (all_assignments (length data) K) -> (v < own_error cl)%Q -> (own_error cl <= w)%Q -> rank K v < rank K w.
Proof.
  intros Hi H1 H2. apply (filter_lt _ _ _ cl); auto.
  - intros x Hx. apply Qle_bool_iff in Hx. apply Qle_bool_iff. lra.
  - destruct (Qle_bool (own_error cl) v) eqn:E; auto. apply Qle_bool_iff in E. lra.
  - apply Qle_bool_iff. exact H2.
Qed.
Lemma rank_bound K v : rank K v <= length (all_assignments (length data) K).
Proof. apply filter_length_le'. Qed.

Lemma kmeans_error ce cl ce' w : uniform dim ce -> kmeans_process sqdist data ce tol 100 = Ok (cl, ce', w) -> (cost sqdist data cl ce' <= error_of ce)%Q.
Proof.
  intros Hu Ek. rewrite <- (process_wce _ _ _ _ _ _ _ Ek). pose proof (kmeans_below_initial data data_ne data_dim ce tol 100 cl ce' w ltac:(lia) Hu Ek (fun i => argmin (map (sqdist (nth i data [])) ce))) as H.
  apply H. intros i Hi. apply argmin_nearest. apply kmeans_process_inv in Ek. tauto.
Qed.

Lemma refines_error cl ce a : partitions (length data) cl -> refines cl ce a -> (error_of a <= cost sqdist data cl ce)%Q /\ (length a <> length cl -> (error_of a < cost sqdist data cl ce)%Q).
Proof.
  intros P (U & cl' & L & P' & C & S). assert (Pr : partitions (length data) cl') by (unfold partitions in *; etransitivity; eauto).
  pose proof (cost_ge_best sqdist data cl' a Pr L) as B. fold (error_of a) in B. split; [lra|]. intros H. specialize (S H). lra.
Qed.

Lemma lloyd_valid U k cl ce : lloyd sqdist data U k cl ce -> Forall valid cl.
Proof.
  intros L. destruct (lloyd_ok _ _ _ _ _ _ L) as (P & Ne & _). apply Forall_forall. intros g Hg. split; [exact (proj1 (Forall_forall _ _) Ne g Hg)|]. apply (partition_index _ _ P g Hg).
Qed.
Lemma lloyd_error U k K cl ce : k <= K -> lloyd sqdist data U k cl ce -> In cl (all_assignments (length data) K) /\ ce = kmeans_update_centers data cl.
Proof. intros Hk (prev & Hne & Hl & _ & -> & ->). split; [apply assign_in_all; auto; lia|reflexivity]. Qed.

Lemma xmeans_loop_total : repeats <> 0 -> forall fuel ce pos, ce <> [] -> uniform dim ce -> length ce <= kmax -> rank kmax (error_of ce) * S kmax + length ce < fuel ->
  exists ce', xmeans_loop sqdist tol seeds data kmax repeats split_require fuel ce pos = Ok ce' /\ ce' <> [] /\ uniform dim ce'.
Proof.
  intros Hr. induction fuel as [|f IH]; intros ce pos Hne Hu Hk Hf; [lia|]. cbn [xmeans_loop]. destruct (Nat.leb_spec (length ce) kmax); [|lia].
  destruct (kmeans_total sqdist data ce tol 100 data_ne Hne tol_ok) as [k Ek]; [apply Hu, nth_In; destruct ce; [congruence|simpl; lia]|]. rewrite Ek. destruct k as [[cl ce1] w]. cbn [bind].
  pose proof (process_lloyd _ _ _ _ _ _ _ _ (le_n_S _ _ (Nat.le_0_l 99)) Ek) as L. destruct (lloyd_ok _ _ _ _ _ _ L) as (P & Ne & L1 & L2 & U1).
  destruct (improve_total Hr cl ce1 (kmax - length ce1) pos (lloyd_valid _ _ _ _ L) L1 U1) as (a & Ea & Ra). rewrite Ea. cbn [bind]. pose proof (improve_bound _ _ _ _ _ _ _ _ _ _ _ Ea) as Bd.
  assert (N1 : cl <> []) by (apply (partition_ne data data_ne); exact P).
  assert (N2 : ce1 <> []) by (destruct ce1; [destruct cl; [congruence|discriminate]|discriminate]).
  destruct (Nat.eqb_spec (length ce) (length (fst a))) as [El|El]; [exists ce1; auto|].
  destruct (refines_error cl ce1 (fst a) P Ra) as [R1 R2]. pose proof (kmeans_error ce cl ce1 w Hu Ek) as K1. destruct (lloyd_error _ _ kmax _ _ Hk L) as [I1 I2].
  apply IH; [destruct (fst a); [destruct cl; [congruence|simpl in Bd; lia]|discriminate]|apply Ra|lia|].
  destruct (Nat.eq_dec (length (fst a)) (length cl)) as [E|E].
  - assert (rank kmax (error_of (fst a)) <= rank kmax (error_of ce)) by (apply rank_le; lra). nia.
  - specialize (R2 E). assert (rank kmax (error_of (fst a)) < rank kmax (error_of ce)).
    { apply (rank_lt _ _ _ cl I1); unfold own_error; rewrite <- I2; [exact R2|exact K1]. } nia.
Qed.

Theorem xmeans_finishes initial : repeats <> 0 -> initial <> [] -> uniform dim initial ->
  forall fuel, length (all_assignments (length data) kmax) * S kmax + kmax < fuel -> exists r, xmeans_process sqdist tol seeds data kmax repeats split_require initial fuel = Ok r.
Proof.
  intros Hr Hne Hu fuel Hf. unfold xmeans_process. destruct (Nat.eqb_spec (length data) 0) as [Z|_]; [destruct data; [congruence|discriminate]|]. destruct (Nat.eqb_spec (length initial) 0) as [Z|_]; [destruct initial; [congruence|discriminate]|].
  destruct (Qltb tol 0) eqn:Et; [apply Qltb_true in Et; lra|]. destruct (Nat.eqb_spec repeats 0); [congruence|].
  assert (T : exists ce', xmeans_loop sqdist tol seeds data kmax repeats split_require fuel initial 0 = Ok ce' /\ ce' <> [] /\ uniform dim ce').
  { destruct (Nat.leb_spec (length initial) kmax) as [H|H].
    - apply xmeans_loop_total; auto. pose proof (rank_bound kmax (error_of initial)). nia.
    - destruct fuel as [|f]; [lia|]. cbn [xmeans_loop]. destruct (Nat.leb_spec (length initial) kmax); [lia|]. eauto. }
  destruct T as (ce & -> & N & U). cbn [bind]. apply kmeans_total; auto. apply U, nth_In. destruct ce; [congruence|simpl; lia].
Qed.

(** ** G-means *)
Variable k_max : option nat.
Variable is_null : list point -> list point -> bool.
Notation stat := (statistical_optimization tol seeds data repeats k_max is_null).

Lemma stat_bound : forall cl ce potential pos a, Forall valid cl -> length ce = length cl -> uniform dim ce -> stat cl ce potential pos = Ok a ->
  refines cl ce (fst a) /\ length cl <= length (fst a) <= 2 * length cl /\ (forall m, k_max = Some m -> potential <= m -> length (fst a) + potential <= length cl + m) /\ (length (fst a) = length cl -> fst a = ce).
Proof.
  induction cl as [|g cl IH]; intros ce potential pos a Hv Hl Hu E; cbn [statistical_optimization] in E.
  - apply Ok_inj in E. subst a. destruct ce; [|discriminate]. cbn [fst]. split; [|split; [simpl; lia|split; [simpl; intros; lia|auto]]]. split; [intros p []|]. exists []. split; [reflexivity|]. split; [constructor|]. simpl. split; [lra|intros H; congruence].
  - destruct ce as [|c ce]; [discriminate|]. cbn [hd tl] in E. inversion Hv as [|? ? Hg Hv']; subst.
    assert (Hc : length c = dim) by (apply Hu; left; auto). assert (Hu' : uniform dim ce) by (intros p Hp; apply Hu; right; auto). assert (Hl' : length ce = length cl) by (simpl in Hl; lia).
    destruct (split_and_search tol seeds data repeats is_null g pos) as [s|] eqn:Es; [|discriminate]. cbn [bind] in E.
    assert (Keep : forall pot pos' rest, stat cl ce pot pos' = Ok rest -> pot = potential -> a = (c :: fst rest, snd rest) ->
       refines (g :: cl) (c :: ce) (fst a) /\ length (g :: cl) <= length (fst a) <= 2 * length (g :: cl) /\ (forall m, k_max = Some m -> potential <= m -> length (fst a) + potential <= length (g :: cl) + m) /\ (length (fst a) = length (g :: cl) -> fst a = c :: ce)).
    { intros pot pos' rest Er -> ->. destruct (IH _ _ _ _ Hv' Hl' Hu' Er) as (R & B & M & K). cbn [fst]. split; [apply refines_keep; auto; lia|]. split; [simpl; lia|]. split; [intros m Hm Hp; specialize (M m Hm Hp); simpl; lia|]. simpl. intros H. rewrite K by lia. reflexivity. }
    destruct (if full k_max potential then None else fst s) as [new|] eqn:En.
    + destruct (stat cl ce (S potential) (snd s)) as [rest|] eqn:Er; [|discriminate]. cbn [bind] in E. apply Ok_inj in E. subst a. cbn [fst].
      destruct (full k_max potential) eqn:Ef; [discriminate|].
      destruct (IH _ _ _ _ Hv' Hl' Hu' Er) as (R & B & M & K).
      unfold split_and_search in Es. destruct (length g =? 1); [apply Ok_inj in Es; subst s; discriminate|].
      destruct (search_optimal sqdist tol seeds true (select data g) 2 repeats pos None) as [r|] eqn:Esr; [|discriminate]. cbn [bind] in Es.
      destruct (fst r) as [[[h ch] w]|] eqn:Ef'.
      2:{ cbn [length Nat.ltb Nat.leb andb] in Es. apply Ok_inj in Es. subst s. discriminate. }
      destruct (run_split g c (h, ch, w) Hg Hc) as (a1 & a2); [eapply search_inv; [exact seeds_ok| |exact Esr|discriminate|exact Ef']; lia|].
      match type of Es with (if ?b then _ else _) = _ => destruct b eqn:Eb end; apply Ok_inj in Es; subst s; [|discriminate]. cbn [fst] in En. injection En as <-.
      apply andb_true_iff in Eb as [Eb _]. apply Nat.ltb_lt in Eb. rewrite a1 in Eb. destruct (a2 Eb) as (b1 & b2 & b3 & b4).
      split; [apply (refines_split g (to_global h g) ch); auto; [unfold to_global; rewrite map_length; auto|unfold to_global; rewrite map_length; auto|lia]|].
      rewrite app_length, a1, b1. split; [simpl; lia|]. split; [|simpl; lia]. intros m Hm Hp. unfold full in Ef. rewrite Hm in Ef. apply Nat.leb_gt in Ef. specialize (M m Hm ltac:(lia)). simpl. lia.
    + destruct (stat cl ce potential (snd s)) as [rest|] eqn:Er; [|discriminate]. cbn [bind] in E. apply Ok_inj in E. subst a. eapply Keep; eauto.
Qed.

Lemma stat_total : forall cl ce potential pos, Forall valid cl -> exists a, stat cl ce potential pos = Ok a.
Proof.
  induction cl as [|g cl IH]; intros ce potential pos Hv; cbn [statistical_optimization]; [eauto|]. inversion Hv as [|? ? Hg Hv']; subst.
  assert (T : exists s, split_and_search tol seeds data repeats is_null g pos = Ok s).
  { unfold split_and_search. destruct (Nat.eqb_spec (length g) 1); [eauto|]. destruct (select_dim g Hg) as (Ed & Eu & El). assert (L2 : 2 <= length g) by (destruct Hg as [Hne _]; destruct g as [|? [|? ?]]; simpl in *; try congruence; lia).
    destruct (search_total sqdist tol seeds seeds_ok true (select data g) 2 repeats tol_ok) with (pos := pos) (best := @None solution) as (r & Er & _); [split; [lia|rewrite El; exact L2]|rewrite Ed; exact Eu|]. rewrite Er. cbn [bind]. match goal with |- context [if ?b then _ else _] => destruct b end; eauto. }
  destruct T as (s & ->). cbn [bind]. destruct (if full k_max potential then None else fst s).
  - destruct (IH (tl ce) (S potential) (snd s) Hv') as (r & ->). cbn [bind]. eauto.
  - destruct (IH (tl ce) potential (snd s) Hv') as (r & ->). cbn [bind]. eauto.
Qed.

(** what the fields mean in the loop *)
Definition gstate (K : nat) (cl : list (list nat)) (ce : list point) : Prop :=
  lloyd sqdist data True K cl ce /\ forall m, k_max = Some m -> length cl <= m.

Lemma gmeans_loop_spec : forall fuel cl ce w pos K r, gstate K cl ce -> gmeans_loop tol seeds data repeats k_max is_null fuel cl ce w pos = Ok r ->
  (exists K', gstate K' (fst (fst r)) (snd (fst r))) /\ (r = (cl, ce, w) \/ (snd r == cost sqdist data (fst (fst r)) (snd (fst r)))%Q).
Proof.
  induction fuel as [|f IH]; intros cl ce w pos K r [L M] E; cbn [gmeans_loop] in E; [discriminate|].
  destruct (full k_max (length cl)); [apply Ok_inj in E; subst r; split; [exists K; split; auto|left; reflexivity]|].
  destruct (lloyd_ok _ _ _ _ _ _ L) as (P & Ne & L1 & L2 & U1).
  destruct (stat cl ce (length cl) pos) as [a|] eqn:Ea; [|discriminate]. cbn [bind] in E.
  destruct (stat_bound _ _ _ _ _ (lloyd_valid _ _ _ _ L) L1 U1 Ea) as (R & B & Mx & Kp).
  destruct (Nat.eqb_spec (length cl) (length (fst a))) as [El|El].
  - apply Ok_inj in E. subst r. rewrite Kp by lia. split; [exists K; split; auto|left; reflexivity].
  - destruct (kmeans_process sqdist data (fst a) tol 100) as [[[cl' ce'] w']|] eqn:Ek; [|discriminate]. cbn [bind] in E.
    pose proof (process_lloyd _ _ _ _ _ _ _ _ (le_n_S _ _ (Nat.le_0_l 99)) Ek) as Lk.
    assert (G : gstate (length (fst a)) cl' ce').
    { split; [|intros m Hm; specialize (Mx m Hm (M m Hm)); destruct (lloyd_ok _ _ _ _ _ _ Lk) as (_ & _ & _ & L4 & _); lia].
      destruct Lk as (prev & a1 & a2 & a3 & a4 & a5). exists prev. split; [exact a1|]. split; [exact a2|]. split; [intros _; apply a3; apply R|]. split; [exact a4|exact a5]. }
    destruct (IH _ _ _ _ _ _ G E) as [H1 H2]. split; [exact H1|]. right. destruct H2 as [->|H2]; [|exact H2]. cbn [fst snd]. apply (process_wce _ _ _ _ _ _ _ Ek).
Qed.

Lemma gmeans_loop_total : forall fuel cl ce w pos K, gstate K cl ce -> K <= 2 * length data -> rank (2 * length data) (cost sqdist data cl ce) < fuel -> exists r, gmeans_loop tol seeds data repeats k_max is_null fuel cl ce w pos = Ok r.
Proof.
  induction fuel as [|f IH]; intros cl ce w pos K [L M] HK Hf; [lia|]. cbn [gmeans_loop]. destruct (full k_max (length cl)); [eauto|].
  destruct (lloyd_ok _ _ _ _ _ _ L) as (P & Ne & L1 & L2 & U1).
  destruct (stat_total cl ce (length cl) pos (lloyd_valid _ _ _ _ L)) as [a Ea]. rewrite Ea. cbn [bind].
  destruct (stat_bound _ _ _ _ _ (lloyd_valid _ _ _ _ L) L1 U1 Ea) as (R & B & Mx & Kp).
  destruct (Nat.eqb_spec (length cl) (length (fst a))) as [El|El]; [eauto|].
  assert (N1 : cl <> []) by (apply (partition_ne data data_ne); exact P).
  assert (N2 : fst a <> []) by (intros Z; rewrite Z in B; destruct cl; [congruence|simpl in B; lia]).
  destruct (kmeans_total sqdist data (fst a) tol 100 data_ne N2 tol_ok) as [k Ek]; [apply R, nth_In; destruct (fst a); [congruence|simpl; lia]|]. rewrite Ek. destruct k as [[cl' ce'] w']. cbn [bind].
  pose proof (process_lloyd _ _ _ _ _ _ _ _ (le_n_S _ _ (Nat.le_0_l 99)) Ek) as Lk.
  assert (G : gstate (length (fst a)) cl' ce').
  { split; [|intros m Hm; specialize (Mx m Hm (M m Hm)); destruct (lloyd_ok _ _ _ _ _ _ Lk) as (_ & _ & _ & L4 & _); lia].
    destruct Lk as (prev & a1 & a2 & a3 & a4 & a5). exists prev. split; [exact a1|]. split; [exact a2|]. split; [intros _; apply a3; apply R|]. split; [exact a4|exact a5]. }
  assert (Ln : length cl <= length data).
  { assert (forall l : list (list nat), no_empty l -> length l <= length (concat l)) as Hc by (induction l as [|x l IHl]; intros Hn; simpl; [lia|]; inversion Hn; subst; rewrite app_length; specialize (IHl ltac:(assumption)); destruct x; [congruence|simpl; lia]).
    specialize (Hc cl Ne). pose proof (Permutation_length P) as Pl. rewrite seq_length in Pl. lia. }
  apply (IH _ _ _ _ _ G ltac:(lia)). destruct (refines_error cl ce (fst a) P R) as [_ R2]. specialize (R2 ltac:(lia)). pose proof (kmeans_error (fst a) cl' ce' w' (proj1 R) Ek) as K1.
  destruct (lloyd_error _ _ _ _ _ HK L) as [I1 I2].
  assert (Hlt : rank (2 * length data) (cost sqdist data cl' ce') < rank (2 * length data) (cost sqdist data cl ce)) by (apply (rank_lt _ _ _ cl I1); unfold own_error; rewrite <- I2; lra).
  lia.
Qed.

Lemma lloyd_kmeans_ok U k cl ce : lloyd sqdist data U k cl ce -> kmeans_ok data (length cl) cl ce.
Proof.
  intros (prev & Hne & Hl & _ & -> & ->). pose proof (kmeans_step_ok sqdist data k prev Hne Hl) as (a1 & a2 & a3 & a4 & a5). rewrite !kmeans_assign in *. split; [exact a1|]. split; [exact a2|]. split; [exact a3|]. split; [lia|exact a5].
Qed.

Lemma from_run_state k_init s : from_run sqdist tol data k_init s -> (forall m, k_max = Some m -> k_init <= m) -> gstate k_init (fst (fst s)) (snd (fst s)).
Proof.
  intros (idx & Li & Hi & E) Hm. destruct s as [[cl ce] w]. cbn [fst snd]. pose proof (process_lloyd _ _ _ _ _ _ _ _ (le_n_S _ _ (Nat.le_0_l 99)) E) as L.
  assert (Ls : length (select data idx) = k_init) by (unfold select; rewrite map_length; exact Li). rewrite Ls in L.
  split.
  - destruct L as (prev & a1 & a2 & a3 & a4 & a5). exists prev. split; [exact a1|]. split; [exact a2|]. split; [|split; [exact a4|exact a5]]. intros _. apply a3. intros p Hp. apply in_map_iff in Hp as (i & <- & Hig). apply data_dim, nth_In, Hi, Hig.
  - intros m Em. specialize (Hm m Em). destruct (lloyd_ok _ _ _ _ _ _ L) as (_ & _ & _ & L2 & _). lia.
Qed.

Lemma gmeans_start k_init fuel r : gmeans_process tol seeds data k_init repeats k_max is_null fuel = r -> r <> Raise ValueError -> 1 <= k_init /\ (forall m, k_max = Some m -> k_init <= m) /\
  r = (do s <- search_optimal sqdist tol seeds true data k_init repeats 0 None; match fst s with None => gmeans_loop tol seeds data repeats k_max is_null fuel [] [] 0%Q (snd s) | Some (cl, ce, _) => gmeans_loop tol seeds data repeats k_max is_null fuel cl ce 0%Q (snd s) end).
Proof.
  unfold gmeans_process. intros E Hr. destruct (length data =? 0); [congruence|]. destruct (Nat.eqb_spec k_init 0); [congruence|]. destruct (Qle_bool tol 0); [congruence|]. destruct (repeats =? 0); [congruence|].
  destruct k_max as [m|]; [destruct (Nat.eqb_spec m 0); [cbn [orb] in E; congruence|]; destruct (Nat.ltb_spec m k_init); [cbn [orb] in E; congruence|]; cbn [orb] in E|].
  - split; [lia|]. split; [intros m' [= <-]; lia|]. auto.
  - split; [lia|]. split; [discriminate|]. auto.
Qed.

(** the error reported is right unless no clustering was performed in the loop: then it is 0 *)
Theorem gmeans_spec k_init fuel clusters centers wce : repeats <> 0 -> gmeans_process tol seeds data k_init repeats k_max is_null fuel = Ok (clusters, centers, wce) ->
  kmeans_ok data (length clusters) clusters centers /\ (forall m, k_max = Some m -> length clusters <= m) /\
  ((wce == cost sqdist data clusters centers)%Q \/ (wce = 0%Q /\ exists w, from_run sqdist tol data k_init (clusters, centers, w))).
Proof.
  intros Hr E. destruct (gmeans_start k_init fuel _ E ltac:(discriminate)) as (Hk & Hm & Es).
  destruct (search_optimal sqdist tol seeds true data k_init repeats 0 None) as [s|] eqn:Esr; [|discriminate]. cbn [bind] in Es.
  assert (Hsome : fst s <> None).
  { destruct (Nat.ltb_spec (length data) k_init) as [Hlt|Hle].
    - destruct repeats as [|rr]; [congruence|]. cbn [search_optimal] in Esr. destruct (Nat.ltb_spec (length data) k_init); [discriminate|lia].
    - destruct (search_total sqdist tol seeds seeds_ok true data k_init repeats tol_ok (conj Hk Hle) data_dim 0 None) as (r & Er & Hn). rewrite Er in Esr. apply Ok_inj in Esr. subst s. apply Hn. auto. }
  destruct (fst s) as [[[cl ce] w]|] eqn:Ef; [|congruence].
  assert (F : from_run sqdist tol data k_init (cl, ce, w)) by (eapply search_inv; [exact seeds_ok|exact Hk|exact Esr|discriminate|exact Ef]).
  pose proof (from_run_state k_init _ F Hm) as G. cbn [fst snd] in G. symmetry in Es. destruct (gmeans_loop_spec _ _ _ _ _ _ _ G Es) as [[K' [L M]] W]. cbn [fst snd] in *.
  split; [apply (lloyd_kmeans_ok _ _ _ _ L)|]. split; [exact M|]. destruct W as [W|W]; [|left; exact W]. injection W as -> -> ->. right. eauto.
Qed.

Theorem gmeans_finishes k_init : repeats <> 0 -> (0 < tol)%Q -> 1 <= k_init <= length data -> (forall m, k_max = Some m -> k_init <= m) ->
  forall fuel, length (all_assignments (length data) (2 * length data)) < fuel -> exists r, gmeans_process tol seeds data k_init repeats k_max is_null fuel = Ok r.
Proof.
  intros Hr Ht Hk Hm fuel Hf. unfold gmeans_process. destruct (Nat.eqb_spec (length data) 0); [lia|]. destruct (Nat.eqb_spec k_init 0); [lia|]. destruct (Qle_bool tol 0) eqn:Et; [apply Qle_bool_iff in Et; lra|]. destruct (Nat.eqb_spec repeats 0); [congruence|].
  assert (Ev : match k_max with None => false | Some m => (m =? 0) || (m <? k_init) end = false).
  { destruct k_max as [m|]; auto. specialize (Hm m eq_refl). destruct (Nat.eqb_spec m 0); [lia|]. destruct (Nat.ltb_spec m k_init); [lia|]. reflexivity. }
  rewrite Ev. destruct (search_total sqdist tol seeds seeds_ok true data k_init repeats tol_ok Hk data_dim 0 None) as (s & Es & Hn). rewrite Es. cbn [bind]. specialize (Hn (or_introl Hr)). destruct (fst s) as [[[cl ce] w]|] eqn:Ef; [|congruence].
  assert (F : from_run sqdist tol data k_init (cl, ce, w)) by (eapply search_inv; [exact seeds_ok|apply Hk|exact Es|discriminate|exact Ef]).
  pose proof (from_run_state k_init _ F Hm) as G. cbn [fst snd] in G. eapply gmeans_loop_total; [exact G|lia|]. pose proof (rank_bound (2 * length data) (cost sqdist data cl ce)). lia.
Qed.
End Refine.

(** the run depends on the values of the criterion only *)
Section Ext.
Variable metric : point -> point -> Q.
Variable tol : Q.
Variable seeds : nat -> nat -> nat -> list nat.
Variable data : list point.
Variable kmax repeats : nat.
Variables sp sp' : list (list nat) -> list point -> list (list nat) -> list point -> bool.
Hypothesis same : forall a b c d, sp a b c d = sp' a b c d.
Lemma improve_ext cl : forall ce free pos, improve_structure metric tol seeds data repeats sp cl ce free pos = improve_structure metric tol seeds data repeats sp' cl ce free pos.
Proof.
  induction cl as [|g cl IH]; intros ce free pos; cbn [improve_structure]; auto. destruct (children metric tol seeds data repeats g pos) as [[[h ch] pos']|]; [|reflexivity]. cbn [bind]. rewrite same, IH. reflexivity.
Qed.
Lemma xmeans_ext initial fuel : xmeans_process metric tol seeds data kmax repeats sp initial fuel = xmeans_process metric tol seeds data kmax repeats sp' initial fuel.
Proof.
  unfold xmeans_process. assert (L : forall ce pos, xmeans_loop metric tol seeds data kmax repeats sp fuel ce pos = xmeans_loop metric tol seeds data kmax repeats sp' fuel ce pos); [|now rewrite L].
  induction fuel as [|f IH]; intros ce pos; cbn [xmeans_loop]; auto. destruct (length ce <=? kmax); auto. destruct (kmeans_process metric data ce tol 100) as [[[cl ce1] w]|]; [|reflexivity]. cbn [bind]. rewrite improve_ext.
  destruct (improve_structure metric tol seeds data repeats sp' cl ce1 (kmax - length ce1) pos); [|reflexivity]. cbn [bind]. rewrite IH. reflexivity.
Qed.
End Ext.
