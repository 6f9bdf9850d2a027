(** C273: X-means, G-means and the elbow method do not depend on the unit and the origin of the coordinates. *)
From Verif Require Import Base Kmeans_Model Kmeans_Proofs Cftree_Model Xmeans_Model Xmeans_Proofs Xcrit_Model Xcrit_Proofs Elbow_Model Gproj_Model Scaled_Proofs Unit_Props.
From Coq Require Import Reals Lra Lia Qreals.
Local Open Scope nat_scope.

(** ** specification *)
(** all indices are those of points *)
Definition indexes (n : nat) (clusters : list (list nat)) : Prop := forall g i, In g clusters -> In i g -> i < n.
(** a sample of numbers from another origin *)
Definition shifted (l l' : list Q) : Prop := exists k, Forall2 (fun a b => (b == a + k)%Q) l l'.
(** the choice of centres takes points of the data *)
Definition chosen_points (seeds : nat -> nat -> nat -> list nat) : Prop := forall pos n k, 1 <= k <= n -> length (seeds pos n k) = k /\ forall i, In i (seeds pos n k) -> i < n.

Section Unit.
Variables (s : Q) (v : point) (metric : point -> point -> Q) (m : Q).
Hypothesis Hs : (0 < s)%Q.
Hypothesis Hm : (0 < m)%Q.
Hypothesis Hmetric : forall p q p' q', moved s v p q -> moved s v p' q' -> (metric q q' == m * metric p p')%Q.
Notation mR := (Q2R m).

Lemma mR_pos : (0 < mR)%R.
Proof. pose proof (Qlt_Rlt _ _ Hm) as H. unfold Q2R at 1 in H. cbn in H. lra. Qed.

(** *** the criteria *)
Section Criteria.
Variables data data' : list point.
Hypothesis Hdata : Forall2 (moved s v) data data'.
Hypothesis Hne : data <> [].

Lemma wsum_times g c c' : (forall i, In i g -> i < length data) -> moved s v c c' -> times m (wsum metric data g c) (wsum metric data' g c').
Proof.
  intros Hg Hc. unfold wsum. apply times_sum. apply map_times. intros i Hi. apply Hmetric; [|exact Hc]. apply nth_moved; auto.
Qed.
Lemma wsums_times clusters : forall centers centers', indexes (length data) clusters -> Forall2 (moved s v) centers centers' -> Forall2 (times m) (wsums metric data clusters centers) (wsums metric data' clusters centers').
Proof.
  unfold wsums. induction clusters as [|g t IH]; intros centers centers' Hi H; cbn [combine map]; [constructor|]. destruct H as [|c c' l l' Hc Hl]; cbn [combine map]; constructor; cbn [fst snd].
  - apply wsum_times; [|exact Hc]. intros i Gi. apply (Hi g i); [left; reflexivity|exact Gi].
  - apply IH; [|exact Hl]. intros h i Hh. apply Hi. right. exact Hh.
Qed.
Lemma total_R clusters centers centers' : indexes (length data) clusters -> Forall2 (moved s v) centers centers' ->
  Q2R (sumQ (wsums metric data' clusters centers')) = (mR * Q2R (sumQ (wsums metric data clusters centers)))%R.
Proof. intros Hi H. pose proof (times_sum m _ _ (wsums_times clusters centers centers' Hi H)) as W. unfold times in W. rewrite (Qeq_eqR _ _ W). apply Q2R_mult. Qed.
Lemma same_dimension : dimension data' = dimension data.
Proof. destruct (dimension_v s v data data' Hdata Hne) as (-> & ->). reflexivity. Qed.

Definition lower (x : score) (y : R) : score := match x with Inf => Inf | Fin r => Fin (r - y) end.
Lemma score_times K N n dim sg : bic_score K N n dim (mR * sg) = lower (bic_score K N n dim sg) (INR n * (INR dim * (1 / 2) * ln mR)).
Proof.
  pose proof mR_pos as P. unfold bic_score. destruct (Rle_dec sg 0) as [H | H], (Rle_dec (mR * sg) 0) as [K' | K']; try reflexivity; try (exfalso; nra).
  cbn [lower]. f_equal. apply Rnot_le_lt in H. rewrite (ln_mult mR sg) by assumption. unfold Rdiv. ring.
Qed.
Lemma fold_lower (f f' : list nat -> score) y clusters : (forall g, f' g = lower (f g) (INR (length g) * y)) -> forall a b, fold_left sadd (map f' clusters) (lower a b) = lower (fold_left sadd (map f clusters) a) (b + INR (length (concat clusters)) * y).
Proof.
  intro H. induction clusters as [|g t IH]; intros a b; cbn [map fold_left concat].
  - cbn [length]. destruct a; cbn [lower]; [f_equal; cbn; ring|reflexivity].
  - rewrite H. assert (E : sadd (lower a b) (lower (f g) (INR (length g) * y)) = lower (sadd a (f g)) (b + INR (length g) * y)) by (destruct a, (f g); cbn; try reflexivity; f_equal; ring).
    rewrite E, IH. rewrite app_length, plus_INR. f_equal. ring.
Qed.
Lemma bic_times clusters centers centers' : indexes (length data) clusters -> Forall2 (moved s v) centers centers' ->
  bic metric data' clusters centers' = lower (bic metric data clusters centers) (INR (length (concat clusters)) * (INR (dimension data) * (1 / 2) * ln mR)).
Proof.
  intros Hi H. unfold bic. rewrite same_dimension. destruct (length clusters <? amount clusters).
  - rewrite (total_R clusters centers centers' Hi H). replace (mR * Q2R (sumQ (wsums metric data clusters centers)) / INR (amount clusters - length clusters))%R with (mR * (Q2R (sumQ (wsums metric data clusters centers)) / INR (amount clusters - length clusters)))%R by (unfold Rdiv; ring).
    replace (Fin 0) with (lower (Fin 0) 0) at 1 by (cbn; f_equal; ring).
    rewrite (fold_lower (fun g => bic_score (length clusters) (amount clusters) (length g) (dimension data) (Q2R (sumQ (wsums metric data clusters centers)) / INR (amount clusters - length clusters))) _ (INR (dimension data) * (1 / 2) * ln mR) clusters).
    + f_equal. ring.
    + intro g. apply score_times.
  - destruct clusters as [|g t]; cbn [map fold_left].
    + cbn. f_equal. ring.
    + assert (E : forall l : list (list nat), fold_left sadd (map (fun _ => Inf) l) Inf = Inf) by (induction l; cbn; auto). cbn [sadd]. rewrite E. reflexivity.
Qed.
Lemma slt_lower a b y : slt (lower a y) (lower b y) = slt a b.
Proof. destruct a as [x|], b as [z|]; cbn; try reflexivity. destruct (Rlt_dec (x - y) (z - y)), (Rlt_dec x z); try reflexivity; exfalso; lra. Qed.
Lemma bic_same pcl pce pce' ccl cce cce' : indexes (length data) pcl -> indexes (length data) ccl -> length (concat pcl) = length (concat ccl) -> Forall2 (moved s v) pce pce' -> Forall2 (moved s v) cce cce' ->
  split_bic metric data' pcl pce' ccl cce' = split_bic metric data pcl pce ccl cce.
Proof. intros I1 I2 L H1 H2. unfold split_bic. rewrite (bic_times pcl pce pce'), (bic_times ccl cce cce') by assumption. rewrite L. apply slt_lower. Qed.

Definition larger (x : score) : score := match x with Inf => Inf | Fin r => Fin (mR * r) end.
Lemma power_times x : half_power (mR * x) = match half_power x with Ok r => Ok (sqrt mR * r)%R | Raise e => Raise e end.
Proof.
  pose proof mR_pos as P. unfold half_power. destruct (Rle_dec 0 x) as [H | H], (Rle_dec 0 (mR * x)) as [K' | K']; try reflexivity; try (exfalso; nra).
  f_equal. apply sqrt_mult; lra.
Qed.
Lemma mean_times clusters : forall centers centers', indexes (length data) clusters -> Forall2 (moved s v) centers centers' ->
  Q2R (sumQ (map (fun gc => (wsum metric data' (fst gc) (snd gc) / inject_Z (Z.of_nat (length (fst gc))))%Q) (combine clusters centers'))) =
  (mR * Q2R (sumQ (map (fun gc => (wsum metric data (fst gc) (snd gc) / inject_Z (Z.of_nat (length (fst gc))))%Q) (combine clusters centers))))%R.
Proof.
  intros centers centers' Hi H. rewrite <- Q2R_mult. apply Qeq_eqR. apply times_sum. revert centers centers' H.
  induction clusters as [|g t IH]; intros centers centers' H; cbn [combine map]; [constructor|]. destruct H as [|c c' l l' Hc Hl]; cbn [combine map]; constructor; cbn [fst snd].
  - unfold times. assert (W : times m (wsum metric data g c) (wsum metric data' g c')) by (apply wsum_times; [intros i Gi; apply (Hi g i); [left; reflexivity|exact Gi]|exact Hc]). unfold times in W. rewrite W. unfold Qdiv. ring.
  - apply IH; [|exact Hl]. intros h i Hh. apply Hi. right. exact Hh.
Qed.
Lemma mndl_times alpha beta clusters centers centers' : indexes (length data) clusters -> Forall2 (moved s v) centers centers' ->
  mndl metric data' alpha beta clusters centers' = match mndl metric data alpha beta clusters centers with Ok x => Ok (larger x) | Raise e => Raise e end.
Proof.
  intros Hi H. unfold mndl. destruct (existsb (fun g : list nat => length g =? 0) clusters); [reflexivity|]. destruct (length clusters <? amount clusters); [|reflexivity].
  rewrite (mean_times clusters centers centers' Hi H), (total_R clusters centers centers' Hi H).
  set (T := Q2R (sumQ (wsums metric data clusters centers))). set (W := Q2R (sumQ (map _ _))). set (D := INR (amount clusters - length clusters)). set (N := INR (amount clusters)). set (K := INR (length clusters)).
  replace (mR * T / D)%R with (mR * (T / D))%R by (unfold Rdiv; ring). set (V := (T / D)%R). rewrite power_times. destruct (half_power V) as [sg|e]; [|reflexivity]. cbn [bind].
  replace (alpha * alpha * (mR * V) / N + mR * W - (1 - K / N) * (mR * V) / 2)%R with (mR * (alpha * alpha * V / N + W - (1 - K / N) * V / 2))%R by (unfold Rdiv; ring).
  rewrite power_times. destruct (half_power (alpha * alpha * V / N + W - (1 - K / N) * V / 2)) as [r|e]; [|reflexivity]. cbn [bind larger]. f_equal. f_equal.
  assert (Q0 : (sqrt mR * sqrt mR)%R = mR) by (apply sqrt_sqrt; pose proof mR_pos; lra).
  replace (2 * alpha * (sqrt mR * sg) / sqrt N * (sqrt mR * r))%R with (mR * (2 * alpha * sg / sqrt N * r))%R by (rewrite <- Q0 at 1; unfold Rdiv; ring). unfold Rdiv. ring.
Qed.
Lemma slt_larger a b : slt (larger a) (larger b) = slt a b.
Proof. pose proof mR_pos as P. destruct a as [x|], b as [z|]; cbn; try reflexivity. destruct (Rlt_dec (mR * x) (mR * z)), (Rlt_dec x z); try reflexivity; exfalso; nra. Qed.
Lemma mndl_same alpha beta pcl pce pce' ccl cce cce' : indexes (length data) pcl -> indexes (length data) ccl -> Forall2 (moved s v) pce pce' -> Forall2 (moved s v) cce cce' ->
  split_mndl metric data' alpha beta pcl pce' ccl cce' = split_mndl metric data alpha beta pcl pce ccl cce.
Proof.
  intros I1 I2 H1 H2. unfold split_mndl. rewrite (mndl_times alpha beta pcl pce pce'), (mndl_times alpha beta ccl cce cce') by assumption.
  destruct (mndl metric data alpha beta pcl pce) as [x|]; [|reflexivity]. cbn [bind]. destruct (mndl metric data alpha beta ccl cce) as [y|]; [|reflexivity]. cbn [bind]. now rewrite slt_larger.
Qed.
End Criteria.

(** *** the searches *)
Variables (tol tol' : Q) (seeds : nat -> nat -> nat -> list nat).
Hypothesis Htol : times m tol tol'.
Hypothesis Hseeds : chosen_points seeds.

Definition opt_same (a b : option solution) : Prop := match a, b with None, None => True | Some x, Some y => same_partition s m v x y | _, _ => False end.
Lemma select_moved data data' idx : Forall2 (moved s v) data data' -> (forall i, In i idx -> i < length data) -> Forall2 (moved s v) (select data idx) (select data' idx).
Proof. intros H Hi. unfold select. apply (points_moved s v data data' H). exact Hi. Qed.

Lemma search_same stop data data' k : Forall2 (moved s v) data data' -> 1 <= k -> forall reps pos best best', opt_same best best' ->
  same_run (fun r r' => opt_same (fst r) (fst r') /\ snd r' = snd r) (search_optimal metric tol seeds stop data k reps pos best) (search_optimal metric tol' seeds stop data' k reps pos best').
Proof.
  intros H Hk. induction reps as [|reps IH]; intros pos best best' B; cbn [search_optimal]; [cbn; auto|]. rewrite (both_length _ _ _ H).
  destruct (Nat.ltb_spec (length data) k) as [L | L]; [reflexivity|]. destruct (Hseeds pos (length data) k (conj Hk L)) as (S1 & S2).
  assert (Hne : data <> []) by (intros ->; cbn in L; lia). set (idx := seeds pos (length data) k) in *.
  pose proof (kmeans_same s v metric m Hm Hmetric data data' H Hne (select data idx) (select data' idx) tol tol' 100 Htol (select_moved data data' idx H S2)) as W.
  destruct (kmeans_process metric data (select data idx) tol 100) as [a|e], (kmeans_process metric data' (select data' idx) tol' 100) as [b|e']; cbn [same_run bind] in W |- *; try exact W; try (destruct W; fail).
  unfold select. rewrite !map_length, !S1.
  assert (B' : opt_same (match best with None => Some a | Some x => if Qltb (snd a) (snd x) then Some a else best end) (match best' with None => Some b | Some x => if Qltb (snd b) (snd x) then Some b else best' end)).
  { destruct best as [x|], best' as [y|]; cbn [opt_same] in B; try contradiction; [|exact W].
    assert (E : Qltb (snd b) (snd y) = Qltb (snd a) (snd x)). { apply (scale_ltb m Hm); unfold times; [destruct a as [[a1 a2] a3], b as [[b1 b2] b3]; apply W|destruct x as [[x1 x2] x3], y as [[y1 y2] y3]; apply B]. }
    rewrite E. destruct (Qltb (snd a) (snd x)); [exact W|exact B]. }
  destruct (stop && (k =? 1)); [cbn; auto|]. apply IH. exact B'.
Qed.

Section Data.
Variables data data' : list point.
Hypothesis Hdata : Forall2 (moved s v) data data'.
Hypothesis Hne : data <> [].

Lemma seeds_good : good_seeds seeds. Proof. exact Hseeds. Qed.
Lemma select_length (g : list nat) : length (select data g) = length g. Proof. apply map_length. Qed.

(** what the search over one cluster gives *)
Definition halves (g : list nat) (chcl : list (list nat)) (chce : list point) : Prop :=
  indexes (length data) chcl /\ (1 < length chcl -> length chcl = 2 /\ length chce = 2 /\ length (concat chcl) = length g).
Lemma run_halves g k cl ce w : k <= 2 -> valid data g -> from_run metric tol (select data g) k (cl, ce, w) -> halves g (to_global cl g) ce.
Proof.
  intros Hk (G1 & G2) (idx & I1 & I2 & E). apply process_lloyd, lloyd_ok in E; [|lia]. destruct E as (P & _ & L1 & L2 & _). rewrite select_length in P.
  assert (LS : length (select (select data g) idx) = k) by (unfold select at 1; rewrite map_length; exact I1). split.
  - intros h i Hh Hi. apply in_map_iff in Hh as (h0 & <- & Hh0). apply in_map_iff in Hi as (j & <- & Hj). apply G2, nth_In. eapply partition_index; eassumption.
  - unfold to_global at 1 2. rewrite map_length. intro L. unfold point in *. split; [lia|]. split; [lia|]. apply Permutation_length, to_global_perm. exact P.
Qed.
Lemma children_same repeats g pos : valid data g ->
  same_run (fun r r' => let '(cl, ce, p) := r in let '(cl', ce', p') := r' in cl' = cl /\ Forall2 (moved s v) ce ce' /\ p' = p /\ halves g cl ce)
    (children metric tol seeds data repeats g pos) (children metric tol' seeds data' repeats g pos).
Proof.
  intro Hg. unfold children. destruct (length g =? 1).
  - cbn [same_run]. repeat split; auto; [|cbn in *; lia..]. intros h i [<- | []] Hi. apply Hg. exact Hi.
  - pose proof (search_same false (select data g) (select data' g) 2 (select_moved data data' g Hdata (proj2 Hg)) ltac:(lia) repeats pos None None I) as W.
    pose proof (search_inv metric tol seeds seeds_good false (select data g) 2 repeats ltac:(lia) pos None) as V.
    destruct (search_optimal metric tol seeds false (select data g) 2 repeats pos None) as [[b p]|e], (search_optimal metric tol' seeds false (select data' g) 2 repeats pos None) as [[b' p']|e']; cbn [same_run bind] in W |- *; try exact W; try (destruct W; fail).
    cbn [fst snd] in W |- *. destruct W as (W & ->). destruct b as [[[cl ce] w]|], b' as [[[cl' ce'] w']|]; cbn [opt_same] in W; try contradiction; [|reflexivity].
    destruct W as (-> & W & _). cbn [same_run]. split; [reflexivity|]. split; [exact W|]. split; [reflexivity|]. apply (run_halves g 2 cl ce w); [lia|exact Hg|]. eapply V; [reflexivity| |reflexivity]. intros; discriminate.
Qed.

(** *** X-means *)
Variables sp sp' : list (list nat) -> list point -> list (list nat) -> list point -> bool.
Hypothesis Hsp : forall g c c' h1 h2 ce ce', valid data g -> indexes (length data) [h1; h2] -> length h1 + length h2 = length g -> length ce = 2 -> moved s v c c' -> Forall2 (moved s v) ce ce' ->
  sp' [g] [c'] [h1; h2] ce' = sp [g] [c] [h1; h2] ce.
Lemma improve_same repeats : forall clusters centers centers' free pos, (forall g, In g clusters -> valid data g) -> length centers = length clusters -> Forall2 (moved s v) centers centers' ->
  same_run (fun r r' => Forall2 (moved s v) (fst r) (fst r') /\ snd r' = snd r) (improve_structure metric tol seeds data repeats sp clusters centers free pos) (improve_structure metric tol' seeds data' repeats sp' clusters centers' free pos).
Proof.
  induction clusters as [|g gs IH]; intros centers centers' free pos Hv L H; cbn [improve_structure]; [cbn; auto|].
  destruct H as [|c c' l l' Hc Hl]; [discriminate|]. cbn [hd tl]. cbn [length] in L.
  pose proof (children_same repeats g pos (Hv g (or_introl eq_refl))) as W.
  destruct (children metric tol seeds data repeats g pos) as [[[cl ce] p]|e], (children metric tol' seeds data' repeats g pos) as [[[cl' ce'] p']|e']; cbn [same_run bind] in W |- *; try exact W; try (destruct W; fail).
  destruct W as (-> & W & -> & W1 & W2).
  assert (E : (1 <? length cl) && sp' [g] (@cons (list Q) c' nil) [nth 0 cl []; nth 1 cl []] ce' && (0 <? free) = (1 <? length cl) && sp [g] (@cons (list Q) c nil) [nth 0 cl []; nth 1 cl []] ce && (0 <? free)).
  { destruct (Nat.ltb_spec 1 (length cl)) as [L1 | L1]; [|reflexivity]. destruct (W2 L1) as (A1 & A2 & A3). f_equal. f_equal. destruct cl as [|h1 [|h2 [|h3 t]]]; try discriminate. cbn [nth]. apply Hsp; auto.
    - apply Hv. left. reflexivity.
    - cbn [concat] in A3. rewrite app_nil_r, app_length in A3. exact A3. }
  rewrite E. set (split := (1 <? length cl) && sp [g] (@cons (list Q) c nil) [nth 0 cl []; nth 1 cl []] ce && (0 <? free)).
  specialize (IH l l' (if split then free - 1 else free) p (fun g' Hg => Hv g' (or_intror Hg)) ltac:(unfold point in *; lia) Hl).
  destruct (improve_structure metric tol seeds data repeats sp gs l (if split then free - 1 else free) p) as [a|e], (improve_structure metric tol' seeds data' repeats sp' gs l' (if split then free - 1 else free) p) as [b|e']; cbn [same_run bind] in IH |- *; try exact IH; try (destruct IH; fail).
  destruct IH as (I1 & I2). cbn [fst snd]. split; [|exact I2]. apply Forall2_app; [|exact I1]. destruct split eqn:Es; [|constructor; [exact Hc|constructor]].
  unfold split in Es. apply andb_true_iff in Es as (Es & _). apply andb_true_iff in Es as (Es & _). apply Nat.ltb_lt in Es. destruct (W2 Es) as (A1 & A2 & _). constructor; [|constructor; [|constructor]]; apply nth_moved; auto; unfold point in *; lia.
Qed.
Lemma xloop_same repeats kmax : forall fuel centers centers' pos, Forall2 (moved s v) centers centers' ->
  same_run (Forall2 (moved s v)) (xmeans_loop metric tol seeds data kmax repeats sp fuel centers pos) (xmeans_loop metric tol' seeds data' kmax repeats sp' fuel centers' pos).
Proof.
  induction fuel as [|fuel IH]; intros centers centers' pos H; cbn [xmeans_loop]; [reflexivity|]. pose proof (both_length _ _ _ H) as L. unfold point in *. rewrite L. destruct (length centers <=? kmax); [|exact H].
  pose proof (kmeans_same s v metric m Hm Hmetric data data' Hdata Hne centers centers' tol tol' 100 Htol H) as W.
  destruct (kmeans_process metric data centers tol 100) as [[[cl ce] w]|e] eqn:Ek, (kmeans_process metric data' centers' tol' 100) as [[[cl' ce'] w']|e']; cbn [same_run same_partition bind] in W |- *; try exact W; try (destruct W; fail).
  destruct W as (-> & W & _). apply process_lloyd, lloyd_ok in Ek; [|lia]. destruct Ek as (P & N & LC & _). pose proof (both_length _ _ _ W) as LW. unfold point in *. rewrite LW.
  assert (V : forall g, In g cl -> valid data g). { intros g Hg. split; [unfold no_empty in N; rewrite Forall_forall in N; apply N; exact Hg|]. intros i Hi. eapply partition_index; eassumption. }
  pose proof (improve_same repeats cl ce ce' (kmax - length ce) pos V LC W) as X.
  destruct (improve_structure metric tol seeds data repeats sp cl ce (kmax - length ce) pos) as [a|e], (improve_structure metric tol' seeds data' repeats sp' cl ce' (kmax - length ce) pos) as [b|e']; cbn [same_run bind] in X |- *; try exact X; try (destruct X; fail).
  destruct a as [a1 a2], b as [b1 b2]. cbn [fst snd] in X |- *. destruct X as (X1 & X2). subst b2. pose proof (both_length _ _ _ X1) as LX. unfold point in *. rewrite LX. destruct (length centers =? length a1); [exact W|]. apply IH. exact X1.
Qed.
Lemma xmeans_same repeats kmax fuel initial initial' : Forall2 (moved s v) initial initial' ->
  same_run (same_partition s m v) (xmeans_process metric tol seeds data kmax repeats sp initial fuel) (xmeans_process metric tol' seeds data' kmax repeats sp' initial' fuel).
Proof.
  intro H. unfold xmeans_process. pose proof (both_length _ _ _ Hdata) as L1. pose proof (both_length _ _ _ H) as L2. unfold point in *. rewrite L1, L2.
  destruct (length data =? 0); [reflexivity|]. destruct (length initial =? 0); [reflexivity|]. rewrite (scale_ltb0 m Hm _ _ Htol). destruct (Qltb tol 0); [reflexivity|]. destruct (repeats =? 0); [reflexivity|].
  pose proof (xloop_same repeats kmax fuel initial initial' 0 H) as W.
  destruct (xmeans_loop metric tol seeds data kmax repeats sp fuel initial 0) as [a|e], (xmeans_loop metric tol' seeds data' kmax repeats sp' fuel initial' 0) as [b|e']; cbn [same_run bind] in W |- *; try exact W; try (destruct W; fail).
  apply (kmeans_same s v metric m Hm Hmetric data data' Hdata Hne); assumption.
Qed.
End Data.
End Unit.

(** the criteria of X-means, for parents and children with the same number of points *)
Theorem C273_bic s v metric m data data' pcl pce pce' ccl cce cce' : (0 < m)%Q -> (forall p q p' q', moved s v p q -> moved s v p' q' -> (metric q q' == m * metric p p')%Q) ->
  Forall2 (moved s v) data data' -> data <> [] -> indexes (length data) pcl -> indexes (length data) ccl -> length (concat pcl) = length (concat ccl) -> Forall2 (moved s v) pce pce' -> Forall2 (moved s v) cce cce' ->
  split_bic metric data' pcl pce' ccl cce' = split_bic metric data pcl pce ccl cce.
Proof. intros. eapply bic_same; eassumption. Qed.
Print Assumptions C273_bic.
Theorem C273_mndl s v metric m data data' alpha beta pcl pce pce' ccl cce cce' : (0 < m)%Q -> (forall p q p' q', moved s v p q -> moved s v p' q' -> (metric q q' == m * metric p p')%Q) ->
  Forall2 (moved s v) data data' -> data <> [] -> indexes (length data) pcl -> indexes (length data) ccl -> Forall2 (moved s v) pce pce' -> Forall2 (moved s v) cce cce' ->
  split_mndl metric data' alpha beta pcl pce' ccl cce' = split_mndl metric data alpha beta pcl pce ccl cce.
Proof. intros. eapply mndl_same; eassumption. Qed.
Print Assumptions C273_mndl.

(** X-means with either criterion; an exception of the second one does not occur (C57) and counts as no split here *)
Theorem C273_xmeans_bic s v metric m data data' tol tol' seeds kmax repeats initial initial' fuel : (0 < m)%Q -> (forall p q p' q', moved s v p q -> moved s v p' q' -> (metric q q' == m * metric p p')%Q) ->
  Forall2 (moved s v) data data' -> data <> [] -> (tol' == m * tol)%Q -> chosen_points seeds -> Forall2 (moved s v) initial initial' ->
  same_run (same_partition s m v) (xmeans_process metric tol seeds data kmax repeats (split_bic metric data) initial fuel) (xmeans_process metric tol' seeds data' kmax repeats (split_bic metric data') initial' fuel).
Proof.
  intros Hm HM HD Hne Ht HS HI. apply xmeans_same; auto. intros g c c' h1 h2 ce ce' Hv Hi L Lc Hc Hce. eapply bic_same; eauto.
  - intros g' i [<- | []] Gi. apply Hv. exact Gi.
  - cbn. rewrite !app_nil_r, app_length. symmetry. exact L.
Qed.
Print Assumptions C273_xmeans_bic.
Definition mndl_says (metric : point -> point -> Q) (data : list point) (alpha beta : R) pcl pce ccl cce : bool := match split_mndl metric data alpha beta pcl pce ccl cce with Ok b => b | Raise _ => false end.
Theorem C273_xmeans_mndl s v metric m data data' alpha beta tol tol' seeds kmax repeats initial initial' fuel : (0 < m)%Q -> (forall p q p' q', moved s v p q -> moved s v p' q' -> (metric q q' == m * metric p p')%Q) ->
  Forall2 (moved s v) data data' -> data <> [] -> (tol' == m * tol)%Q -> chosen_points seeds -> Forall2 (moved s v) initial initial' ->
  same_run (same_partition s m v) (xmeans_process metric tol seeds data kmax repeats (mndl_says metric data alpha beta) initial fuel) (xmeans_process metric tol' seeds data' kmax repeats (mndl_says metric data' alpha beta) initial' fuel).
Proof.
  intros Hm HM HD Hne Ht HS HI. apply xmeans_same; auto. intros g c c' h1 h2 ce ce' Hv Hi L Lc Hc Hce. unfold mndl_says. erewrite mndl_same; eauto.
  intros g' i [<- | []] Gi. apply Hv. exact Gi.
Qed.
Print Assumptions C273_xmeans_mndl.

(** ** G-means: the test of a sample does not depend on the origin of the sample (Anderson-Darling standardises it) *)
Lemma coords (v : point) : forall p, length p = length v -> p = map (coord p) (seq 0 (length v)).
Proof.
  induction v as [|x u IH]; intros [|a p] L; try discriminate; [reflexivity|]. cbn [length] in *. rewrite <- cons_seq, <- seq_shift. cbn [map]. f_equal. rewrite map_map. apply IH. lia.
Qed.
Lemma dot_ext : forall a a' b b' : point, Forall2 Qeq a a' -> Forall2 Qeq b b' -> (dot a b == dot a' b')%Q.
Proof. intros a a' b b' H. revert b b'. induction H as [|x x' a a' Hx Ha IH]; intros b b' K; [reflexivity|]. destruct K as [|y y' b b' Hy Hb]; cbn [dot]; [reflexivity|]. rewrite Hx, Hy, (IH b b' Hb). reflexivity. Qed.
Lemma tail_moved s x u a p b q : moved s (x :: u) (a :: p) (b :: q) -> (b == s * a + x)%Q /\ moved s u p q.
Proof.
  intros (A & B & C0). split; [apply (C0 0); cbn; lia|]. split; [cbn in A; lia|]. split; [cbn in B; lia|]. intros d Hd. apply (C0 (S d)). cbn. lia.
Qed.
Lemma psub_moved s v : forall c1 c2 c1' c2', moved s v c1 c1' -> moved s v c2 c2' -> length (psub c1 c2) = length v /\ Forall2 Qeq (psub c1' c2') (map (Qmult s) (psub c1 c2)).
Proof.
  induction v as [|x u IH]; intros [|a p] [|b q] [|a' p'] [|b' q'] H K; try (destruct H as (? & ? & _); discriminate); try (destruct K as (? & ? & _); discriminate); [split; [reflexivity|constructor]|].
  apply tail_moved in H as (Ha & Hp). apply tail_moved in K as (Kb & Kq). destruct (IH p q p' q' Hp Kq) as (L & F). cbn [psub map length]. split; [congruence|]. constructor; [|exact F]. rewrite Ha, Kb. ring.
Qed.
Lemma dot_scaled s : forall w w2 : point, (dot (map (Qmult s) w) (map (Qmult s) w2) == s * s * dot w w2)%Q.
Proof. induction w as [|x w IH]; intros [|y w2]; cbn [map dot]; try ring. rewrite IH. ring. Qed.
Lemma dot_moved s v : forall p q w, moved s v p q -> length w = length v -> (dot q (map (Qmult s) w) == s * s * dot p w + s * dot v w)%Q.
Proof.
  induction v as [|x u IH]; intros [|a p] [|b q] [|y w] H L; try (destruct H as (? & ? & _); discriminate); try discriminate; cbn [map dot]; [ring|].
  apply tail_moved in H as (Hb & Hp). rewrite Hb, (IH p q w Hp) by (cbn in L; lia). ring.
Qed.
Lemma eq_refl_list (l : point) : Forall2 Qeq l l.
Proof. induction l; constructor; [reflexivity|assumption]. Qed.
Lemma square_zero (w : point) : (dot w w == 0)%Q -> forall p, (dot p w == 0)%Q.
Proof.
  assert (P : forall w : point, (0 <= dot w w)%Q) by (induction w0 as [|x w0 IH]; cbn [dot]; [apply Qle_refl|Lqa.nra]).
  induction w as [|x w IH]; intros H [|a p]; cbn [dot] in *; try reflexivity. pose proof (P w) as Pw. assert (X : (x * x == 0 /\ dot w w == 0)%Q) by (split; Lqa.nra). destruct X as (X & Y). assert (X0 : (x == 0)%Q) by (destruct (Qmult_integral _ _ X); assumption). rewrite (IH Y), X0. ring.
Qed.
Lemma projection_shifted s v pts pts' c1 c2 c1' c2' : (0 < s)%Q -> Forall2 (moved s v) pts pts' -> moved s v c1 c1' -> moved s v c2 c2' ->
  shifted (project_data pts (psub c1 c2)) (project_data pts' (psub c1' c2')).
Proof.
  intros Hs H H1 H2. destruct (psub_moved s v c1 c2 c1' c2' H1 H2) as (L & F). set (w := psub c1 c2) in *. set (w' := psub c1' c2') in *.
  exists (dot v w / (s * dot w w))%Q. unfold project_data. induction H as [|p q l l' Hp Hl IH]; cbn [map]; constructor; [|exact IH].
  rewrite (dot_ext q q w' (map (Qmult s) w) (eq_refl_list q) F), (dot_ext w' (map (Qmult s) w) w' (map (Qmult s) w) F F), dot_scaled, (dot_moved s v p q w Hp L).
  destruct (Qeq_dec (dot w w) 0) as [Z | Z].
  - rewrite (square_zero w Z p), (square_zero w Z v), Z. unfold Qdiv. ring.
  - field. split; [exact Z|]. intro E. rewrite E in Hs. apply (Qlt_irrefl 0). exact Hs.
Qed.

Section Gunit.
Variables (s : Q) (v : point) (tol tol' : Q) (seeds : nat -> nat -> nat -> list nat) (data data' : list point) (repeats : nat) (k_max : option nat) (accepts : list Q -> bool).
Hypothesis Hs : (0 < s)%Q.
Hypothesis Htol : (tol' == s * s * tol)%Q.
Hypothesis Hseeds : chosen_points seeds.
Hypothesis Hdata : Forall2 (moved s v) data data'.
Hypothesis Hne : data <> [].
Hypothesis Hacc : forall l l', shifted l l' -> accepts l' = accepts l.
Lemma Hss : (0 < s * s)%Q. Proof. Lqa.nra. Qed.
Lemma Hsq : forall p q p' q', moved s v p q -> moved s v p' q' -> (sqdist q q' == s * s * sqdist p p')%Q.
Proof. apply moved_sqdist. Qed.
Notation null := (is_null_hypothesis accepts).
Lemma null_same pts pts' ce ce' : Forall2 (moved s v) pts pts' -> Forall2 (moved s v) ce ce' -> 1 < length ce -> null pts' ce' = null pts ce.
Proof. intros H K L. apply Hacc. apply (projection_shifted s v); auto; apply nth_moved; auto; lia. Qed.

Definition news_same (a b : option (list point)) : Prop := match a, b with None, None => True | Some x, Some y => Forall2 (moved s v) x y | _, _ => False end.
Lemma split_search_same g pos : valid data g ->
  same_run (fun r r' => news_same (fst r) (fst r') /\ snd r' = snd r) (split_and_search tol seeds data repeats null g pos) (split_and_search tol' seeds data' repeats null g pos).
Proof.
  intro Hg. unfold split_and_search. destruct (length g =? 1); [cbn; auto|].
  pose proof (select_moved s v data data' g Hdata (proj2 Hg)) as HP.
  pose proof (search_same s v sqdist (s * s) Hss Hsq tol tol' seeds Htol Hseeds true (select data g) (select data' g) 2 HP ltac:(lia) repeats pos None None I) as W.
  destruct (search_optimal sqdist tol seeds true (select data g) 2 repeats pos None) as [[b p]|e], (search_optimal sqdist tol' seeds true (select data' g) 2 repeats pos None) as [[b' p']|e']; cbn [same_run bind] in W |- *; try exact W; try (destruct W; fail).
  cbn [fst snd] in W |- *. destruct W as (W & ->). destruct b as [[[cl ce] w]|], b' as [[[cl' ce'] w']|]; cbn [opt_same] in W; try contradiction; [|cbn; auto].
  destruct W as (-> & W & _). pose proof (both_length _ _ _ W) as L. unfold point in *. rewrite L. destruct (Nat.ltb_spec 1 (length ce)) as [L1 | L1]; cbn [andb]; [|cbn; auto].
  rewrite (null_same (select data g) (select data' g) ce ce' HP W L1). destruct (null (select data g) ce); cbn; auto.
Qed.
Lemma stat_same : forall clusters centers centers' potential pos, (forall g, In g clusters -> valid data g) -> length centers = length clusters -> Forall2 (moved s v) centers centers' ->
  same_run (fun r r' => Forall2 (moved s v) (fst r) (fst r') /\ snd r' = snd r) (statistical_optimization tol seeds data repeats k_max null clusters centers potential pos) (statistical_optimization tol' seeds data' repeats k_max null clusters centers' potential pos).
Proof.
  induction clusters as [|g gs IH]; intros centers centers' potential pos Hv L H; cbn [statistical_optimization]; [cbn; auto|].
  destruct H as [|c c' l l' Hc Hl]; [discriminate|]. cbn [hd tl]. cbn [length] in L.
  pose proof (split_search_same g pos (Hv g (or_introl eq_refl))) as W.
  destruct (split_and_search tol seeds data repeats null g pos) as [[a p]|e], (split_and_search tol' seeds data' repeats null g pos) as [[b p']|e']; cbn [same_run bind] in W |- *; try exact W; try (destruct W; fail).
  cbn [fst snd] in W |- *. destruct W as (W & ->).
  assert (K : news_same (if full k_max potential then None else a) (if full k_max potential then None else b)) by (destruct (full k_max potential); [exact I|exact W]).
  assert (R : forall pot, same_run (fun r r' => Forall2 (moved s v) (fst r) (fst r') /\ snd r' = snd r) (statistical_optimization tol seeds data repeats k_max null gs l pot p) (statistical_optimization tol' seeds data' repeats k_max null gs l' pot p)) by (intro pot; apply IH; [intros; apply Hv; right; assumption|unfold point in *; lia|exact Hl]).
  destruct (if full k_max potential then None else a) as [x|], (if full k_max potential then None else b) as [y|]; cbn [news_same] in K; try contradiction.
  - specialize (R (S potential)). destruct (statistical_optimization tol seeds data repeats k_max null gs l (S potential) p) as [[r1 r2]|e], (statistical_optimization tol' seeds data' repeats k_max null gs l' (S potential) p) as [[q1 q2]|e']; cbn [same_run bind fst snd] in R |- *; try exact R; try (destruct R; fail).
    destruct R as (R & ->). split; [apply Forall2_app; assumption|reflexivity].
  - specialize (R potential). destruct (statistical_optimization tol seeds data repeats k_max null gs l potential p) as [[r1 r2]|e], (statistical_optimization tol' seeds data' repeats k_max null gs l' potential p) as [[q1 q2]|e']; cbn [same_run bind fst snd] in R |- *; try exact R; try (destruct R; fail).
    destruct R as (R & ->). split; [constructor; assumption|reflexivity].
Qed.
Lemma run_valid ce cl ce1 w : kmeans_process sqdist data ce tol 100 = Ok (cl, ce1, w) -> (forall g, In g cl -> valid data g) /\ length ce1 = length cl.
Proof.
  intro E. apply process_lloyd, lloyd_ok in E; [|lia]. destruct E as (P & N & LC & _). split; [|exact LC]. intros g Hg. split; [unfold no_empty in N; rewrite Forall_forall in N; apply N; exact Hg|]. intros i Hi. eapply partition_index; eassumption.
Qed.
Lemma gloop_same : forall fuel clusters centers centers' w w' pos, (forall g, In g clusters -> valid data g) -> length centers = length clusters -> Forall2 (moved s v) centers centers' -> (w' == s * s * w)%Q ->
  same_run (same_partition s (s * s) v) (gmeans_loop tol seeds data repeats k_max null fuel clusters centers w pos) (gmeans_loop tol' seeds data' repeats k_max null fuel clusters centers' w' pos).
Proof.
  induction fuel as [|fuel IH]; intros clusters centers centers' w w' pos Hv L H Hw; cbn [gmeans_loop]; [reflexivity|]. destruct (full k_max (length clusters)); [cbn; auto|].
  pose proof (stat_same clusters centers centers' (length clusters) pos Hv L H) as W.
  destruct (statistical_optimization tol seeds data repeats k_max null clusters centers (length clusters) pos) as [[a p]|e], (statistical_optimization tol' seeds data' repeats k_max null clusters centers' (length clusters) pos) as [[b p']|e']; cbn [same_run bind fst snd] in W |- *; try exact W; try (destruct W; fail).
  destruct W as (W & ->). pose proof (both_length _ _ _ W) as LW. unfold point in *. rewrite LW. destruct (length clusters =? length a); [cbn; auto|].
  pose proof (kmeans_same s v sqdist (s * s) Hss Hsq data data' Hdata Hne a b tol tol' 100 Htol W) as X. pose proof (run_valid a) as V.
  destruct (kmeans_process sqdist data a tol 100) as [[[cl ce] x]|e], (kmeans_process sqdist data' b tol' 100) as [[[cl' ce'] x']|e']; cbn [same_run same_partition bind] in X |- *; try exact X; try (destruct X; fail).
  destruct X as (-> & X1 & X2). destruct (V cl ce x eq_refl) as (V1 & V2). apply IH; auto.
Qed.
End Gunit.
Theorem C273_gmeans s v data data' tol tol' seeds k_init repeats k_max accepts fuel : (0 < s)%Q -> (tol' == s * s * tol)%Q -> chosen_points seeds -> Forall2 (moved s v) data data' -> (forall l l', shifted l l' -> accepts l' = accepts l) ->
  same_run (same_partition s (s * s) v) (gmeans_process tol seeds data k_init repeats k_max (is_null_hypothesis accepts) fuel) (gmeans_process tol' seeds data' k_init repeats k_max (is_null_hypothesis accepts) fuel).
Proof.
  intros Hs Ht HS HD HA. assert (P : (0 < s * s)%Q) by Lqa.nra. unfold gmeans_process. pose proof (both_length _ _ _ HD) as LD. unfold point in *. rewrite LD. destruct (Nat.eqb_spec (length data) 0) as [|Hn]; [reflexivity|].
  assert (Hne : data <> []) by (intros ->; apply Hn; reflexivity). destruct (Nat.eqb_spec k_init 0) as [|Hk]; [reflexivity|].
  assert (E : Qle_bool tol' 0 = Qle_bool tol 0). { apply Bool.eq_iff_eq_true. rewrite !Qle_bool_iff. rewrite Ht. split; intro; Lqa.nra. }
  rewrite E. destruct (Qle_bool tol 0); [reflexivity|]. destruct (repeats =? 0); [reflexivity|]. destruct (match k_max with Some _ => _ | None => _ end); [reflexivity|].
  pose proof (search_same s v sqdist (s * s) P (moved_sqdist s v) tol tol' seeds Ht HS true data data' k_init HD ltac:(lia) repeats 0 None None I) as W.
  pose proof (search_inv sqdist tol seeds HS true data k_init repeats ltac:(lia) 0 None) as V.
  destruct (search_optimal sqdist tol seeds true data k_init repeats 0 None) as [[b p]|e], (search_optimal sqdist tol' seeds true data' k_init repeats 0 None) as [[b' p']|e']; cbn [same_run bind fst snd] in W |- *; try exact W; try (destruct W; fail).
  destruct W as (W & ->). destruct b as [[[cl ce] w]|], b' as [[[cl' ce'] w']|]; cbn [opt_same] in W; try contradiction.
  - destruct W as (-> & W & _). destruct (V _ eq_refl ltac:(intros; discriminate) _ eq_refl) as (idx & _ & _ & Ek). destruct (run_valid tol data _ _ _ _ Ek) as (V1 & V2). apply gloop_same; auto. ring.
  - apply gloop_same; auto; first [intros g []|constructor|ring].
Qed.
Print Assumptions C273_gmeans.

(** ** the elbow method: the amount chosen for errors in another unit *)
Lemma elbow_length_times a x0 y0 x1 y1 x y : (0 < a)%R -> (x0 < x1)%R -> elbow_length x0 (a * y0) x1 (a * y1) x (a * y) = (a * sqrt ((x1 - x0) ^ 2 + (y1 - y0) ^ 2) / sqrt ((x1 - x0) ^ 2 + (a * y1 - a * y0) ^ 2) * elbow_length x0 y0 x1 y1 x y)%R.
Proof.
  intros Ha Hx. unfold elbow_length. replace ((a * y0 - a * y1) * x + (x1 - x0) * (a * y) + (x0 * (a * y1) - x1 * (a * y0)))%R with (a * ((y0 - y1) * x + (x1 - x0) * y + (x0 * y1 - x1 * y0)))%R by ring.
  rewrite Rabs_mult, (Rabs_right a) by lra. assert (P : forall z, (0 < sqrt ((x1 - x0) ^ 2 + z ^ 2))%R) by (intro z; apply sqrt_lt_R0; nra). field. split; apply Rgt_not_eq, P.
Qed.
Lemma index_max_times a : (0 < a)%R -> forall l b bv i, index_max_from b (a * bv) i (map (Rmult a) l) = index_max_from b bv i l.
Proof.
  intro Ha. induction l as [|x t IH]; intros b bv i; cbn [map index_max_from]; [reflexivity|]. destruct (Rlt_dec (a * bv) (a * x)), (Rlt_dec bv x); rewrite ?IH; try reflexivity; exfalso; nra.
Qed.
Theorem C273_elbow m kmin kstep w w' : (0 < m)%Q -> Forall2 (fun a b => (b == m * a)%Q) w w' ->
  find_optimal_kvalue kmin kstep (calculate_elbows w') = find_optimal_kvalue kmin kstep (calculate_elbows w).
Proof.
  intros Hm H. pose proof (mR_pos m Hm) as P. pose proof (both_length _ _ _ H) as L.
  assert (N : forall k, Q2R (nth k w' 0%Q) = (Q2R m * Q2R (nth k w 0%Q))%R). { intro k. rewrite <- Q2R_mult. apply Qeq_eqR. revert k. clear L. induction H as [|a b l l' Ha Hl IH]; intros [|k]; cbn [nth]; auto; ring. }
  destruct (Nat.le_gt_cases (length w) 2) as [L2 | L2].
  - unfold calculate_elbows. rewrite L. replace (length w - 2) with 0 by lia. reflexivity.
  - assert (E : exists a, (0 < a)%R /\ calculate_elbows w' = map (Rmult a) (calculate_elbows w)).
    { set (y := fun k => Q2R (nth k w 0%Q)). set (z := length w - 1). assert (PI0 : (0 < INR (length w))%R) by (apply lt_0_INR; lia). assert (S0 : forall u, (0 < sqrt ((INR (length w) - 0) ^ 2 + u ^ 2))%R) by (intro u; apply sqrt_lt_R0; nra).
      exists (Q2R m * sqrt ((INR (length w) - 0) ^ 2 + (y z - y 0%nat) ^ 2) / sqrt ((INR (length w) - 0) ^ 2 + (Q2R m * y z - Q2R m * y 0%nat) ^ 2))%R. split.
      - apply Rdiv_lt_0_compat; [apply Rmult_lt_0_compat; [exact P|]|]; apply S0.
      - unfold calculate_elbows. rewrite L, map_map. apply map_ext. intro i. rewrite !N. apply elbow_length_times; assumption. }
    destruct E as (a & Ha & ->). destruct (calculate_elbows w) as [|x t]; cbn [map find_optimal_kvalue]; [reflexivity|]. rewrite index_max_times by exact Ha. reflexivity.
Qed.
Print Assumptions C273_elbow.

(** ** concrete cases: two groups on a line, in a unit three times smaller and from another origin *)
Definition dat : list point := [[0%Q]; [1%Q]; [10%Q]; [11%Q]].
Definition dat' : list point := [[5%Q]; [8%Q]; [35%Q]; [38%Q]].
Definition first_points (pos n k : nat) : list nat := map (fun i => i * (n / k)) (seq 0 k).
Lemma first_points_chosen : chosen_points first_points.
Proof.
  intros pos n k (K1 & K2). unfold first_points. split; [now rewrite map_length, seq_length|]. intros i Hi. apply in_map_iff in Hi as (j & <- & Hj). apply in_seq in Hj. pose proof (Nat.mul_div_le n k ltac:(lia)) as H. assert (0 < n / k) by (apply Nat.div_str_pos; lia). nia.
Qed.
Lemma dat_moved : Forall2 (moved 3 [5%Q]) dat dat'.
Proof. repeat (constructor; [split; [reflexivity|split; [reflexivity|]]; intros [|d] Hd; [reflexivity|cbn in Hd; lia]|]). constructor. Qed.
(** a test of the sample: no number is farther than 1 from the first one *)
Definition spread (l : list Q) : bool := match l with a :: _ => forallb (fun b => Qle_bool (Qabs (b - a)) 1) l | [] => true end.
Lemma spread_shifted l l' : shifted l l' -> spread l' = spread l.
Proof.
  intros (k & H). destruct H as [|a b l l' Ha Hl]; [reflexivity|]. unfold spread.
  assert (E : forall x y, (y == x + k)%Q -> Qle_bool (Qabs (y - b)) 1 = Qle_bool (Qabs (x - a)) 1). { intros x y Hx. assert (W : (y - b == x - a)%Q) by (rewrite Hx, Ha; ring). now rewrite W. }
  cbn [forallb]. rewrite (E a b Ha). f_equal. clear Ha. induction Hl as [|x y l l' Hx Hl IH]; cbn [forallb]; [reflexivity|]. now rewrite (E x y Hx), IH.
Qed.
Definition clusters_of (r : res solution) : option (list (list nat)) := match r with Ok (cl, _, _) => Some cl | Raise _ => None end.
Example C273_gmeans_case : clusters_of (gmeans_process (1 # 40) first_points dat 1 3 None (is_null_hypothesis spread) 10) = Some [[0; 1]; [2; 3]]
  /\ clusters_of (gmeans_process (9 # 40) first_points dat' 1 3 None (is_null_hypothesis spread) 10) = Some [[0; 1]; [2; 3]].
Proof. split; vm_compute; reflexivity. Qed.
Example C273_gmeans_applies : same_run (same_partition 3 9 [5%Q]) (gmeans_process (1 # 40) first_points dat 1 3 None (is_null_hypothesis spread) 10) (gmeans_process (9 # 40) first_points dat' 1 3 None (is_null_hypothesis spread) 10).
Proof. apply (C273_gmeans 3 [5%Q]); [reflexivity|reflexivity|exact first_points_chosen|exact dat_moved|exact spread_shifted]. Qed.
(** X-means starting from one centre *)
Definition one : list point := [[4%Q]].
Definition one' : list point := [[17%Q]].
Example C273_xmeans_applies : same_run (same_partition 3 (3 * 3) [5%Q]) (xmeans_process sqdist (1 # 40) first_points dat 4 1 (split_bic sqdist dat) one 5) (xmeans_process sqdist (9 # 40) first_points dat' 4 1 (split_bic sqdist dat') one' 5).
Proof.
  apply C273_xmeans_bic; [reflexivity|apply moved_sqdist|exact dat_moved|discriminate|reflexivity|exact first_points_chosen|]. constructor; [|constructor]. split; [reflexivity|]. split; [reflexivity|]. intros [|d] Hd; [reflexivity|cbn in Hd; lia].
Qed.
Example C273_xmeans_mndl_applies : same_run (same_partition 3 (3 * 3) [5%Q]) (xmeans_process sqdist (1 # 40) first_points dat 4 1 (mndl_says sqdist dat (9 / 10) (9 / 10)) one 5) (xmeans_process sqdist (9 # 40) first_points dat' 4 1 (mndl_says sqdist dat' (9 / 10) (9 / 10)) one' 5).
Proof.
  apply C273_xmeans_mndl; [reflexivity|apply moved_sqdist|exact dat_moved|discriminate|reflexivity|exact first_points_chosen|]. constructor; [|constructor]. split; [reflexivity|]. split; [reflexivity|]. intros [|d] Hd; [reflexivity|cbn in Hd; lia].
Qed.
(** with any criterion that never splits or always splits the runs end with a partition *)
Example C273_xmeans_case : clusters_of (xmeans_process sqdist (1 # 40) first_points dat 2 1 (fun _ _ _ _ => true) one 5) = Some [[0; 1]; [2; 3]].
Proof. vm_compute. reflexivity. Qed.
(** the amount of an elbow in errors nine times larger *)
Example C273_elbow_case kmin kstep : find_optimal_kvalue kmin kstep (calculate_elbows [900; 90; 9; 0]%Q) = find_optimal_kvalue kmin kstep (calculate_elbows [100; 10; 1; 0]%Q).
Proof. apply (C273_elbow 9); [reflexivity|]. repeat constructor. Qed.

(** the tolerance is a length: left as it is, another unit gives another result *)
Lemma improve_full metric tol seeds data repeats sp sp2 : forall clusters centers pos, improve_structure metric tol seeds data repeats sp clusters centers 0 pos = improve_structure metric tol seeds data repeats sp2 clusters centers 0 pos.
Proof.
  induction clusters as [|g gs IH]; intros centers pos; cbn [improve_structure]; [reflexivity|]. destruct (children metric tol seeds data repeats g pos) as [[[cl ce] p]|e]; [|reflexivity]. cbn [bind Nat.ltb Nat.leb]. rewrite !andb_false_r. rewrite IH. reflexivity.
Qed.
Lemma loop_full metric tol seeds data kmax repeats sp sp2 initial pos cl ce w : kmeans_process metric data initial tol 100 = Ok (cl, ce, w) -> length ce = kmax ->
  xmeans_loop metric tol seeds data kmax repeats sp 1 initial pos = xmeans_loop metric tol seeds data kmax repeats sp2 1 initial pos.
Proof. intros E L. cbn [xmeans_loop]. rewrite E. cbn [bind]. rewrite L, Nat.sub_diag. now rewrite (improve_full metric tol seeds data repeats sp sp2). Qed.
Definition slow (s : Q) : list point := map (fun i => [s * inject_Z (Z.of_nat i)]%Q) (seq 0 16).
Definition slow_start (s : Q) : list point := [[s * 0]; [s * 1]]%Q.
Definition never (pcl : list (list nat)) (pce : list point) (ccl : list (list nat)) (cce : list point) : bool := false.
Definition run_of (s : Q) sp : option (list (list nat)) := clusters_of (xmeans_process sqdist (1 # 40) first_points (slow s) 2 1 sp (slow_start s) 1).
Lemma run_any s sp cl ce w : kmeans_process sqdist (slow s) (slow_start s) (1 # 40) 100 = Ok (cl, ce, w) -> length ce = 2 -> run_of s sp = run_of s never.
Proof. intros E L. unfold run_of, xmeans_process. now rewrite (loop_full sqdist (1 # 40) first_points (slow s) 2 1 sp never (slow_start s) 0 cl ce w E L). Qed.
Definition centres_of (r : res solution) : option nat := match r with Ok (_, ce, _) => Some (length ce) | Raise _ => None end.
Lemma any_criterion s sp : centres_of (kmeans_process sqdist (slow s) (slow_start s) (1 # 40) 100) = Some 2 -> run_of s sp = run_of s never.
Proof. destruct (kmeans_process sqdist (slow s) (slow_start s) (1 # 40) 100) as [[[cl ce] w]|e] eqn:E; cbn [centres_of]; intro H; [|discriminate]. injection H as H. eapply run_any; eassumption. Qed.
(** whichever criterion is used *)
Theorem C273_tolerance_refuted : exists data data' initial initial', Forall2 (moved (1 # 1000) [0%Q]) data data' /\ Forall2 (moved (1 # 1000) [0%Q]) initial initial' /\
  forall sp sp', exists cl cl', clusters_of (xmeans_process sqdist (1 # 40) first_points data 2 1 sp initial 1) = Some cl /\ clusters_of (xmeans_process sqdist (1 # 40) first_points data' 2 1 sp' initial' 1) = Some cl' /\ cl' <> cl.
Proof.
  exists (slow 1), (slow (1 # 1000)), (slow_start 1), (slow_start (1 # 1000)). split; [|split].
  - unfold slow. cbn [map seq]. repeat (constructor; [split; [reflexivity|split; [reflexivity|]]; intros [|d] Hd; [reflexivity|cbn in Hd; lia]|]). constructor.
  - repeat (constructor; [split; [reflexivity|split; [reflexivity|]]; intros [|d] Hd; [reflexivity|cbn in Hd; lia]|]). constructor.
  - intros sp sp'. exists [[0; 1; 2; 3; 4; 5; 6; 7]; [8; 9; 10; 11; 12; 13; 14; 15]], [[0; 1; 2; 3; 4]; [5; 6; 7; 8; 9; 10; 11; 12; 13; 14; 15]]. split; [|split; [|discriminate]].
    + change (run_of 1 sp = Some [[0; 1; 2; 3; 4; 5; 6; 7]; [8; 9; 10; 11; 12; 13; 14; 15]]). rewrite any_criterion by (vm_compute; reflexivity). vm_compute. reflexivity.
    + change (run_of (1 # 1000) sp' = Some [[0; 1; 2; 3; 4]; [5; 6; 7; 8; 9; 10; 11; 12; 13; 14; 15]]). rewrite any_criterion by (vm_compute; reflexivity). vm_compute. reflexivity.
Qed.
Print Assumptions C273_tolerance_refuted.
