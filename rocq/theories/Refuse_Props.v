(** Arguments that make no sense are refused with the documented exception
    before anything is computed; arguments that do are accepted. *)
From Verif Require Import Base.
From Verif Require Kmeans_Model Kmedoids_Model Dbscan_Model Optics_Model Rock_Model Bang_Model Birch_Model Clarans_Model Elbow_Model Silhouette_Model Xmeans_Model Som_Model Ga_Model Fcm_Model Aggl_Model Clique_Model.
From Coq Require Import Reals Lra.
Open Scope nat_scope.

Lemma qneg (t : Q) : Qltb t 0 = true <-> (t < 0)%Q.
Proof. apply Qltb_true. Qed.
Lemma qnonneg (t : Q) : Qltb t 0 = false -> (0 <= t)%Q.
Proof. apply Qltb_false. Qed.

(** k-means: refused with ValueError exactly without points, without centres,
    for a negative tolerance, and for centres of another dimension. *)
Theorem C212_kmeans metric data initial tolerance itermax :
  let bad := data = [] \/ initial = [] \/ (tolerance < 0)%Q \/ length (nth 0 data []) <> length (nth 0 initial []) in
  (bad -> Kmeans_Model.kmeans_process metric data initial tolerance itermax = Raise ValueError) /\
  (~ bad -> exists r, Kmeans_Model.kmeans_process metric data initial tolerance itermax = Ok r).
Proof.
  cbv zeta. unfold Kmeans_Model.kmeans_process. destruct data as [|p data]; [split; [reflexivity|tauto]|]. destruct initial as [|c initial]; [split; [reflexivity|tauto]|].
  cbn [nth]. destruct (Qltb tolerance 0) eqn:E; [apply qneg in E; split; [reflexivity|tauto]|]. apply qnonneg in E.
  destruct (Nat.eqb_spec (length p) (length c)) as [L|L]; split; try tauto.
  - intros [H|[H|[H|H]]]; [discriminate|discriminate| |contradiction]. exfalso. exact (Qlt_not_le _ _ H E).
  - intros _. destruct (Kmeans_Model.kmeans_loop _ _ _ _ _ _ _) as [a b]. eauto.
Qed.
Print Assumptions C212_kmeans.

(** k-medians: the same, but another dimension is a NameError. *)
Theorem C212_kmedians metric data initial tolerance itermax :
  let bad := data = [] \/ initial = [] \/ (tolerance < 0)%Q in
  let other := length (nth 0 data []) <> length (nth 0 initial []) in
  (bad -> Kmeans_Model.kmedians_process metric data initial tolerance itermax = Raise ValueError) /\
  (~ bad -> other -> Kmeans_Model.kmedians_process metric data initial tolerance itermax = Raise NameError) /\
  (~ bad -> ~ other -> exists r, Kmeans_Model.kmedians_process metric data initial tolerance itermax = Ok r).
Proof.
  cbv zeta. unfold Kmeans_Model.kmedians_process. destruct data as [|p data]; [split; [reflexivity|tauto]|]. destruct initial as [|c initial]; [split; [reflexivity|tauto]|].
  cbn [nth]. destruct (Qltb tolerance 0) eqn:E; [apply qneg in E; split; [reflexivity|tauto]|]. apply qnonneg in E. split.
  - intros [H|[H|H]]; [discriminate|discriminate|]. exfalso. exact (Qlt_not_le _ _ H E).
  - destruct (Nat.eqb_spec (length p) (length c)) as [L|L]; split; try tauto.
    intros _ _. destruct (Kmeans_Model.kmedians_loop _ _ _ _ _ _ _) as [a b]. eauto.
Qed.
Print Assumptions C212_kmedians.

(** k-medoids and its initializer. *)
Theorem C212_kmedoids D n initial tolerance itermax :
  let bad := n = 0 \/ initial = [] \/ (tolerance < 0)%Q in
  (bad -> Kmedoids_Model.kmedoids_process D n initial tolerance itermax = Raise ValueError) /\
  (~ bad -> exists r, Kmedoids_Model.kmedoids_process D n initial tolerance itermax = Ok r).
Proof.
  cbv zeta. unfold Kmedoids_Model.kmedoids_process. destruct (Nat.eqb_spec n 0) as [Z|Z]; [split; [reflexivity|tauto]|]. destruct initial as [|c initial]; [split; [reflexivity|tauto]|].
  destruct (Qltb tolerance 0) eqn:E; [apply qneg in E; split; [reflexivity|tauto]|]. apply qnonneg in E. split.
  - intros [H|[H|H]]; [contradiction|discriminate|]. exfalso. exact (Qlt_not_le _ _ H E).
  - intros _. destruct itermax; [eauto|]. destruct (Kmedoids_Model.kmedoids_loop _ _ _ _ _ _ _ _) as [[a b] t]. destruct (Kmedoids_Model.erase_empty _ _). eauto.
Qed.
Print Assumptions C212_kmedoids.

(** Fuzzy c-means refuses empty data and no centres, and nothing else. *)
Theorem C212_fcm data m initial tolerance itermax :
  (data = [] \/ initial = [] -> Fcm_Model.fcm_process data m initial tolerance itermax = Raise ValueError) /\
  (data <> [] -> initial <> [] -> exists r, Fcm_Model.fcm_process data m initial tolerance itermax = Ok r).
Proof.
  unfold Fcm_Model.fcm_process. split.
  - intros [->| ->]; [reflexivity|]. destruct (length data =? 0); reflexivity.
  - intros A B. destruct data; [contradiction|]. destruct initial; [contradiction|]. cbn [length Nat.eqb]. eauto.
Qed.
Print Assumptions C212_fcm.

(** DBSCAN and OPTICS: no data, a negative radius and (OPTICS) an amount of
    clusters that is not positive. *)
Theorem C212_density data m eps minpts clusters noise amount :
  (data = [] \/ (eps < 0)%Q -> Dbscan_Model.dbscan_points data eps minpts clusters noise = Raise ValueError /\
                               Optics_Model.optics_points data eps minpts = Raise ValueError) /\
  (m = [] \/ (eps < 0)%Q -> Dbscan_Model.dbscan_matrix m eps minpts clusters noise = Raise ValueError) /\
  (m = [] \/ (eps < 0)%Q \/ (exists a, amount = Some a /\ (a <= 0)%Z) -> Optics_Model.optics_matrix m eps minpts amount = Raise ValueError).
Proof.
  unfold Dbscan_Model.dbscan_points, Dbscan_Model.dbscan_matrix, Optics_Model.optics_points, Optics_Model.optics_matrix. repeat split.
  1, 2: destruct H as [-> |H]; [reflexivity|]; apply qneg in H; rewrite H; destruct (length data =? 0); reflexivity.
  - intros [-> |H]; [reflexivity|]. apply qneg in H. rewrite H. destruct (length m =? 0); reflexivity.
  - intros [-> |[H|(a & -> & H)]]; [reflexivity| |].
    + apply qneg in H. rewrite H. destruct (length m =? 0); reflexivity.
    + apply Z.leb_le in H. rewrite H. destruct (length m =? 0); [reflexivity|]. destruct (Qltb eps 0); reflexivity.
Qed.
Print Assumptions C212_density.

(** ROCK, BANG, BIRCH, CLARANS, the agglomerative algorithm and the genetic
    algorithm. *)
Theorem C212_rock data eps threshold number :
  data = [] \/ (eps < 0)%Q \/ (threshold < 0)%R \/ (1 < threshold)%R \/ number = 0 -> Rock_Model.rock data eps threshold number = Raise ValueError.
Proof.
  unfold Rock_Model.rock. destruct data as [|p data]; [reflexivity|]. intros [H|[H|[H|[H| ->]]]]; [discriminate| | | |].
  - apply qneg in H. now rewrite H.
  - destruct (Qltb eps 0); [reflexivity|]. destruct (Rlt_dec threshold 0); [reflexivity|lra].
  - destruct (Qltb eps 0); [reflexivity|]. destruct (Rlt_dec threshold 0); [reflexivity|]. destruct (Rlt_dec 1 threshold); [reflexivity|lra].
  - destruct (Qltb eps 0); [reflexivity|]. destruct (Rlt_dec threshold 0); [reflexivity|]. destruct (Rlt_dec 1 threshold); reflexivity.
Qed.
Print Assumptions C212_rock.

Theorem C212_bang order data levels density amount self :
  data = [] \/ levels = 0 \/ (density < 0)%Q -> Bang_Model.process order data levels density amount self = Raise ValueError.
Proof.
  unfold Bang_Model.process. intros [->|[-> |H]]; [reflexivity| |].
  - destruct (length data =? 0); reflexivity.
  - apply qneg in H. rewrite H. destruct (length data =? 0); [reflexivity|]. destruct (levels <? 1); reflexivity.
Qed.
Print Assumptions C212_bang.

Theorem C212_birch data number m branch max_entries limit multiplier diameter :
  data = [] \/ number = 0 \/ limit = 0 -> Birch_Model.birch data number m branch max_entries limit multiplier diameter = Raise ValueError.
Proof.
  unfold Birch_Model.birch. destruct data as [|p data]; [reflexivity|]. intros [H|[-> | ->]]; [discriminate|reflexivity|]. destruct (number =? 0); reflexivity.
Qed.
Print Assumptions C212_birch.

Theorem C212_clarans data number draws sample numlocal maxneighbor fuel :
  data = [] \/ number = 0 \/ (length data < number /\ 0 < numlocal) -> Clarans_Model.clarans_process data number draws sample numlocal maxneighbor fuel = Raise ValueError.
Proof.
  unfold Clarans_Model.clarans_process. intros [-> |[-> |(H & Hl)]]; [reflexivity| |].
  - destruct (length data =? 0); reflexivity.
  - destruct (length data =? 0); [reflexivity|]. destruct (number =? 0); [reflexivity|]. destruct numlocal as [|left]; [lia|]. cbn [Clarans_Model.search].
    apply Nat.ltb_lt in H. rewrite H. reflexivity.
Qed.
Print Assumptions C212_clarans.

Theorem C212_ga data number a b c d e f g h i j k :
  data = [] \/ number = 0 -> Ga_Model.ga_process data number a b c d e f g h i j k = Raise ValueError.
Proof. unfold Ga_Model.ga_process. intros [->| ->]; [reflexivity|]. destruct (length data =? 0); reflexivity. Qed.
Print Assumptions C212_ga.

(** The elbow method accepts exactly the ranges it can examine: there is a
    point for each centre of the largest amount, and three amounts or more lie
    in the range. *)
Theorem C212_elbow data initialize kmin kmax kstep self :
  let bad := data = [] \/ kmin = 0 \/ kstep = 0 \/ kmax < kmin + 2 * kstep \/ length data < kmax in
  (bad -> Elbow_Model.elbow_process data initialize kmin kmax kstep self = Raise ValueError) /\
  (~ bad -> (forall k, 1 <= k <= kmax -> length (initialize k) = k /\ forall c, In c (initialize k) -> length c = length (nth 0 data [])) ->
     exists r, Elbow_Model.elbow_process data initialize kmin kmax kstep self = Ok r).
Proof.
  cbv zeta. assert (V : Elbow_Model.verify_arguments data kmin kmax kstep = true <-> ~ (data = [] \/ kmin = 0 \/ kstep = 0 \/ kmax < kmin + 2 * kstep \/ length data < kmax)).
  { unfold Elbow_Model.verify_arguments. rewrite !andb_true_iff, negb_true_iff, Nat.eqb_neq, !Nat.leb_le.
    assert (D : data = [] <-> length data = 0) by (destruct data; split; auto; discriminate). rewrite D. split.
    - intros (((((A & B) & C) & E) & F) & G). intros [H|[H|[H|[H|H]]]]; try lia.
      assert (Q : 2 <= (kmax - kmin) / kstep) by lia. assert (Z : kstep <> 0) by lia.
      pose proof (Nat.mul_div_le (kmax - kmin) kstep Z). nia.
    - intro H. assert (A : kmin + 2 * kstep <= kmax) by lia. repeat split; try lia.
      assert (Z : kstep <> 0) by lia. assert (2 <= (kmax - kmin) / kstep); [|lia].
      apply Nat.div_le_lower_bound; lia. }
  unfold Elbow_Model.elbow_process. destruct (Elbow_Model.verify_arguments data kmin kmax kstep) eqn:E.
  - split; [intro H; exfalso; apply (proj1 V eq_refl); exact H|]. intros H Hi.
    assert (G : forall ks w, (forall k, In k ks -> 1 <= k <= kmax) -> exists w', Elbow_Model.errors data initialize ks w = Ok w' /\ length w' = length w + length ks).
    { induction ks as [|k ks IH]; intros w Hk; cbn [Elbow_Model.errors].
      - exists w. split; [reflexivity|cbn; lia].
      - destruct (proj2 (C212_kmeans sqdist data (initialize k) (1 # 1000) 200)) as (r & Er).
        + pose proof (Hk k (or_introl eq_refl)) as Hr. destruct (Hi k Hr) as (L & Ld). assert (Hne : initialize k <> []) by (intro Hz; rewrite Hz in L; cbn in L; lia).
          intros [Z|[Z|[Z|Z]]]; [tauto|contradiction|discriminate Z|]. apply Z. symmetry. apply Ld. destruct (initialize k); [contradiction|left; reflexivity].
        + rewrite Er. cbn [bind]. destruct (IH (w ++ [snd r])) as (w' & Ew & Lw); [intros; apply Hk; right; assumption|]. exists w'. split; [exact Ew|]. rewrite Lw, app_length. cbn. lia. }
    destruct (G (Elbow_Model.amounts kmin kmax kstep) (Elbow_Model.wce self)) as (w & Ew & Lw).
    { intros k Hk. unfold Elbow_Model.amounts in Hk. apply in_map_iff in Hk as (i & <- & Hs). apply in_seq in Hs.
      assert (Z : kstep <> 0) by lia. pose proof (Nat.mul_div_le (kmax - kmin) kstep Z). nia. }
    rewrite Ew. cbn [bind]. unfold Elbow_Model.find_optimal_kvalue.
    assert (Le : length (Elbow_Model.elbows self ++ Elbow_Model.calculate_elbows w) <> 0).
    { rewrite app_length. unfold Elbow_Model.calculate_elbows. rewrite map_length, seq_length, Lw. unfold Elbow_Model.amounts. rewrite map_length, seq_length.
      assert (2 <= (kmax - kmin) / kstep) by (apply Nat.div_le_lower_bound; lia). lia. }
    destruct (Elbow_Model.elbows self ++ Elbow_Model.calculate_elbows w); [cbn in Le; lia|]. cbn [bind]. eauto.
  - split; [reflexivity|]. intro H. apply V in H. congruence.
Qed.
Print Assumptions C212_elbow.

(** The silhouette and the search by it. *)
Theorem C212_silhouette rows clusters data calculate kmin kmax self :
  (rows = [] \/ clusters = [] -> Silhouette_Model.process rows clusters = Raise ValueError) /\
  (length data < kmax \/ kmin <= 1 -> Silhouette_Model.ksearch_process data calculate kmin kmax self = Raise ValueError).
Proof.
  split.
  - unfold Silhouette_Model.process. intros [-> | ->]; [reflexivity|]. destruct (length rows =? 0); reflexivity.
  - unfold Silhouette_Model.ksearch_process. intros [H|H].
    + apply Nat.ltb_lt in H. now rewrite H.
    + apply Nat.leb_le in H. rewrite H. destruct (length data <? kmax); reflexivity.
Qed.
Print Assumptions C212_silhouette.

(** X-means and G-means; the tolerance of G-means must be positive, that of
    X-means may be zero. *)
Theorem C212_xmeans metric tolerance seeds data kmax repeats better initial fuel :
  data = [] \/ initial = [] \/ (tolerance < 0)%Q \/ repeats = 0 ->
  Xmeans_Model.xmeans_process metric tolerance seeds data kmax repeats better initial fuel = Raise ValueError.
Proof.
  unfold Xmeans_Model.xmeans_process. intros [-> |[-> |[H| ->]]]; [reflexivity| | |].
  - destruct (length data =? 0); reflexivity.
  - apply qneg in H. rewrite H. destruct (length data =? 0); [reflexivity|]. destruct (length initial =? 0); reflexivity.
  - destruct (length data =? 0); [reflexivity|]. destruct (length initial =? 0); [reflexivity|]. destruct (Qltb tolerance 0); reflexivity.
Qed.
Print Assumptions C212_xmeans.
Theorem C212_gmeans tolerance seeds data k_init repeats k_max test fuel :
  data = [] \/ k_init = 0 \/ (tolerance <= 0)%Q \/ repeats = 0 \/ (exists k, k_max = Some k /\ k < k_init) ->
  Xmeans_Model.gmeans_process tolerance seeds data k_init repeats k_max test fuel = Raise ValueError.
Proof.
  unfold Xmeans_Model.gmeans_process. intro H.
  destruct (Nat.eqb_spec (length data) 0) as [|A]; [reflexivity|]. destruct (Nat.eqb_spec k_init 0) as [|B]; [reflexivity|].
  destruct (Qle_bool tolerance 0) eqn:T; [reflexivity|]. destruct (Nat.eqb_spec repeats 0) as [|C]; [reflexivity|].
  destruct H as [-> |[H|[H|[H|(k & -> & H)]]]]; [cbn in A; congruence|contradiction|apply Qle_bool_iff in H; congruence|contradiction|].
  apply Nat.ltb_lt in H. rewrite H, orb_true_r. reflexivity.
Qed.
Print Assumptions C212_gmeans.

(** Two points and one centre of the plane are accepted; a centre of the line
    is not. *)
Example C212_example :
  (exists r, Kmeans_Model.kmeans_process sqdist [[0; 0]; [1; 0]]%Q [[0; 1]]%Q 0%Q 5 = Ok r) /\
  Kmeans_Model.kmeans_process sqdist [[0; 0]; [1; 0]]%Q [[0]]%Q 0%Q 5 = Raise ValueError /\
  Kmeans_Model.kmedians_process sqdist [[0; 0]; [1; 0]]%Q [[0]]%Q 0%Q 5 = Raise NameError.
Proof. repeat split. eexists. reflexivity. Qed.
(** Three amounts of centres for three points: the least range. *)
Example C212_elbow_example : exists r, Elbow_Model.elbow_process [[0]; [1]; [5]]%Q (fun k => firstn k [[0]; [1]; [5]]%Q) 1 3 1 Elbow_Model.elbow_initial = Ok r.
Proof. eexists. reflexivity. Qed.
