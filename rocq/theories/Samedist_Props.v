(** C242: algorithms that look at distances only give the same clusters when all
    distances are multiplied by one factor: for turned, mirrored, moved or
    rescaled points, and for points with additional constant columns. *)
From Verif Require Import Base Kmeans_Model Rock_Model Silhouette_Model Dbscan_Model Dbscan_Proofs Dbscan_Inst Dbmeta_Proofs Aggl_Model Kmedoids_Model Init_Model Scaled_Proofs.
From Coq Require Import Reals.
Open Scope nat_scope.

(** ** specification *)
(** the points of [data'] have s times the distances of those of [data] *)
Definition resized (s : Q) (data data' : list point) : Prop :=
  length data' = length data /\
  forall i j, i < length data -> j < length data ->
    (sqdist (nth i data' []) (nth j data' []) == s * s * sqdist (nth i data []) (nth j data []))%Q.

Definition resized_matrix (m : Q) (M M' : list (list Q)) : Prop := Forall2 (Forall2 (fun a a' => a' == m * a)%Q) M M'.
Definition matrix_distance (M : list (list Q)) (i j : nat) : Q := nth j (nth i M []) 0%Q.
Definition point_distance (data : list point) (i j : nat) : Q := sqdist (nth i data []) (nth j data []).

Definition same_floats (a b : fl) : Prop := match a, b with Fin x, Fin y => (x == y)%Q | NaN, NaN | PInf, PInf | NInf, NInf => True | _, _ => False end.

(** ** helpers *)
Lemma square_pos s : (0 < s)%Q -> (0 < s * s)%Q. Proof. intro. nra. Qed.

Lemma resized_all s data data' : resized s data data' -> forall i j, times (s * s) (point_distance data i j) (point_distance data' i j).
Proof.
  intros (L & H) i j. unfold times, point_distance. destruct (Nat.lt_ge_cases i (length data)) as [Hi|Hi].
  - destruct (Nat.lt_ge_cases j (length data)) as [Hj|Hj]; [apply H; assumption|].
    rewrite (nth_overflow data (n := j)), (nth_overflow data' (n := j)) by (unfold point in *; lia). rewrite (sqdist_sym _ []), (sqdist_sym (nth i data []) []). cbn [sqdist]. ring.
  - rewrite (nth_overflow data (n := i)), (nth_overflow data' (n := i)) by (unfold point in *; lia). cbn [sqdist]. ring.
Qed.

Lemma resized_matrix_all m M M' : resized_matrix m M M' -> forall i j, times m (matrix_distance M i j) (matrix_distance M' i j).
Proof.
  intros H i. unfold matrix_distance. assert (R : Forall2 (fun a a' => a' == m * a)%Q (nth i M []) (nth i M' [])).
  { revert i. induction H; intros [|i]; cbn [nth]; auto. }
  apply times_nth. exact R.
Qed.

Definition same_medoids (m : Q) (r r' : res kmedoids_result) : Prop :=
  match r, r' with
  | Ok a, Ok b => r_clusters b = r_clusters a /\ r_medoids b = r_medoids a /\ r_labels b = r_labels a /\ r_iterations b = r_iterations a /\ (r_total b == m * r_total a)%Q
  | Raise e, Raise e' => e' = e
  | _, _ => False
  end.

Lemma kmedoids_same m D D' n initial tol tol' itermax : (0 < m)%Q -> (forall i j, times m (D i j) (D' i j)) -> (tol' == m * tol)%Q ->
  same_medoids m (kmedoids_process D n initial tol itermax) (kmedoids_process D' n initial tol' itermax).
Proof.
  intros Hm HD Ht. unfold kmedoids_process. destruct (n =? 0); [reflexivity|]. destruct initial as [|i0 it]; [reflexivity|].
  rewrite (scale_ltb0 m Hm tol tol' Ht). destruct (Qltb tol 0); [reflexivity|]. destruct itermax as [|k]; [cbn; repeat split; ring|].
  pose proof (times_kmedoids_loop m Hm D D' n HD tol tol' Ht (S k) None None (i0 :: it) 0 _ _ I (times_deviation m Hm D D' n HD (i0 :: it))) as H.
  destruct (kmedoids_loop D n tol (S k) None (i0 :: it) 0 (med_deviation D n (i0 :: it))) as [[a b] c], (kmedoids_loop D' n tol' (S k) None (i0 :: it) 0 (med_deviation D' n (i0 :: it))) as [[a' b'] c'].
  destruct H as (-> & -> & Hc). rewrite (times_clusters m Hm D D' n HD). destruct (erase_empty (med_clusters D n a) a) as [x y]. cbn.
  repeat split; auto. apply (times_labels m). apply times_table; assumption.
Qed.

(** k-medoids, for points and for distance matrices; the tolerance is a distance too *)
Theorem C242_kmedoids s data data' initial tolerance itermax : (0 < s)%Q -> resized s data data' ->
  same_medoids (s * s) (kmedoids_process (point_distance data) (length data) initial tolerance itermax)
                       (kmedoids_process (point_distance data') (length data') initial (s * s * tolerance) itermax).
Proof.
  intros Hs H. destruct (H) as (L & _). unfold point in *. rewrite L. apply kmedoids_same; [apply square_pos, Hs|apply resized_all, H|reflexivity].
Qed.
Print Assumptions C242_kmedoids.

Theorem C242_kmedoids_matrix m M M' initial tolerance itermax : (0 < m)%Q -> resized_matrix m M M' ->
  same_medoids m (kmedoids_process (matrix_distance M) (length M) initial tolerance itermax)
                 (kmedoids_process (matrix_distance M') (length M') initial (m * tolerance) itermax).
Proof.
  intros Hm H. assert (L : length M' = length M) by (clear Hm; induction H; cbn [length]; congruence). rewrite L.
  apply kmedoids_same; [exact Hm|apply resized_matrix_all, H|reflexivity].
Qed.
Print Assumptions C242_kmedoids_matrix.

(** the initializers choose the same points, whatever the random numbers *)
Theorem C242_initializers s data data' : (0 < s)%Q -> resized s data data' ->
  (forall k, build_initialize (point_distance data') (length data') k = build_initialize (point_distance data) (length data) k) /\
  (forall pick amount candidates draw0 draws free,
     plus_initialize pick (point_distance data') (length data') amount candidates draw0 draws free =
     plus_initialize pick (point_distance data) (length data) amount candidates draw0 draws free).
Proof.
  intros Hs H. destruct (H) as (L & _). pose proof (resized_all _ _ _ H) as HD. pose proof (square_pos s Hs) as Hm. unfold point in *. rewrite L. split; intros.
  - apply (times_build_initialize (s * s)); assumption.
  - apply (times_plus (s * s)); assumption.
Qed.
Print Assumptions C242_initializers.

(** DBSCAN with the radius multiplied too: cluster by cluster the same members, and the same noise *)
Theorem C242_dbscan s d d' data data' eps minpts : (0 < s)%Q -> resized s data data' -> 0 < d -> 0 < d' -> data <> [] ->
  same_dimension d data -> same_dimension d' data' -> (0 <= eps)%Q ->
  exists clusters clusters' noise, dbscan_points data eps minpts [] [] = Ok (clusters, noise) /\
    dbscan_points data' (s * eps) minpts [] [] = Ok (clusters', noise) /\ Forall2 (@Permutation nat) clusters clusters'.
Proof.
  intros Hs H Hd Hd' Hne Sd Sd' He. destruct (H) as (L & _).
  assert (Hne' : data' <> []) by (intro; subst; destruct data; [apply Hne; reflexivity|discriminate]).
  destruct (dbscan_points_correct d data eps minpts [] [] Hd Hne Sd He) as (c & n & E & R).
  destruct (dbscan_points_correct d' data' (s * eps) minpts [] [] Hd' Hne' Sd') as (c' & n' & E' & R'); [nra|].
  cbn [app] in E, E'. unfold point in *. rewrite L in R'.
  destruct (result_unique (length data) (near data eps) (near data' (s * eps)) minpts c n c' n') as (P & _ & N).
  - intros a b _ _. apply near_sym.
  - intros a b Ha Hb. unfold near. f_equal. symmetry. apply (scale_leb (s * s)); [apply square_pos, Hs|apply (resized_all _ _ _ H)|ring].
  - exact R.
  - exact R'.
  - subst n'. exists c, c', n. auto.
Qed.
Print Assumptions C242_dbscan.

(** ROCK with the radius multiplied too *)
Lemma adjacent_same s data data' eps : (0 < s)%Q -> resized s data data' -> forall i j, adjacent data' (s * eps) i j = adjacent data eps i j.
Proof. intros Hs H i j. unfold adjacent. f_equal. apply (scale_leb (s * s)); [apply square_pos, Hs|apply (resized_all _ _ _ H)|ring]. Qed.

Theorem C242_rock s data data' eps threshold number : (0 < s)%Q -> resized s data data' -> rock data' (s * eps) threshold number = rock data eps threshold number.
Proof.
  intros Hs H. pose proof (adjacent_same s data data' eps Hs H) as A. destruct (H) as (L & _).
  assert (Li : forall c1 c2, calculate_links data' (s * eps) c1 c2 = calculate_links data eps c1 c2).
  { intros c1 c2. unfold calculate_links. f_equal. induction (list_prod c1 c2) as [|x t IH]; cbn [filter]; [reflexivity|]. now rewrite A, IH. }
  assert (F : forall ps cl mx best, find_loop data' (s * eps) threshold cl ps mx best = find_loop data eps threshold cl ps mx best).
  { induction ps as [|[i j] ps IH]; intros cl mx best; cbn [find_loop]; [reflexivity|]. unfold calculate_goodness. rewrite Li.
    destruct (Req_EM_T _ 0); cbn [bind]; [reflexivity|]. destruct (Rlt_dec mx _); apply IH. }
  assert (G : forall fuel cl, rock_loop data' (s * eps) threshold fuel number cl = rock_loop data eps threshold fuel number cl).
  { induction fuel as [|f IH]; intro cl; cbn [rock_loop]; [reflexivity|]. unfold find_pair_clusters. rewrite F. destruct (number <? length cl); [|reflexivity].
    destruct (find_loop data eps threshold cl (pairs (length cl)) 0 None); cbn [bind]; [|reflexivity]. destruct a as [[i j]|]; [apply IH|reflexivity]. }
  unfold rock. rewrite G. unfold point in *. rewrite L.
  assert (E : Qltb (s * eps) 0 = Qltb eps 0) by (apply (scale_ltb0 s Hs); reflexivity). rewrite E.
  destruct data, data'; try discriminate; reflexivity.
Qed.
Print Assumptions C242_rock.

(** agglomerative clustering with a link between objects *)
Lemma distances_times s data data' c1 c2 : (0 < s)%Q -> resized s data data' -> Forall2 (times (s * s)) (distances data c1 c2) (distances data' c1 c2).
Proof.
  intros Hs H. unfold distances. induction c1 as [|a c1 IH]; cbn [flat_map]; [constructor|]. apply Forall2_app; [|exact IH]. apply map_times. intros x _. apply (resized_all _ _ _ H).
Qed.

Lemma pair_value_times s data data' link st ij : (0 < s)%Q -> resized s data data' -> link <> CentroidLink ->
  times (s * s) (pair_value data link st ij) (pair_value data' link st ij).
Proof.
  intros Hs H Hl. destruct ij as [i j]. cbn [pair_value]. pose proof (square_pos s Hs) as Hm.
  pose proof (distances_times s data data' (nth i (clusters st) []) (nth j (clusters st) []) Hs H) as D. destruct link; [| | |congruence].
  - unfold nearest_distance. generalize D. generalize (distances data (nth i (clusters st) []) (nth j (clusters st) [])) (distances data' (nth i (clusters st) []) (nth j (clusters st) [])).
    intros l l' F. destruct F as [|x x' l l' Hx F]; cbn [min_by]; [unfold times; ring|]. revert x x' Hx. induction F as [|y y' l l' Hy F IH]; intros x x' Hx; cbn [min_by_from]; [exact Hx|].
    rewrite (scale_ltb (s * s) Hm y x y' x' Hy Hx). apply IH. destruct (Qltb y x); assumption.
  - unfold farthest_distance. generalize D. generalize (distances data (nth i (clusters st) []) (nth j (clusters st) [])) (distances data' (nth i (clusters st) []) (nth j (clusters st) [])).
    intros l l' F. assert (Z0 : times (s * s) 0 0) by (unfold times; ring). revert Z0. generalize 0%Q at 1 3. generalize 0%Q. induction F as [|y y' l l' Hy F IH]; intros x' x Hx; cbn [fold_left]; [exact Hx|].
    rewrite (scale_ltb (s * s) Hm x y x' y' Hx Hy). apply IH. destruct (Qltb x y); assumption.
  - unfold average_distance. pose proof (times_sum (s * s) _ _ D) as E. unfold times in *. rewrite E. unfold Qdiv. ring.
Qed.

Theorem C242_agglomerative s data data' link number : (0 < s)%Q -> resized s data data' -> link <> CentroidLink ->
  agglomerative data' link number = agglomerative data link number.
Proof.
  intros Hs H Hl. destruct (H) as (L & _).
  assert (M : forall st, merge_step data' link st = merge_step data link st).
  { intro st. unfold merge_step.
    rewrite (times_min_by (s * s) (square_pos s Hs) (pair_value data link st) (pair_value data' link st)) by (intros x _; apply pair_value_times; assumption).
    destruct (min_by (pair_value data link st) _) as [[i j]|]; [|reflexivity]. destruct (j <? length (clusters st)); [|reflexivity]. destruct link; try reflexivity; congruence. }
  assert (G : forall fuel st, merge_loop data' link fuel number st = merge_loop data link fuel number st).
  { induction fuel as [|f IH]; intro st; cbn [merge_loop]; [reflexivity|]. destruct (number <? length (clusters st)); [|reflexivity]. rewrite M. destruct (merge_step data link st); cbn [bind]; [apply IH|reflexivity]. }
  unfold agglomerative. assert (N : new data' link number = new data link number).
  { unfold new. destruct data, data'; try discriminate; [reflexivity|]. destruct (number =? 0); [reflexivity|]. destruct link; try reflexivity; congruence. }
  rewrite N. destruct (new data link number); cbn [bind]; [|reflexivity]. unfold process. unfold point in *. rewrite L. apply G.
Qed.
Print Assumptions C242_agglomerative.

(** ** silhouettes *)
Definition times_res (m : Q) (r r' : res Q) : Prop := match r, r' with Ok a, Ok b => times m a b | Raise e, Raise e' => e' = e | _, _ => False end.

Section Sil.
Variable m : Q.
Hypothesis Hm : (0 < m)%Q.

Lemma difference_times row row' : Forall2 (times m) row row' -> forall cluster a a', times m a a' ->
  times_res m (cluster_difference a row cluster) (cluster_difference a' row' cluster).
Proof.
  intro H. assert (L : length row' = length row) by (induction H; cbn [length]; congruence).
  induction cluster as [|i t IH]; intros a a' Ha; cbn [cluster_difference]; [exact Ha|]. rewrite L. destruct (i <? length row); [|reflexivity]. apply IH.
  pose proof (times_nth m _ _ H i) as N. unfold times in *. rewrite Ha, N. ring.
Qed.

Lemma score_times clusters row row' c : Forall2 (times m) row row' -> times_res m (cluster_score clusters c row) (cluster_score clusters c row').
Proof.
  intro H. unfold cluster_score. pose proof (difference_times row row' H (nth c clusters []) 0%Q 0%Q ltac:(unfold times; ring)) as D.
  destruct (cluster_difference 0 row _), (cluster_difference 0 row' _); cbn [times_res bind] in *; try contradiction; [|exact D].
  destruct (length (nth c clusters []) =? 0); [reflexivity|]. cbn [times_res]. unfold times in *. rewrite D. unfold Qdiv. ring.
Qed.

Lemma neighbor_times clusters own row row' : Forall2 (times m) row row' -> forall cs o o', times_opt m o o' ->
  match neighbor_loop clusters own row cs o, neighbor_loop clusters own row' cs o' with Ok a, Ok b => times_opt m a b | Raise e, Raise e' => e' = e | _, _ => False end.
Proof.
  intro H. induction cs as [|c t IH]; intros o o' Ho; cbn [neighbor_loop]; [exact Ho|]. destruct (own =? c); [apply IH; exact Ho|].
  pose proof (score_times clusters row row' c H) as S. destruct (cluster_score clusters c row), (cluster_score clusters c row'); cbn [times_res bind] in *; try contradiction; [|exact S].
  apply IH. destruct o as [q|], o' as [q'|]; cbn [times_opt] in *; try contradiction; [|exact S]. rewrite (scale_ltb m Hm _ _ _ _ S Ho). destruct (Qltb a q); assumption.
Qed.

Lemma neighbor_some clusters own row : forall cs o v, neighbor_loop clusters own row cs o = Ok v -> o <> None \/ (exists c, In c cs /\ c <> own) -> v <> None.
Proof.
  induction cs as [|c t IH]; intros o v E H; cbn [neighbor_loop] in E.
  - apply Ok_inj in E as <-. destruct H as [H|(c & [] & _)]. exact H.
  - destruct (Nat.eqb_spec own c) as [Eo|Eo].
    + apply (IH _ _ E). destruct H as [H|(c0 & [<- |Hc] & Hn)]; [left; exact H|congruence|right; exists c0; auto].
    + destruct (cluster_score clusters c row); cbn [bind] in E; [|discriminate]. apply (IH _ _ E). left. destruct o as [q|]; [destruct (Qltb a q)|]; discriminate.
Qed.

Lemma ndiv_times a a' b b' : times m a a' -> times m b b' -> same_floats (ndiv a b) (ndiv a' b').
Proof.
  intros Ha Hb. unfold ndiv. rewrite (scale_zero m Hm _ _ Hb), (scale_zero m Hm _ _ Ha). destruct (Qeq_bool b 0) eqn:E.
  - destruct (Qeq_bool a 0); [exact I|]. rewrite (scale_ltb m Hm 0 a 0 a') by (auto; ring). destruct (Qltb 0 a); exact I.
  - apply Qeq_bool_false in E. cbn. unfold times in *. rewrite Ha, Hb. field. split; [exact E|lra].
Qed.

Definition same_score (r r' : res fl) : Prop := match r, r' with Ok a, Ok b => same_floats a b | Raise e, Raise e' => e' = e | _, _ => False end.
Definition same_scores (r r' : res (list fl)) : Prop := match r, r' with Ok a, Ok b => Forall2 same_floats a b | Raise e, Raise e' => e' = e | _, _ => False end.

Lemma calculate_times rows rows' clusters i own : 2 <= length clusters -> Forall2 (Forall2 (times m)) rows rows' -> same_score (calculate_score rows clusters i own) (calculate_score rows' clusters i own).
Proof.
  intros H2 H. assert (L : length rows' = length rows) by (induction H; cbn [length]; congruence). unfold calculate_score. rewrite L. destruct (i <? length rows); [|reflexivity].
  assert (R : Forall2 (times m) (nth i rows []) (nth i rows' [])) by (clear L; revert i; induction H; intros [|i]; cbn [nth]; auto).
  unfold within_cluster_score, neighbor_score.
  pose proof (difference_times _ _ R (nth own clusters []) 0%Q 0%Q ltac:(unfold times; ring)) as D.
  destruct (cluster_difference 0 (nth i rows []) _) as [x|], (cluster_difference 0 (nth i rows' []) _) as [x'|]; cbn [times_res bind] in *; try contradiction; [|exact D].
  pose proof (neighbor_times clusters own _ _ R (seq 0 (length clusters)) None None I) as N.
  destruct (neighbor_loop clusters own (nth i rows []) (seq 0 (length clusters)) None) as [o|] eqn:EN, (neighbor_loop clusters own (nth i rows' []) (seq 0 (length clusters)) None) as [o'|]; try contradiction.
  - assert (Ho : o <> None).
    { apply (neighbor_some _ _ _ _ _ _ EN). right. exists (if own =? 0 then 1 else 0). destruct (Nat.eqb_spec own 0); split; try (apply in_seq; lia); lia. }
    destruct o as [o|]; [|congruence]. destruct o' as [o'|]; [|contradiction]. cbn [times_opt] in N. cbn [bind].
    destruct (length (nth own clusters []) =? 1); cbn [bind same_score]; [exact I|].
    set (k := inject_Z _). assert (A : times m (x / k) (x' / k)) by (unfold times in *; rewrite D; unfold Qdiv; ring).
    rewrite (scale_ltb m Hm _ _ _ _ A N). apply ndiv_times; [|destruct (Qltb (x / k) o); assumption]. unfold times in *. rewrite N, A. ring.
  - cbn [bind]. destruct (length (nth own clusters []) =? 1); cbn [bind same_score]; exact N.
Qed.

Lemma upd_same l l' i a b : Forall2 same_floats l l' -> same_floats a b -> Forall2 same_floats (upd l i a) (upd l' i b).
Proof. intros H. revert i. induction H; intros [|i] Hab; cbn [upd]; constructor; auto. Qed.

Lemma process_times rows rows' clusters : 2 <= length clusters -> Forall2 (Forall2 (times m)) rows rows' -> same_scores (Silhouette_Model.process rows clusters) (Silhouette_Model.process rows' clusters).
Proof.
  intros H2 H. assert (L : length rows' = length rows) by (induction H; cbn [length]; congruence). unfold Silhouette_Model.process. rewrite L.
  destruct (length rows =? 0); [reflexivity|]. destruct (length clusters =? 0); [reflexivity|].
  assert (S1 : forall own cluster sc sc', Forall2 same_floats sc sc' -> same_scores (score_cluster rows clusters own cluster sc) (score_cluster rows' clusters own cluster sc')).
  { intros own. induction cluster as [|i t IH]; intros sc sc' Hs; cbn [score_cluster]; [exact Hs|]. pose proof (calculate_times rows rows' clusters i own H2 H) as C.
    destruct (calculate_score rows clusters i own), (calculate_score rows' clusters i own); cbn [same_score bind] in *; try contradiction; [|exact C]. apply IH, upd_same; assumption. }
  assert (S2 : forall cs sc sc', Forall2 same_floats sc sc' -> same_scores (score_clusters rows clusters cs sc) (score_clusters rows' clusters cs sc')).
  { induction cs as [|c t IH]; intros sc sc' Hs; cbn [score_clusters]; [exact Hs|]. pose proof (S1 c (nth c clusters []) sc sc' Hs) as C.
    destruct (score_cluster rows clusters c _ sc), (score_cluster rows' clusters c _ sc'); cbn [same_scores bind] in *; try contradiction; [|exact C]. apply IH. exact C. }
  apply S2. generalize (length rows). clear. intro n. induction n as [|n IH]; cbn [repeat]; constructor; [reflexivity|exact IH].
Qed.
End Sil.

(** the silhouette scores of at least two clusters, for points and for matrices *)
Theorem C242_silhouette s data data' clusters : (0 < s)%Q -> resized s data data' -> 2 <= length clusters ->
  same_scores (Silhouette_Model.process (point_rows data) clusters) (Silhouette_Model.process (point_rows data') clusters).
Proof.
  intros Hs H H2. apply (process_times (s * s)); [apply square_pos, Hs|exact H2|]. unfold point_rows.
  destruct (H) as (L & HD).
  assert (G : forall (f f' : point -> Q) l l', (forall i, i < length l -> times (s * s) (f (nth i l [])) (f' (nth i l' []))) -> length l' = length l -> Forall2 (times (s * s)) (map f l) (map f' l')).
  { intros f f'. induction l as [|x l IH]; intros [|y l'] Hf Hl; try discriminate; cbn [map]; constructor; [apply (Hf 0); cbn; lia|]. apply IH; [intros i Hi; apply (Hf (S i)); cbn; lia|cbn in Hl; lia]. }
  assert (GG : forall l l', length l' = length l -> (forall i j, i < length data -> j < length l -> times (s * s) (sqdist (nth i data []) (nth j l [])) (sqdist (nth i data' []) (nth j l' []))) ->
     Forall2 (Forall2 (times (s * s))) (map (fun p => map (fun q => sqdist q p) data) l) (map (fun p => map (fun q => sqdist q p) data') l')).
  { induction l as [|x l IH]; intros [|y l'] Hl Hf; try discriminate; cbn [map]; constructor.
    - apply G; [|exact L]. intros i Hi. apply (Hf i 0 Hi). cbn; lia.
    - apply IH; [cbn in Hl; lia|]. intros i j Hi Hj. apply (Hf i (S j) Hi). cbn; lia. }
  apply GG; [exact L|]. intros i j Hi Hj. apply HD; assumption.
Qed.
Print Assumptions C242_silhouette.

(** with one cluster there is no neighbour and the code puts -1 for its distance: the score then depends on the unit *)
Theorem C242_one_cluster_refuted : exists s data data' clusters, (0 < s)%Q /\ resized s data data' /\ length clusters = 1 /\
  ~ same_scores (Silhouette_Model.process (point_rows data) clusters) (Silhouette_Model.process (point_rows data') clusters).
Proof.
  exists 2%Q, [[0]; [1]]%Q, [[0]; [2]]%Q, [[0; 1]]. split; [reflexivity|]. split; [|split; [reflexivity|]].
  - split; [reflexivity|]. intros [|[|i]] [|[|j]] Hi Hj; cbn in Hi, Hj; try lia; reflexivity.
  - vm_compute. intro H. inversion H as [|? ? ? ? H1]; subst. discriminate H1.
Qed.
Print Assumptions C242_one_cluster_refuted.

(** a right-angled triangle and a far point, turned by a quarter and doubled *)
Definition ex_data : list point := [[0; 0]; [3; 0]; [0; 4]; [20; 20]]%Q.
Definition ex_data' : list point := [[0; 0]; [0; 6]; [-8; 0]; [-40; 40]]%Q.
Example C242_example : resized 2 ex_data ex_data' /\ agglomerative ex_data' CompleteLink 2 = agglomerative ex_data CompleteLink 2 /\
  match agglomerative ex_data CompleteLink 2 with Ok st => clusters st = [[0; 1; 2]; [3]] | _ => False end /\
  match kmedoids_process (point_distance ex_data') 4 [0; 1] (4 * (1 # 1000)) 10 with Ok r => r_clusters r = [[0; 1; 2]; [3]] | _ => False end.
Proof.
  split; [|split; [vm_compute; reflexivity|split; vm_compute; reflexivity]].
  split; [reflexivity|]. intros [|[|[|[|i]]]] [|[|[|[|j]]]] Hi Hj; cbn in Hi, Hj; try lia; reflexivity.
Qed.
