(** Properties of the distance functions.  [crd p i] is a coordinate, [total D f] the sum of [f 0 .. f (D-1)],
    [is_metric D d] says that [d] is a metric on the points with [D] coordinates. *)
From Verif Require Import Base Metric_Model Metric_Proofs.
From Coq Require Import Reals Lra.
Open Scope R_scope.

(** ** C35 *)
Theorem C35_euclidean D : exists d, is_metric D d /\ forall p q, length p = D -> length q = D ->
  euclidean_distance p q = Ok (d p q) /\ euclidean_distance_square p q = Ok (d p q * d p q) /\
  d p q * d p q = total D (fun i => (crd p i - crd q i) * (crd p i - crd q i)).
Proof.
  eexists. split; [apply (euclidean_metric D)|]. intros p q Hp Hq. cbv beta. rewrite sqrt_sqrt by apply sq_total_pos. split; [apply euclidean_value; auto|]. split; [apply euclidean_square_value; auto|].
  apply total_ext. intros. ring.
Qed.
Print Assumptions C35_euclidean.
Theorem C35_manhattan D : exists d, is_metric D d /\ forall p q, length p = D -> length q = D ->
  manhattan_distance p q = Ok (d p q) /\ d p q = total D (fun i => Rabs (crd p i - crd q i)).
Proof. eexists. split; [apply (manhattan_metric D)|]. intros p q Hp Hq. split; [apply manhattan_value; auto|reflexivity]. Qed.
Print Assumptions C35_manhattan.
Theorem C35_chebyshev D : exists d, is_metric D d /\ forall p q, length p = D -> length q = D ->
  chebyshev_distance p q = Ok (d p q) /\ (forall i, (i < D)%nat -> Rabs (crd p i - crd q i) <= d p q) /\
  ((1 <= D)%nat -> exists i, (i < D)%nat /\ d p q = Rabs (crd p i - crd q i)).
Proof.
  set (d := fun p q => match chebyshev_distance p q with Ok m => m | Raise _ => 0 end).
  assert (H : forall p q, length p = D -> length q = D -> is_largest D (fun i => Rabs (crd p i - crd q i)) (d p q) /\ chebyshev_distance p q = Ok (d p q)).
  { intros p q Hp Hq. destruct (chebyshev_value D p q Hp Hq) as (m & E & L). unfold d. rewrite E. auto. }
  exists d. split; [apply largest_metric; intros; apply H; auto|]. intros p q Hp Hq. destruct (H p q Hp Hq) as [[A [[-> _]|O]] E]; split; auto; split; auto; lia.
Qed.
Print Assumptions C35_chebyshev.
Theorem C35_canberra D : exists d, is_metric D d /\ forall p q, length p = D -> length q = D ->
  canberra_distance p q = Ok (d p q) /\ 0 <= d p q <= INR D /\
  ((forall i, (i < D)%nat -> crd p i <> 0) -> d p q = total D (fun i => Rabs (crd p i - crd q i) / (Rabs (crd p i) + Rabs (crd q i)))).
Proof.
  eexists. split; [apply (canberra_metric D)|]. intros p q Hp Hq. cbv beta. split; [apply canberra_value; auto|]. split.
  - split; [apply total_pos; intros; apply canb_bounds|]. replace (INR D) with (total D (fun _ => 1)); [apply total_le; intros; apply canb_bounds|].
    clear. induction D as [|D IH]; [reflexivity|]. rewrite total_S, IH, S_INR. lra.
  - intros Hn. apply total_ext. intros i Hi. unfold canb. destruct (Req_EM_T _ 0) as [E|]; auto. exfalso. destruct (sum_abs (crd p i) (crd q i)) as [(Z & _)|P]; [apply (Hn i); auto|lra].
Qed.
Print Assumptions C35_canberra.
(** points of different lengths: a longer first point fails, a longer second one is cut *)
Example C35_case : euclidean_distance [3; 4] [0; 0] = Ok 5 /\ manhattan_distance [1; -2] [0; 0] = Ok 3 /\ chebyshev_distance [1; -2] [0; 0] = Ok 2 /\
  euclidean_distance [3; 4] [0] = Raise IndexError.
Proof.
  split; [|split; [|split]].
  - rewrite (euclidean_value 2) by reflexivity. f_equal. unfold total, crd. cbn [seq map fold_right nth]. replace ((3 - 0) ^ 2 + ((4 - 0) ^ 2 + 0)) with (5 * 5) by ring. apply sqrt_square. lra.
  - rewrite (manhattan_value 2) by reflexivity. f_equal. unfold total, crd. cbn [seq map fold_right nth]. unfold Rabs. destruct (Rcase_abs (1 - 0)), (Rcase_abs (-2 - 0)); lra.
  - unfold chebyshev_distance. cbn [loop]. f_equal. unfold Rmax, Rabs. destruct (Rcase_abs (1 - 0)), (Rcase_abs (-2 - 0)); try lra. destruct (Rle_dec 0 (1 - 0)); [|lra]. destruct (Rle_dec (1 - 0) (- (-2 - 0))); lra.
  - reflexivity.
Qed.

(** ** C80: the Minkowski distance is the p-norm metric for every even degree *)
Theorem C80_minkowski_even D degree : (1 <= degree)%nat -> Nat.Even degree -> exists d, is_metric D d /\ forall p q, length p = D -> length q = D ->
  minkowski_distance p q degree = Ok (Real (d p q)) /\ 0 <= d p q /\ d p q ^ degree = total D (fun i => Rabs (crd p i - crd q i) ^ degree).
Proof.
  intros Hn He. set (d := fun p q => match minkowski_distance p q degree with Ok (Real r) => r | _ => 0 end).
  assert (H : forall p q, length p = D -> length q = D -> minkowski_distance p q degree = Ok (Real (d p q)) /\ 0 <= d p q /\ d p q ^ degree = total D (fun i => Rabs (crd p i - crd q i) ^ degree)).
  { intros p q Hp Hq. destruct (minkowski_even D degree p q Hn He Hp Hq) as (r & E & P & V). unfold d. rewrite E. auto. }
  exists d. split; [apply (norm_metric D degree); auto; intros; apply H; auto|auto].
Qed.
Print Assumptions C80_minkowski_even.
Theorem C80_minkowski_two p q : length p = length q -> exists r, minkowski_distance p q 2 = Ok (Real r) /\ euclidean_distance p q = Ok r.
Proof.
  intros Hl. destruct (minkowski_even (length p) 2 p q ltac:(lia) ltac:(exists 1%nat; reflexivity) eq_refl ltac:(auto)) as (r & E & P & V). exists r. split; auto.
  rewrite (euclidean_value (length p)) by auto. f_equal. apply (pow_inj 2); [lia|apply sqrt_pos|auto|]. rewrite V, <- Rsqr_pow2, Rsqr_sqrt by apply sq_total_pos. apply total_ext. intros. symmetry. apply pow2_abs.
Qed.
Print Assumptions C80_minkowski_two.
(** the signs of the differences are kept: with degree 1 distances are negative and not symmetric, with degree
    3 the result is not even a real number *)
Theorem C80_minkowski_odd_refuted :
  (exists p q, length p = length q /\ minkowski_distance p q 1 = Ok (Real (-1)) /\ minkowski_distance q p 1 = Ok (Real 1)) /\
  (exists p q, length p = length q /\ minkowski_distance p q 3 = Ok NotReal) /\
  (exists p q, length p = length q /\ p <> q /\ minkowski_distance p q 1 = Ok (Real 0)).
Proof.
  split; [|split].
  - exists [0], [1]. split; auto. unfold minkowski_distance. cbn [loop bind]. unfold root. cbn [Nat.eqb]. split; (destruct (Rlt_dec _ 0); [do 2 f_equal; lra|]).
    + exfalso. lra.
    + destruct (Req_EM_T _ 0); [lra|]. do 2 f_equal. replace (0 + (1 - 0) ^ 1) with 1 by ring. unfold Rpower. rewrite ln_1, Rmult_0_r. apply exp_0.
  - exists [0], [1]. split; auto. unfold minkowski_distance. cbn [loop bind]. unfold root. cbn [Nat.eqb]. destruct (Rlt_dec _ 0) as [|n]; auto. exfalso. apply n. lra.
  - exists [0; 1], [1; 0]. split; auto. split; [intros E; injection E; lra|]. unfold minkowski_distance. cbn [loop bind]. unfold root. cbn [Nat.eqb]. destruct (Rlt_dec _ 0); [do 2 f_equal; lra|]. destruct (Req_EM_T _ 0) as [|n']; auto. exfalso. apply n'. lra.
Qed.
Print Assumptions C80_minkowski_odd_refuted.

(** ** C81: chi square distance *)
Theorem C81_chi_square D : exists d, forall p q, length p = D -> length q = D ->
  chi_square_distance p q = Ok (d p q) /\ 0 <= d p q /\ (d p q = 0 <-> p = q) /\ d p q = d q p.
Proof.
  exists (fun p q => total D (fun i => chi (crd p i) (crd q i))). intros p q Hp Hq. split; [apply chi_value; auto|]. split; [apply total_pos; intros; apply chi_nonneg|]. split; [|apply total_ext; intros; apply chi_sym].
  rewrite total_zero_iff by (intros; apply chi_nonneg). rewrite (points_eq D p q Hp Hq). split; intros H i Hi; apply chi_zero; auto.
Qed.
Print Assumptions C81_chi_square.
Theorem C81_chi_square_triangle_refuted : exists p q r a b c, length p = length q /\ length r = length p /\
  chi_square_distance p q = Ok a /\ chi_square_distance p r = Ok b /\ chi_square_distance r q = Ok c /\ b + c < a.
Proof.
  exists [1], [3], [2], (4 / 4), (1 / 3), (1 / 5). split; auto. split; auto. unfold chi_square_distance. cbn [loop]. rewrite !(Rabs_right 1), !(Rabs_right 2), !(Rabs_right 3) by lra.
  repeat split; try (destruct (Req_EM_T _ 0); [lra|]; f_equal; field). lra.
Qed.
Print Assumptions C81_chi_square_triangle_refuted.

(** ** C82: Gower distance with the range of the data *)
Theorem C82_gower D data : data <> [] -> (1 <= D)%nat -> (forall p, In p data -> length p = D) ->
  exists range d, gower_range data = Ok range /\ is_metric_on (fun p => In p data) d /\
    forall p q, In p data -> In q data -> gower_distance p q range = Ok (d p q) /\ 0 <= d p q <= 1.
Proof.
  intros Hne HD Hd. destruct (gower_range_spec D data Hne Hd) as (m & E & Lm & B). exists m. eexists. split; [exact E|].
  assert (Hm : forall i, (i < D)%nat -> 0 <= crd m i). { intros i Hi. destruct data as [|p t]; [congruence|]. pose proof (B i p p Hi ltac:(left; auto) ltac:(left; auto)). pose proof (Rabs_pos (crd p i - crd p i)). lra. }
  assert (Hz : forall i p q, (i < D)%nat -> In p data -> In q data -> crd m i = 0 -> crd p i = crd q i).
  { intros i p q Hi Hp Hq Z. pose proof (B i p q Hi Hp Hq). pose proof (Rabs_pos (crd p i - crd q i)). assert (Y : Rabs (crd p i - crd q i) = 0) by lra. apply (proj1 (abs_zero _)) in Y. lra. }
  pose proof (gower_metric D m (fun p => In p data) HD Hd Hm Hz) as G. split; [exact G|]. intros p q Hp Hq. cbv beta. split; [apply gower_value; auto|]. split; [apply (G p q Hp Hq)|].
  pose proof (Metric_Proofs.INR_pos D HD) as P. apply Rmult_le_reg_r with (INR D); auto. unfold Rdiv. rewrite Rmult_assoc, Rinv_l, Rmult_1_r, Rmult_1_l by lra.
  replace (INR D) with (total D (fun _ => 1)); [apply total_le; intros; apply gow_le1; auto|]. clear. induction D as [|D IH]; [reflexivity|]. rewrite total_S, IH, S_INR. lra.
Qed.
Print Assumptions C82_gower.
(** a column without spread does not count *)
Example C82_case : exists range, gower_range [[0; 7]; [2; 7]; [1; 7]] = Ok range /\ gower_distance [0; 7] [1; 7] range = Ok (1 / 4).
Proof.
  eexists. split; [reflexivity|]. cbn [fold_left map2].
  assert (A : Rmax (Rmax 0 2) 1 = 2) by (unfold Rmax; destruct (Rle_dec 0 2); [|lra]; destruct (Rle_dec 2 1); lra).
  assert (B : Rmin (Rmin 0 2) 1 = 0) by (unfold Rmin; destruct (Rle_dec 0 2); [|lra]; destruct (Rle_dec 0 1); lra).
  assert (C : Rmax (Rmax 7 7) 7 = 7) by (unfold Rmax; destruct (Rle_dec 7 7); destruct (Rle_dec 7 7); lra).
  assert (C' : Rmin (Rmin 7 7) 7 = 7) by (unfold Rmin; destruct (Rle_dec 7 7); destruct (Rle_dec 7 7); lra).
  rewrite A, B, C, C'. rewrite (gower_value 2) by (reflexivity || lia). f_equal. unfold total, crd. cbn [seq map fold_right nth]. unfold gow. destruct (Req_EM_T (2 - 0) 0); [lra|]. destruct (Req_EM_T (7 - 7) 0); [|lra].
  rewrite Rabs_left by lra. simpl. field.
Qed.

(** ** C83: the numpy calculator gives the results of the python calculator *)
Theorem C83_numpy_agrees_partial big t p q : p <> [] -> length p = length q ->
  match t with GOWER range => length range = length p /\ forall i, (i < length p)%nat -> crd range i = 0 -> crd p i = crd q i | _ => True end ->
  distance_numpy big t p q = distance_basic t p q.
Proof. exact (numpy_agrees big t p q). Qed.
Print Assumptions C83_numpy_agrees_partial.
Theorem C83_gower_zero_range big : 0 < big -> exists p q range a b, length p = length q /\ length range = length p /\
  distance_basic (GOWER range) p q = Ok (Real a) /\ distance_numpy big (GOWER range) p q = Ok (Real b) /\ a = 0 /\ b = big / 2.
Proof.
  intros H. exists [1; 0], [0; 0], [0; 1], 0, (big / 2). split; auto. split; auto. cbn [distance_basic distance_numpy]. split; [|split; [|auto]].
  - rewrite (gower_value 2) by (reflexivity || lia). cbn [real bind]. do 2 f_equal. unfold total, crd. cbn [seq map fold_right nth]. unfold gow. destruct (Req_EM_T 0 0); [|lra]. destruct (Req_EM_T 1 0); [lra|]. rewrite Rminus_0_r, Rabs_R0. simpl. field.
  - unfold gower_distance_numpy, elementwise, bdim, spread. cbn [length Nat.eqb bind map2 nsum fold_left real]. unfold nsum, nan_divide. cbn [fold_left]. destruct (Req_EM_T 0 0); [|lra]. destruct (Req_EM_T 1 0); [lra|]. destruct (Req_EM_T (Rabs (1 - 0)) 0) as [E|E]; [apply (proj1 (abs_zero _)) in E; lra|].
    do 2 f_equal. rewrite Rminus_0_r, Rabs_R0. simpl. field.
Qed.
Print Assumptions C83_gower_zero_range.
Theorem C83_gower_refuted : exists big p q range a b, 0 < big /\ length p = length q /\ length range = length p /\
  distance_basic (GOWER range) p q = Ok (Real a) /\ distance_numpy big (GOWER range) p q = Ok (Real b) /\ a <> b.
Proof.
  exists 2. destruct (C83_gower_zero_range 2) as (p & q & range & a & b & H1 & H2 & H3 & H4 & -> & ->); [lra|]. exists p, q, range, 0, (2 / 2). split; [lra|]. repeat (split; [assumption|]). lra.
Qed.
Print Assumptions C83_gower_refuted.


(** ** C84: distance matrices *)
Theorem C84_distance_matrix t D sample :
  match t with GOWER _ => False | MINKOWSKI n => (1 <= n)%nat /\ Nat.Even n | _ => True end -> (forall p, In p sample -> length p = D) ->
  exists m, calculate_distance_matrix sample (distance_basic t) = Ok m /\ length m = length sample /\
    forall i j, (i < length sample)%nat -> (j < length sample)%nat -> length (nth i m []) = length sample /\
      exists r, nth j (nth i m []) NotReal = Real r /\ nth i (nth j m []) NotReal = Real r /\ 0 <= r /\ (r = 0 <-> nth i sample [] = nth j sample []).
Proof.
  intros Ht Hd.
  assert (G : exists d, forall p q, length p = D -> length q = D -> distance_basic t p q = Ok (Real (d p q)) /\ 0 <= d p q /\ (d p q = 0 <-> p = q) /\ d p q = d q p).
  { assert (X : forall d f, is_metric D d -> (forall p q, length p = D -> length q = D -> f p q = Ok (d p q)) -> forall p q, length p = D -> length q = D -> real (f p q) = Ok (Real (d p q)) /\ 0 <= d p q /\ (d p q = 0 <-> p = q) /\ d p q = d q p).
    { intros d f M E p q Hp Hq. rewrite E by auto. destruct (M p q Hp Hq) as (A & B & C & _). auto. }
    destruct t as [| | | |n| | |m]; cbn [distance_basic]; try contradiction.
    - destruct (C35_euclidean D) as (d & M & E). exists d. apply (X d euclidean_distance M). intros; apply E; auto.
    - destruct (C35_euclidean D) as (d & M & E). exists (fun p q => d p q * d p q). intros p q Hp Hq. destruct (E p q Hp Hq) as (_ & E2 & _). destruct (M p q Hp Hq) as (A & B & C & _). rewrite E2. split; [auto|]. split; [nra|]. split; [|rewrite C; auto].
      rewrite <- B. split; intros Z; [|rewrite Z; ring]. apply Rmult_integral in Z. tauto.
    - destruct (C35_manhattan D) as (d & M & E). exists d. apply (X d manhattan_distance M). intros; apply E; auto.
    - destruct (C35_chebyshev D) as (d & M & E). exists d. apply (X d chebyshev_distance M). intros; apply E; auto.
    - destruct Ht as [H1 H2]. destruct (C80_minkowski_even D n H1 H2) as (d & M & E). exists d. intros p q Hp Hq. destruct (M p q Hp Hq) as (A & B & C & _). split; [apply E; auto|auto].
    - destruct (C35_canberra D) as (d & M & E). exists d. apply (X d canberra_distance M). intros; apply E; auto.
    - destruct (C81_chi_square D) as (d & E). exists d. intros p q Hp Hq. destruct (E p q Hp Hq) as (A & B & C & F). rewrite A. auto. }
  destruct G as (d & G). destruct (matrix_spec sample (distance_basic t) (fun p q => Real (d p q))) as (m & E & L & V).
  { intros i j Hi Hj. apply G; apply Hd, nth_In; auto. }
  exists m. split; auto. split; auto. intros i j Hi Hj. split; [apply V; auto|]. destruct (G (nth i sample []) (nth j sample [])) as (_ & A & B & C); [apply Hd, nth_In; auto|apply Hd, nth_In; auto|].
  exists (d (nth i sample []) (nth j sample [])). split; [apply V; auto|]. split; [rewrite C; apply V; auto|]. auto.
Qed.
Print Assumptions C84_distance_matrix.
Example C84_case : exists m, calculate_distance_matrix [[0; 0]; [1; 2]] (distance_basic MANHATTAN) = Ok m /\ nth 1 (nth 0 m []) NotReal = Real 3.
Proof.
  eexists. split; [reflexivity|]. cbn [nth]. f_equal. rewrite !Rabs_left by lra. lra.
Qed.
