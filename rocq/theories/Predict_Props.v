(** predict() with metric objects: C225; predict() of the training data: C226. *)
From Verif Require Import Base.
From Coq Require Import Reals Lra Lia.
From Verif Require Import Metric_Model Metric_Proofs Nmetric_Model Nmetric_Props Predict_Model.
Open Scope nat_scope.

(** ** the specification: the first of the nearest representatives *)
Definition first_nearest (D : rpoint -> R) (reps : list rpoint) (j : nat) : Prop :=
  j < length reps /\ (forall i, i < length reps -> (D (nth j reps []) <= D (nth i reps []))%R) /\ (forall i, i < j -> (D (nth j reps []) < D (nth i reps []))%R).

Lemma argmin_after_spec (all : list R) l : forall best i, length all = i + length l -> skipn i all = l -> best < i ->
  (forall j, j < i -> (nth best all 0 <= nth j all 0)%R) -> (forall j, j < best -> (nth best all 0 < nth j all 0)%R) ->
  let r := argmin_after best (nth best all 0%R) i l in
  r < length all /\ (forall j, j < length all -> (nth r all 0 <= nth j all 0)%R) /\ (forall j, j < r -> (nth r all 0 < nth j all 0)%R).
Proof.
  induction l as [|v l IH]; intros best i Hl Hs Hb Hle Hlt; cbn [argmin_after].
  - simpl in Hl. replace (length all) with i by lia. auto.
  - cbn [length] in Hl.
    assert (Hv : v = nth i all 0%R). { rewrite <- (firstn_skipn i all), app_nth2 by (rewrite firstn_length; lia). rewrite firstn_length, Hs. replace (i - _) with 0 by lia. reflexivity. }
    assert (Hs' : skipn (S i) all = l). { replace (S i) with (1 + i) by lia. rewrite <- (firstn_skipn i all), Hs. rewrite skipn_app. rewrite firstn_length. replace (1 + i - Nat.min i (length all)) with 1 by lia. rewrite skipn_all2 by (rewrite firstn_length; lia). reflexivity. }
    destruct (Rlt_dec v (nth best all 0%R)) as [H|H].
    + rewrite Hv in *. apply IH; auto; [lia| |]; intros j Hj.
      * destruct (Nat.eq_dec j i) as [->|]; [lra|]. specialize (Hle j ltac:(lia)). lra.
      * specialize (Hle j Hj). lra.
    + apply IH; auto; [lia|]. intros j Hj. destruct (Nat.eq_dec j i) as [->|]; [rewrite <- Hv; lra|]. apply Hle. lia.
Qed.
Lemma argmin_row_spec (all : list R) : all <> [] -> exists r, argmin_row all = Ok r /\
  r < length all /\ (forall j, j < length all -> (nth r all 0 <= nth j all 0)%R) /\ (forall j, j < r -> (nth r all 0 < nth j all 0)%R).
Proof.
  destruct all as [|v l]; [congruence|]. intros _. cbn [argmin_row]. eexists. split; [reflexivity|]. apply (argmin_after_spec (v :: l) l 0 1); auto.
  - intros j Hj. replace j with 0 by lia. simpl. lra.
  - intros j Hj. lia.
Qed.

(** rows that hold the distances give the nearest representatives *)
Lemma predict_rows (D : rpoint -> rpoint -> R) reps row points : reps <> [] -> (forall p, In p points -> row p = Ok (map (D p) reps)) ->
  exists labels, predict true row points = Ok labels /\ Forall2 (fun p j => first_nearest (D p) reps j) points labels.
Proof.
  intros Hne Hrow. unfold predict. destruct (map_res_ok (fun p => do r <- row p; argmin_row r) points) as (ls & E & F).
  - intros p Hp. rewrite (Hrow p Hp). cbn [bind]. destruct (argmin_row_spec (map (D p) reps)) as (r & E & _); [destruct reps; [congruence|discriminate]|]. eauto.
  - exists ls. split; [exact E|]. clear E. induction F as [|p j ps js E F IH]; constructor.
    + rewrite (Hrow p) in E by (left; auto). cbn [bind] in E. destruct (argmin_row_spec (map (D p) reps)) as (r & E' & H1 & H2 & H3); [destruct reps; [congruence|discriminate]|].
      rewrite E in E'. apply Ok_inj in E'. subst r. rewrite map_length in H1, H2.
      assert (N : forall i, i < length reps -> nth i (map (D p) reps) 0%R = D p (nth i reps [])). { intros i Hi. rewrite (nth_indep _ 0%R (D p [])) by (rewrite map_length; exact Hi). apply map_nth. }
      split; [exact H1|]. split; intros i Hi.
      * rewrite <- !N by lia. apply H2. exact Hi.
      * rewrite <- !N by lia. apply H3. exact Hi.
    + apply IH. intros q Hq. apply Hrow. right. exact Hq.
Qed.

Lemma cells_ok xs : map_res cell (map Real xs) = Ok xs.
Proof. induction xs as [|x xs IH]; [reflexivity|]. cbn [map map_res cell bind]. rewrite IH. reflexivity. Qed.
Lemma fill_many xs : fill (length xs) (Many (map Real xs)) = Ok xs.
Proof. unfold fill. rewrite map_length, Nat.eqb_refl. apply cells_ok. Qed.
Lemma fill_each_ok (f : rpoint -> res value) (D : rpoint -> R) reps : (forall c, In c reps -> f c = Ok (One (Real (D c)))) -> fill_each (map f reps) = Ok (map D reps).
Proof.
  unfold fill_each. induction reps as [|c reps IH]; intros H; [reflexivity|]. cbn [map map_res]. rewrite (H c) by (left; auto). cbn [bind cell]. rewrite IH by (intros; apply H; right; auto). reflexivity.
Qed.

(** the two modes of one metric of a known type *)
Lemma modes k a m : create k a = Ok m -> k <> KUser -> exists t on off, m_kind m = k /\ enable m = Ok on /\ disable m = Ok off /\ m_calc on = Numpy t /\ m_calc off = Basic t /\ m_kind on = k /\ m_kind off = k /\
  match k with KGower => exists range, a_range (m_args m) = Some range /\ t = GOWER range | _ => match t with GOWER _ => False | _ => True end end.
Proof.
  intros E Hu. pose proof (create_in_mode k a m E) as H0. destruct H0 as (Hk & _ & a0 & c & _ & _ & _ & All). destruct (All true) as (ct & E1 & _). destruct (All false) as (cf & E2 & _).
  unfold enable, disable. rewrite Hk. replace (match k with KUser => true | _ => false end) with false by (destruct k; congruence). rewrite E1, E2. cbn [bind fst snd].
  assert (T : exists t, ct = Numpy t /\ cf = Basic t /\ match k with KGower => exists range, a_range (m_args m) = Some range /\ t = GOWER range | _ => match t with GOWER _ => False | _ => True end end).
  { destruct k; cbn [create_calculator] in E1, E2; try (apply Ok_inj in E1, E2; injection E1 as <-; injection E2 as <-; eexists; split; [reflexivity|]; split; [reflexivity|]; exact I); try congruence; try discriminate.
    unfold max_range in E1, E2. destruct (a_range (m_args m)) as [r|] eqn:Er.
    - cbn [bind fst snd] in E1, E2. apply Ok_inj in E1, E2. injection E1 as <-. injection E2 as <-. eexists. split; [reflexivity|]. split; [reflexivity|]. eauto.
    - destruct (a_data (m_args m)) as [data|]; [|discriminate]. cbn [bind] in E1, E2. destruct (gower_range data) as [r|]; [|discriminate]. cbn [bind fst snd] in E1, E2.
      apply Ok_inj in E1. injection E1 as _ E1. rewrite <- E1 in Er. discriminate. }
  destruct T as (t & -> & -> & T). exists t. do 2 eexists. split; [reflexivity|]. split; [reflexivity|]. split; [reflexivity|]. cbn [m_calc m_kind]. auto.
Qed.

(** the distances [D] from the points to the representatives, as the metric in the mode of python gives them *)
Definition gives (big : R) (m : metric) (D : rpoint -> rpoint -> R) (points reps : list rpoint) : Prop :=
  forall off, disable m = Ok off -> forall p c, In p points -> In c reps -> call big off (Lst p) (Lst c) = Some (Ok (One (Real (D p c)))).
(** coordinates without range are equal, as C83 asks for Gower distance *)
Definition ranges_fit (m : metric) (d : nat) (points reps : list rpoint) : Prop :=
  m_kind m = KGower -> forall range, a_range (m_args m) = Some range -> length range = d /\
    forall p c i, In p points -> In c reps -> i < d -> nth i range 0%R = 0%R -> nth i p 0%R = nth i c 0%R.

Lemma table_row big k a m d (reps points : list rpoint) (D : rpoint -> rpoint -> R) on : create k a = Ok m -> k <> KUser -> 1 <= d -> reps <> [] ->
  (forall c, In c reps -> length c = d) -> (forall p, In p points -> length p = d) -> gives big m D points reps -> ranges_fit m d points reps -> enable m = Ok on ->
  forall p, In p points -> xmeans_row big on d reps p = Ok (map (D p) reps).
Proof.
  intros E Hu Hd Hne Hr Hp Hg Hf Eon p Hin. destruct (modes k a m E Hu) as (t & on' & off & Hk & E1 & E2 & C1 & C2 & _ & _ & T). rewrite Eon in E1. apply Ok_inj in E1. subst on'.
  unfold xmeans_row, call. rewrite C1. cbn [answer].
  assert (B : forall c, In c reps -> distance_basic t p c = Ok (Real (D p c))).
  { intros c Hc. pose proof (Hg off E2 p c Hin Hc) as G. unfold call in G. rewrite C2 in G. cbn [basic_call] in G. injection G as G. destruct (distance_basic t p c) as [x|]; [|discriminate]. cbn [bind] in G. apply Ok_inj in G. injection G as ->. reflexivity. }
  assert (H0 : t <> MINKOWSKI 0). { intros ->. destruct reps as [|c reps]; [congruence|]. pose proof (B c ltac:(left; auto)) as Bc. cbn [distance_basic] in Bc. unfold minkowski_distance in Bc. destruct (loop _ 0%R p c); [|discriminate]. cbn [bind] in Bc. discriminate. }
  destruct (C216_point_table big t d reps p Hd H0 Hr (Hp p Hin)) as (xs & -> & F).
  { destruct t as [| | | |n| | |range]; auto. destruct k; try (cbn in T; contradiction). destruct T as (range' & Er & Et). injection Et as <-. destruct (Hf Hk range Er) as (L & Z). split; [exact Hne|]. split; [exact L|].
    intros r i Hri Hi Hz. apply Z; auto. }
  cbn [bind]. assert (X : xs = map Real (map (D p) reps)).
  { clear -F B. induction F as [|c x cs xs E F IH]; [reflexivity|]. cbn [map]. rewrite (B c) in E by (left; auto). apply Ok_inj in E. subst x. f_equal. apply IH. intros; apply B; right; auto. }
  rewrite X. rewrite <- (map_length (D p) reps). apply fill_many.
Qed.

(** C225.  predict() of k-means, with a metric of any type: for each point the first of its nearest centres, nearest by
    the distances of that metric; a function of the user is asked about one point and one centre at a time (as arrays). *)
Theorem C225_kmeans big k a m d centers points D : create k a = Ok m -> centers <> [] ->
  match k with
  | KUser => exists f, a_func a = Some f /\ forall p c, In p points -> In c centers -> f (Arr (V p)) (Arr (V c)) = Ok (One (Real (D p c)))
  | _ => 1 <= d /\ (forall c, In c centers -> length c = d) /\ (forall p, In p points -> length p = d) /\ gives big m D points centers /\ ranges_fit m d points centers
  end ->
  exists labels, kmeans_predict_metric big m true d centers points = Ok labels /\ Forall2 (fun p j => first_nearest (D p) centers j) points labels.
Proof.
  intros E Hne H. assert (Hk : m_kind m = k) by (apply (create_in_mode k a m E)). unfold kmeans_predict_metric, kmeans_metric. rewrite Hk.
  assert (U : k = KUser \/ k <> KUser) by (destruct k; auto; right; discriminate). destruct U as [->|Hu].
  - destruct H as (f & Hf & H). unfold disable. rewrite Hk. cbn [create_calculator bind fst snd]. apply predict_rows; [exact Hne|]. intros p Hp. unfold kmeans_row. cbn [m_kind]. apply fill_each_ok. intros c Hc. unfold call. cbn [m_calc].
    assert (A : a_func (m_args m) = Some f). { unfold create in E. cbn [create_calculator bind fst snd] in E. apply Ok_inj in E. subst m. exact Hf. }
    rewrite A. cbn [answer]. apply H; auto.
  - assert (H' : 1 <= d /\ (forall c, In c centers -> length c = d) /\ (forall p, In p points -> length p = d) /\ gives big m D points centers /\ ranges_fit m d points centers) by (destruct k; try congruence; exact H). clear H.
    destruct H' as (Hd & Hr & Hp & Hg & Hf). destruct (modes k a m E Hu) as (t & on & off & _ & E1 & _ & _ & _ & Kon & _).
    replace (match k with KUser => disable m | _ => enable m end) with (enable m) by (destruct k; try congruence; reflexivity). rewrite E1. cbn [bind]. apply predict_rows; [exact Hne|]. intros p Hin.
    rewrite <- (table_row big k a m d centers points D on E Hu Hd Hne Hr Hp Hg Hf E1 p Hin). unfold kmeans_row. rewrite Kon. destruct k; try congruence; reflexivity.
Qed.
Print Assumptions C225_kmeans.

(** k-medians: the same, with lists *)
Theorem C225_kmedians big k a m medians points D : create k a = Ok m -> medians <> [] -> gives big m D points medians ->
  exists labels, kmedians_predict_metric big m true medians points = Ok labels /\ Forall2 (fun p j => first_nearest (D p) medians j) points labels.
Proof.
  intros E Hne Hg. pose proof (create_in_mode k a m E) as H0. destruct (switch_in_mode false _ _ _ _ H0) as (off & Eo & _). cbn [Bool.eqb] in Eo. unfold kmedians_predict_metric. rewrite Eo. cbn [bind].
  apply predict_rows; [exact Hne|]. intros p Hp. unfold each_row. apply fill_each_ok. intros c Hc. rewrite (Hg off Eo p c Hp Hc). reflexivity.
Qed.
Print Assumptions C225_kmedians.

(** k-medoids, whose metric is used as it is given *)
Theorem C225_kmedoids big m (data : list rpoint) medoids points D : medoids <> [] ->
  (forall p i, In p points -> In i medoids -> call big m (Lst p) (Lst (nth i data [])) = Some (Ok (One (Real (D p (nth i data [])))))) ->
  exists labels, kmedoids_predict_metric big m true data medoids points = Ok labels /\ Forall2 (fun p j => first_nearest (D p) (map (fun i => nth i data []) medoids) j) points labels.
Proof.
  intros Hne H. unfold kmedoids_predict_metric. apply predict_rows; [destruct medoids; [congruence|discriminate]|]. intros p Hp. unfold each_row. apply fill_each_ok. intros c Hc.
  apply in_map_iff in Hc as (i & <- & Hi). rewrite (H p i Hp Hi). reflexivity.
Qed.
Print Assumptions C225_kmedoids.

(** X-means, but not with a function of the user *)
Theorem C225_xmeans_partial big k a m d centers points D : create k a = Ok m -> k <> KUser -> 1 <= d -> centers <> [] ->
  (forall c, In c centers -> length c = d) -> (forall p, In p points -> length p = d) -> gives big m D points centers -> ranges_fit m d points centers ->
  exists labels, xmeans_predict_metric big m true d centers points = Ok labels /\ Forall2 (fun p j => first_nearest (D p) centers j) points labels.
Proof.
  intros E Hu Hd Hne Hr Hp Hg Hf. destruct (modes k a m E Hu) as (t & on & off & _ & E1 & _). unfold xmeans_predict_metric. rewrite E1. cbn [bind]. apply predict_rows; [exact Hne|].
  exact (table_row big k a m d centers points D on E Hu Hd Hne Hr Hp Hg Hf E1).
Qed.
Print Assumptions C225_xmeans_partial.

(** G-means measures by the sum of the squared differences of the coordinates *)
Definition squared (d : nat) (p c : rpoint) : R := total d (fun i => ((nth i p 0 - nth i c 0) ^ 2)%R).
Theorem C225_gmeans big d centers points : 1 <= d -> centers <> [] -> (forall c, In c centers -> length c = d) -> (forall p, In p points -> length p = d) ->
  exists labels, gmeans_predict big true d centers points = Ok labels /\ Forall2 (fun p j => first_nearest (squared d p) centers j) points labels.
Proof.
  intros Hd Hne Hr Hp. set (a := mkArgs None true None None None). set (m := mkMetric KEuclideanSquare a true (Numpy EUCLIDEAN_SQUARE)). assert (E : create KEuclideanSquare a = Ok m) by reflexivity.
  unfold gmeans_predict. fold a. rewrite E. cbn [bind]. apply predict_rows; [exact Hne|]. intros p Hin. apply (table_row big KEuclideanSquare a m d centers points (squared d) m); auto; try discriminate.
  intros off Eo q c Hq Hc. apply Ok_inj in Eo. subst off. change (Some (do x <- real (euclidean_distance_square q c); Ok (One x)) = Some (Ok (One (Real (squared d q c))))). rewrite (euclidean_square_value d) by auto. reflexivity.
Qed.
Print Assumptions C225_gmeans.

(** before process() nothing is predicted *)
Theorem C225_unprocessed big m m' d centers data medoids points : kmeans_metric m = Ok m' -> (exists off, disable m = Ok off) ->
  kmeans_predict_metric big m false d centers points = Ok [] /\ kmedians_predict_metric big m false centers points = Ok [] /\ kmedoids_predict_metric big m false data medoids points = Ok [] /\
  xmeans_predict_metric big m false d centers points = Ok [] /\ gmeans_predict big false d centers points = Ok [].
Proof. intros E (off & Eo). unfold kmeans_predict_metric, kmedians_predict_metric. rewrite E, Eo. repeat split. Qed.
Print Assumptions C225_unprocessed.

(** Manhattan distance, and a function of the user *)
Definition gap (p c : rpoint) : R := Rabs (nth 0 p 0%R - nth 0 c 0%R).
Definition c225_user (o1 o2 : obj) : res value :=
  match o1, o2 with
  | Arr (V (x :: _)), Arr (V (y :: _)) => Ok (One (Real (Rabs (x - y))))
  | Arr (V (x :: _)), Arr (M _ (row :: _)) => Ok (Many (map (fun y => Real (Rabs (x - y))) row))
  | _, _ => Raise IndexError
  end.
Definition c225_args : args := mkArgs (Some c225_user) false None None None.
Example C225_example : exists m, create KUser c225_args = Ok m /\ exists labels, kmeans_predict_metric 1 m true 1 [[0]; [10]]%R [[9]]%R = Ok labels /\ Forall2 (fun p j => first_nearest (gap p) [[0]; [10]]%R j) [[9]]%R labels.
Proof.
  eexists. split; [reflexivity|]. apply (C225_kmeans 1 KUser c225_args _ 1 [[0]; [10]]%R [[9]]%R gap); [reflexivity|discriminate|]. exists c225_user. split; [reflexivity|].
  intros p c [<-|[]] [<-|[<-|[]]]; reflexivity.
Qed.
Example C225_example2 : exists m, create KManhattan (mkArgs None false None None None) = Ok m /\ gives 1 m (fun p c => total 1 (fun i => Rabs (nth i p 0%R - nth i c 0%R))) [[9]]%R [[0]; [10]]%R /\ ranges_fit m 1 [[9]]%R [[0]; [10]]%R.
Proof.
  eexists. split; [reflexivity|]. split; [|discriminate]. intros off Eo p c Hp Hc. apply Ok_inj in Eo. subst off. change (Some (do x <- real (manhattan_distance p c); Ok (One x)) = Some (Ok (One (Real (total 1 (fun i => Rabs (nth i p 0%R - nth i c 0%R))))))).
  rewrite (manhattan_value 1); [reflexivity| |]; [destruct Hp as [<-|[]]|destruct Hc as [<-|[<-|[]]]]; reflexivity.
Qed.

(** C225 is false of X-means with a function of the user, here [lambda a, b: abs(a[0] - b[0])]: the function is given the
    table of all centres, and the answer for the first centre fills the whole row.  The point 9 is said to be nearest to
    the centre 0 rather than to the centre 10 *)
Theorem C225_user_metric_refuted : exists m centers p, create KUser c225_args = Ok m /\
  (forall c, In c centers -> call 1 m (Arr (V p)) (Arr (V c)) = Some (Ok (One (Real (gap p c))))) /\
  kmeans_predict_metric 1 m true 1 centers [p] = Ok [1] /\ xmeans_predict_metric 1 m true 1 centers [p] = Ok [0] /\
  (gap p (nth 1 centers []) < gap p (nth 0 centers []))%R.
Proof.
  exists (mkMetric KUser c225_args false (User (Some c225_user))), [[0]; [10]]%R, [9]%R. split; [reflexivity|]. split; [intros c [<-|[<-|[]]]; reflexivity|].
  assert (A : Rabs (9 - 0) = 9%R) by (rewrite Rabs_right; lra). assert (B : Rabs (9 - 10) = 1%R) by (rewrite Rabs_left; lra).
  split; [|split].
  - unfold kmeans_predict_metric, kmeans_metric. cbn [m_kind]. unfold disable. cbn [m_kind create_calculator m_args bind fst snd]. unfold predict, kmeans_row. cbn [m_kind map_res map]. unfold call. cbn [m_calc c225_args a_func c225_user answer fill_each map_res bind cell]. rewrite A, B.
    cbn [argmin_row bind argmin_after]. destruct (Rlt_dec 1 9); [reflexivity|lra].
  - unfold xmeans_predict_metric, enable. cbn [m_kind bind]. unfold predict, xmeans_row. cbn [map_res]. unfold call. cbn [m_calc c225_user answer bind map length]. rewrite A. cbn [fill length Nat.eqb cell bind repeat argmin_row argmin_after].
    destruct (Rlt_dec 9 9); [lra|reflexivity].
  - unfold gap. cbn [nth]. rewrite A, B. lra.
Qed.
Print Assumptions C225_user_metric_refuted.
