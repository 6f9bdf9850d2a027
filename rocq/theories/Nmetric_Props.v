(** Metrics of tables of points and metric objects: C216-C219. *)
From Verif Require Import Base.
From Coq Require Import Reals Lra Lia.
From Verif Require Import Metric_Model Metric_Proofs Nmetric_Model.
Open Scope nat_scope.

(** * tables of points *)
Lemma map2_repeat {A B C : Type} (g : A -> B -> C) l x : map2 g l (repeat x (length l)) = map (fun a => g a x) l.
Proof. induction l as [|a l IH]; [reflexivity|]. cbn [length repeat map2 map]. rewrite IH. reflexivity. Qed.
Lemma repeat_map2 {A B C : Type} (g : A -> B -> C) l x : map2 g (repeat x (length l)) l = map (g x) l.
Proof. induction l as [|a l IH]; [reflexivity|]. cbn [length repeat map2 map]. rewrite IH. reflexivity. Qed.
Lemma bdim_same n : bdim n n = Ok n.
Proof. unfold bdim. rewrite Nat.eqb_refl. reflexivity. Qed.
Lemma bdim_one n : bdim n 1 = Ok n.
Proof. unfold bdim. destruct (Nat.eqb_spec n 1) as [->|]; reflexivity. Qed.
Lemma one_bdim n : bdim 1 n = Ok n.
Proof. unfold bdim. destruct (Nat.eqb_spec 1 n) as [<-|]; reflexivity. Qed.

Lemma broadcast_rows_point f d rows p : (forall r, In r rows -> length r = d) -> length p = d -> broadcast f (M d rows) (V p) = Ok (M d (map (fun r => map2 f r p) rows)).
Proof.
  intros Hr Hp. unfold broadcast. cbn [as_rows fst snd length]. rewrite Hp, bdim_same. cbn [bind]. rewrite bdim_one. cbn [bind].
  rewrite (spread_same (length rows) rows) by reflexivity. change (spread (length rows) [p]) with (repeat p (length rows)). rewrite map2_repeat. do 2 f_equal.
  apply map_ext_in. intros r H. rewrite !spread_same by auto. reflexivity.
Qed.
Lemma broadcast_point_rows f d rows p : (forall r, In r rows -> length r = d) -> length p = d -> broadcast f (V p) (M d rows) = Ok (M d (map (fun r => map2 f p r) rows)).
Proof.
  intros Hr Hp. unfold broadcast. cbn [as_rows fst snd length]. rewrite Hp, bdim_same. cbn [bind]. rewrite one_bdim. cbn [bind].
  rewrite (spread_same (length rows) rows) by reflexivity. change (spread (length rows) [p]) with (repeat p (length rows)). rewrite repeat_map2. do 2 f_equal.
  apply map_ext_in. intros r H. rewrite !spread_same by auto. reflexivity.
Qed.
Lemma broadcast_rows_rows f d rows rows' : (forall r, In r rows -> length r = d) -> (forall r, In r rows' -> length r = d) -> length rows = length rows' ->
  broadcast f (M d rows) (M d rows') = Ok (M d (map2 (map2 f) rows rows')).
Proof.
  intros Hr Hr' Hl. unfold broadcast. cbn [as_rows fst snd]. rewrite bdim_same. cbn [bind]. rewrite <- Hl, bdim_same. cbn [bind].
  rewrite (spread_same (length rows) rows), (spread_same (length rows) rows') by auto. do 2 f_equal.
  clear Hl. revert rows' Hr'. induction rows as [|r rows IH]; intros [|r' rows'] Hr'; try reflexivity. cbn [map2].
  rewrite (spread_same d r) by (apply Hr; left; auto). rewrite (spread_same d r') by (apply Hr'; left; auto). apply (f_equal (cons (map2 f r r'))). apply IH; intros; [apply Hr|apply Hr']; right; auto.
Qed.

(** the reduction of the element-wise results of two points is the result for the two points *)
Lemma reduce_pair big t p q : p <> [] -> length p = length q -> same_ranges t p q ->
  match t with
  | GOWER range => reduce t (length p) (map2 (nan_divide big) (map2 (pair_op big t) p q) range)
  | _ => reduce t (length p) (map2 (pair_op big t) p q)
  end = distance_basic t p q.
Proof.
  intros Hn Hl Hs. rewrite <- (numpy_agrees big t p q Hn Hl Hs).
  assert (E : forall f, elementwise f p q = Ok (map2 f p q)) by (intros f; apply (elementwise_ok (length p)); auto).
  destruct t as [| | | |n| | |m]; cbn [distance_numpy reduce pair_op].
  - unfold euclidean_distance_numpy, euclidean_distance_square_numpy. rewrite E. reflexivity.
  - unfold euclidean_distance_square_numpy. rewrite E. reflexivity.
  - unfold manhattan_distance_numpy. rewrite E. reflexivity.
  - unfold chebyshev_distance_numpy. rewrite E. cbn [bind]. destruct (map2 _ p q); reflexivity.
  - unfold minkowski_distance_numpy. rewrite E. reflexivity.
  - unfold canberra_distance_numpy. rewrite E. reflexivity.
  - unfold chi_square_distance_numpy. rewrite E. reflexivity.
  - unfold gower_distance_numpy. rewrite E. cbn [bind]. destruct Hs as [Hm _]. rewrite (elementwise_ok (length p)); [reflexivity|apply map2_length; auto|auto].
Qed.

(** the distances of pairs of points are there *)
Lemma basic_ok t p q : p <> [] -> length p = length q -> same_ranges t p q -> (t <> MINKOWSKI 0) -> exists x, distance_basic t p q = Ok x.
Proof.
  intros Hn Hl Hs Ht. set (D := length p) in *. assert (Hp : length p = D) by reflexivity. assert (Hq : length q = D) by auto. assert (HD : 1 <= D) by (unfold D; destruct p; [congruence|simpl; lia]).
  destruct t as [| | | |n| | |m]; cbn [distance_basic].
  - rewrite (euclidean_value D) by auto. eexists; reflexivity.
  - rewrite (euclidean_square_value D) by auto. eexists; reflexivity.
  - rewrite (manhattan_value D) by auto. eexists; reflexivity.
  - destruct (chebyshev_value D p q Hp Hq) as (x & -> & _). eexists; reflexivity.
  - rewrite (minkowski_sum D) by auto. unfold root. destruct (Nat.eqb_spec n 0) as [->|]; [congruence|]. destruct (Rlt_dec _ 0); [eauto|]. destruct (Req_EM_T _ 0); eauto.
  - rewrite (canberra_value D) by auto. eexists; reflexivity.
  - rewrite (chi_value D) by auto. eexists; reflexivity.
  - destruct Hs as [Hm Hz]. rewrite (gower_value D) by auto. eexists; reflexivity.
Qed.

Lemma map_res_ok {A B : Type} (f : A -> res B) l : (forall x, In x l -> exists y, f x = Ok y) -> exists ys, map_res f l = Ok ys /\ Forall2 (fun x y => f x = Ok y) l ys.
Proof.
  induction l as [|x l IH]; intros H; [exists []; split; [reflexivity|constructor]|]. destruct (H x ltac:(left; auto)) as (y & E). destruct IH as (ys & Es & F); [intros; apply H; right; auto|].
  exists (y :: ys). cbn [map_res]. rewrite E. cbn [bind]. rewrite Es. split; [reflexivity|]. constructor; auto.
Qed.

(** the core: rows [prs] of pairs of points *)
Lemma rows_core big t d len (prs : list (list R * list R)) : 1 <= d -> t <> MINKOWSKI 0 -> (prs = [] -> match t with GOWER _ => False | _ => True end) ->
  match t with GOWER range => length range = d | _ => True end ->
  (forall a b, In (a, b) prs -> length a = d /\ length b = d /\ same_ranges t a b) ->
  exists xs, Forall2 (fun pr x => distance_basic t (fst pr) (snd pr) = Ok x) prs xs /\
  (do r <- match t with GOWER range => broadcast (nan_divide big) (M d (map (fun pr => map2 (pair_op big t) (fst pr) (snd pr)) prs)) (V range) | _ => Ok (M d (map (fun pr => map2 (pair_op big t) (fst pr) (snd pr)) prs)) end;
   match r with V l => do x <- reduce t len l; Ok (One x) | M d' rows => do ys <- reduce_rows t d' rows; Ok (Many ys) end) = Ok (Many xs).
Proof.
  intros Hd Ht Hg Hrg Hp.
  assert (Ok1 : forall pr, In pr prs -> exists x, distance_basic t (fst pr) (snd pr) = Ok x).
  { intros [a b] H. destruct (Hp a b H) as (La & Lb & Hs). cbn [fst snd]. apply basic_ok; [intros ->; simpl in La; lia|congruence|exact Hs|exact Ht]. }
  destruct (map_res_ok (fun pr => distance_basic t (fst pr) (snd pr)) prs Ok1) as (xs & Ex & Fx). exists xs. split; [exact Fx|].
  assert (Same : forall pr, In pr prs -> match t with GOWER range => reduce t d (map2 (nan_divide big) (map2 (pair_op big t) (fst pr) (snd pr)) range) | _ => reduce t d (map2 (pair_op big t) (fst pr) (snd pr)) end = distance_basic t (fst pr) (snd pr)).
  { intros [a b] H. destruct (Hp a b H) as (La & Lb & Hs). cbn [fst snd]. rewrite <- (reduce_pair big t a b); [|intros ->; simpl in La; lia|lia|exact Hs]. rewrite La. reflexivity. }
  assert (R : forall (g : list R * list R -> list R), (forall pr, In pr prs -> reduce t d (g pr) = distance_basic t (fst pr) (snd pr)) -> map_res (reduce t d) (map g prs) = Ok xs).
  { intros g Hgp. rewrite <- Ex. clear -Hgp. induction prs as [|pr prs IH]; [reflexivity|]. cbn [map map_res]. rewrite Hgp by (left; auto). rewrite IH by (intros; apply Hgp; right; auto). reflexivity. }
  destruct t as [| | | |[|n]| | |m]; try congruence; try (cbn [bind reduce_rows]; rewrite R by exact Same; reflexivity).
  rewrite broadcast_rows_point; [|intros r Hr; apply in_map_iff in Hr as ([a b] & <- & H); destruct (Hp a b H) as (La & Lb & _); apply map2_length; auto|exact Hrg].
  cbn [bind]. rewrite map_map. destruct prs as [|pr prs]; [exfalso; apply Hg; reflexivity|]. cbn [reduce_rows map].
  specialize (R (fun pr => map2 (nan_divide big) (map2 (pair_op big (GOWER m)) (fst pr) (snd pr)) m) Same). cbn [map] in R. rewrite R. reflexivity.
Qed.

(** C216.  A metric that uses numpy, given a table of points and a point (an array or a list), a point and a table, or two
    tables of equally many points, returns the distances of the rows that the functions of python give: row by row.  The
    points have one or more coordinates; for Gower distance there is a row, and coordinates without range are equal, as
    in C83. *)
Theorem C216_table_point big t d rows p (as_list : bool) : 1 <= d -> t <> MINKOWSKI 0 -> (forall r, In r rows -> length r = d) -> length p = d ->
  match t with GOWER range => rows <> [] /\ length range = d /\ forall r i, In r rows -> i < d -> nth i range 0%R = 0%R -> nth i r 0%R = nth i p 0%R | _ => True end ->
  exists xs, numpy_call big t (Arr (M d rows)) (if as_list then Lst p else Arr (V p)) = Ok (Many xs) /\ Forall2 (fun r x => distance_basic t r p = Ok x) rows xs.
Proof.
  intros Hd Ht Hr Hp Hg.
  destruct (rows_core big t d (length rows) (map (fun r => (r, p)) rows) Hd Ht) as (xs & F & E).
  - intros Z. destruct t; auto. destruct Hg as (Hne & _). destruct rows; [congruence|discriminate].
  - destruct t; auto. apply Hg.
  - intros a b H. apply in_map_iff in H as (r & [= <- <-] & H). split; [auto|]. split; [auto|]. destruct t; simpl; auto. destruct Hg as (_ & L & Z). split; [rewrite (Hr r H); exact L|]. intros i Hi Hz. apply Z; auto. rewrite <- (Hr r H). exact Hi.
  - exists xs. split.
    + rewrite <- E, map_map. cbn [fst snd]. unfold numpy_call. assert (X : to_arr (if as_list then Lst p else Arr (V p)) = V p) by (destruct as_list; reflexivity). rewrite X. cbn [to_arr].
      rewrite broadcast_rows_point by auto. destruct t; destruct as_list; reflexivity.
    + clear -F. remember (map (fun r => (r, p)) rows) as l eqn:El. revert rows El. induction F as [|a x l xs H F IH]; intros [|r rows] El; try discriminate; constructor; injection El as -> ->; [exact H|]. apply IH. reflexivity.
Qed.
Print Assumptions C216_table_point.

Theorem C216_point_table big t d rows p : 1 <= d -> t <> MINKOWSKI 0 -> (forall r, In r rows -> length r = d) -> length p = d ->
  match t with GOWER range => rows <> [] /\ length range = d /\ forall r i, In r rows -> i < d -> nth i range 0%R = 0%R -> nth i p 0%R = nth i r 0%R | _ => True end ->
  exists xs, numpy_call big t (Arr (V p)) (Arr (M d rows)) = Ok (Many xs) /\ Forall2 (fun r x => distance_basic t p r = Ok x) rows xs.
Proof.
  intros Hd Ht Hr Hp Hg.
  destruct (rows_core big t d (length p) (map (fun r => (p, r)) rows) Hd Ht) as (xs & F & E).
  - intros Z. destruct t; auto. destruct Hg as (Hne & _). destruct rows; [congruence|discriminate].
  - destruct t; auto. apply Hg.
  - intros a b H. apply in_map_iff in H as (r & [= <- <-] & H). split; [auto|]. split; [auto|]. destruct t; simpl; auto. destruct Hg as (_ & L & Z). split; [lia|]. intros i Hi Hz. apply Z; auto. lia.
  - exists xs. split.
    + rewrite <- E, map_map. cbn [fst snd]. unfold numpy_call. cbn [to_arr]. rewrite broadcast_point_rows by auto. destruct t; reflexivity.
    + clear -F. remember (map (fun r => (p, r)) rows) as l eqn:El. revert rows El. induction F as [|a x l xs H F IH]; intros [|r rows] El; try discriminate; constructor; injection El as -> ->; [exact H|]. apply IH. reflexivity.
Qed.
Print Assumptions C216_point_table.

Theorem C216_tables big t d rows rows' : 1 <= d -> t <> MINKOWSKI 0 -> (forall r, In r rows -> length r = d) -> (forall r, In r rows' -> length r = d) -> length rows = length rows' ->
  match t with GOWER range => rows <> [] /\ length range = d /\ forall k i, k < length rows -> i < d -> nth i range 0%R = 0%R -> nth i (nth k rows []) 0%R = nth i (nth k rows' []) 0%R | _ => True end ->
  exists xs, numpy_call big t (Arr (M d rows)) (Arr (M d rows')) = Ok (Many xs) /\ length xs = length rows /\
    forall k, k < length rows -> distance_basic t (nth k rows []) (nth k rows' []) = Ok (nth k xs NotReal).
Proof.
  intros Hd Ht Hr Hr' Hl Hg.
  assert (P : forall a b, In (a, b) (combine rows rows') -> exists k, k < length rows /\ a = nth k rows [] /\ b = nth k rows' []).
  { intros a b H. apply (In_nth _ _ ([], [])) in H as (k & Hk & E). rewrite combine_length in Hk. rewrite combine_nth in E by auto. injection E as <- <-. exists k. split; [lia|auto]. }
  destruct (rows_core big t d (length rows) (combine rows rows') Hd Ht) as (xs & F & E).
  - intros Z. destruct t; auto. destruct Hg as (Hne & _). destruct rows; [congruence|]. destruct rows'; discriminate.
  - destruct t; auto. apply Hg.
  - intros a b H. destruct (P a b H) as (k & Hk & -> & ->). assert (L1 : length (nth k rows []) = d) by (apply Hr, nth_In; auto). assert (L2 : length (nth k rows' []) = d) by (apply Hr', nth_In; lia). split; [auto|]. split; [auto|].
    destruct t; simpl; auto. destruct Hg as (_ & L & Z). split; [lia|]. intros i Hi Hz. apply Z; auto. lia.
  - assert (C : forall (g : list R -> list R -> list R) l l', map2 g l l' = map (fun pr => g (fst pr) (snd pr)) (combine l l')) by (induction l as [|a l IH]; intros [|b l']; try reflexivity; cbn [map2 combine map fst snd]; rewrite IH; reflexivity).
    assert (Lx : length (combine rows rows') = length xs) by (clear -F; induction F; simpl; congruence). rewrite combine_length, <- Hl, Nat.min_id in Lx.
    exists xs. split; [|split; [auto|]].
    + rewrite <- E. unfold numpy_call. cbn [to_arr]. rewrite broadcast_rows_rows, C by auto. destruct t; reflexivity.
    + clear -F Hl. revert rows' xs Hl F. induction rows as [|r rows IH]; intros [|r' rows'] xs Hl F k Hk; try discriminate; simpl in Hk; [lia|]. cbn [combine] in F. inversion F as [|? x ? xs' H F']; subst. destruct k as [|k]; [exact H|]. cbn [nth]. apply IH; auto; lia.
Qed.
Print Assumptions C216_tables.
Example C216_example : numpy_call 1 MANHATTAN (Arr (M 2 [[0; 1]; [2; 3]]))%R (Arr (V [0; 0]))%R = Ok (Many [Real (0 + Rabs (0 - 0) + Rabs (1 - 0)); Real (0 + Rabs (2 - 0) + Rabs (3 - 0))])%R.
Proof. reflexivity. Qed.

(** * points of different dimensions *)
Lemma loop_extra f : forall p q acc, length p <= length q -> loop f acc p q = loop f acc p (firstn (length p) q).
Proof. induction p as [|a p IH]; intros [|b q] acc H; try reflexivity; simpl in H. cbn [loop length firstn]. apply IH. lia. Qed.
Lemma loop_short f : forall p q acc, length q < length p -> loop f acc p q = Raise IndexError.
Proof. induction p as [|a p IH]; intros [|b q] acc H; simpl in H; try lia; [reflexivity|]. cbn [loop]. apply IH. lia. Qed.
Lemma elementwise_other f p q : length p <> length q -> length p <> 1 -> length q <> 1 -> elementwise f p q = Raise ValueError.
Proof. intros H1 H2 H3. unfold elementwise, bdim. destruct (Nat.eqb_spec (length p) (length q)); [contradiction|]. destruct (Nat.eqb_spec (length p) 1); [contradiction|]. destruct (Nat.eqb_spec (length q) 1); [contradiction|]. reflexivity. Qed.
Lemma elementwise_number f p x : elementwise f p [x] = Ok (map2 f p (repeat x (length p))).
Proof. unfold elementwise. cbn [length]. rewrite bdim_one. cbn [bind]. rewrite spread_same by reflexivity. reflexivity. Qed.

(** C217.  The functions of python do not notice a second point with more coordinates: the others do not count.  With less
    coordinates they raise IndexError.  The functions of numpy raise ValueError, unless one point has one coordinate: this
    is taken for all coordinates.  (Gower distance has a third argument and is left out.) *)
Theorem C217_python t p q : match t with GOWER _ => False | _ => True end ->
  (length p < length q -> distance_basic t p q = distance_basic t p (firstn (length p) q)) /\
  (length q < length p -> distance_basic t p q = Raise IndexError).
Proof.
  intros Ht. split; intros H; destruct t; try contradiction; cbn [distance_basic];
    unfold euclidean_distance, euclidean_distance_square, manhattan_distance, chebyshev_distance, minkowski_distance, canberra_distance, chi_square_distance;
    (rewrite loop_extra by lia; reflexivity) || (rewrite loop_short by lia; reflexivity).
Qed.
Print Assumptions C217_python.
Theorem C217_numpy big t p q : match t with GOWER _ => False | _ => True end -> length p <> length q ->
  (length p <> 1 -> length q <> 1 -> numpy_call big t (Arr (V p)) (Arr (V q)) = Raise ValueError) /\
  (forall x, q = [x] -> numpy_call big t (Arr (V p)) (Arr (V q)) = numpy_call big t (Arr (V p)) (Arr (V (repeat x (length p))))) /\
  (forall x, p = [x] -> numpy_call big t (Arr (V p)) (Arr (V q)) = numpy_call big t (Arr (V (repeat x (length q)))) (Arr (V q))).
Proof.
  intros Ht H.
  assert (G : forall p q p' q', broadcast (pair_op big t) (V p) (V q) = broadcast (pair_op big t) (V p') (V q') -> numpy_call big t (Arr (V p)) (Arr (V q)) = numpy_call big t (Arr (V p')) (Arr (V q'))).
  { intros a b a' b' E. unfold numpy_call. cbn [to_arr]. rewrite E. destruct t; try contradiction; cbn [shapes subtractable bind]; destruct (broadcast _ (V a') (V b')) as [[l|d rows]|]; reflexivity. }
  split; [|split].
  - intros H1 H2. unfold numpy_call, broadcast. cbn [to_arr as_rows fst snd]. unfold bdim at 1. destruct (Nat.eqb_spec (length p) (length q)); [contradiction|]. destruct (Nat.eqb_spec (length p) 1); [contradiction|]. destruct (Nat.eqb_spec (length q) 1); [contradiction|]. destruct t; try contradiction; reflexivity.
  - intros x ->. apply G. unfold broadcast. cbn [as_rows fst snd length]. rewrite bdim_one, repeat_length, bdim_same. cbn [bind]. rewrite bdim_same. cbn [bind].
    assert (S1 : forall l : list R, spread 1 [l] = [l]) by reflexivity. rewrite !S1. cbn [map2 nth]. rewrite (spread_same (length p) (repeat x (length p))) by apply repeat_length. reflexivity.
  - intros x ->. apply G. unfold broadcast. cbn [as_rows fst snd length]. rewrite one_bdim, repeat_length, bdim_same. cbn [bind]. rewrite bdim_same. cbn [bind].
    assert (S1 : forall l : list R, spread 1 [l] = [l]) by reflexivity. rewrite !S1. cbn [map2 nth]. rewrite (spread_same (length q) (repeat x (length q))) by apply repeat_length. reflexivity.
Qed.
Print Assumptions C217_numpy.
(** so the distances of python are not symmetric *)
Example C217_example : manhattan_distance [1%R] [1; 5]%R = Ok (0 + Rabs (1 - 1))%R /\ manhattan_distance [1; 5]%R [1%R] = Raise IndexError.
Proof. split; reflexivity. Qed.

(** * the class distance_metric *)
Definition with_numpy (b : bool) (a : args) : args := mkArgs (a_func a) b (a_degree a) (a_range a) (a_data a).
Lemma with_numpy_eq b c x y : with_numpy b x = with_numpy b y -> with_numpy c x = with_numpy c y.
Proof. unfold with_numpy. intros H. injection H as -> -> -> ->. reflexivity. Qed.
Lemma calc_again k a b c a' : create_calculator k a b = Ok (c, a') -> forall b', exists c', create_calculator k a' b' = Ok (c', a') /\ create_calculator k (with_numpy b' a) b' = Ok (c', with_numpy b' a').
Proof.
  intros E b'. destruct k; cbn [create_calculator] in *; try (injection E as <- <-; eexists; split; reflexivity); try discriminate.
  unfold max_range in *. destruct a as [fn np dg rg dt]. cbn [a_func a_numpy a_degree a_range a_data with_numpy] in *. destruct rg as [r|].
  - cbn [bind fst snd] in *. injection E as <- <-. cbn [a_range]. eexists. split; reflexivity.
  - destruct dt as [data|]; [|discriminate]. cbn [bind] in E. destruct (gower_range data) as [r|]; [|discriminate]. cbn [bind fst snd] in *. injection E as <- <-. cbn [a_range]. eexists. split; reflexivity.
Qed.

(** what holds for a metric in use: it is as just created with its mode *)
Definition in_mode (k : kind) (a : args) (b : bool) (m : metric) : Prop :=
  m_kind m = k /\ m_numpy m = b /\
  exists a0 c, create_calculator k (with_numpy b a) b = Ok (c, with_numpy b a0) /\ m_calc m = c /\ with_numpy b (m_args m) = with_numpy b a0 /\ forall b', exists c', create_calculator k (m_args m) b' = Ok (c', m_args m) /\ create_calculator k (with_numpy b' a) b' = Ok (c', with_numpy b' a0).

Lemma create_in_mode k a m : create k a = Ok m -> in_mode k a (a_numpy a) m.
Proof.
  unfold create. destruct (create_calculator k a (a_numpy a)) as [[c a']|] eqn:E; [|discriminate]. cbn [bind fst snd]. intros H. apply Ok_inj in H. subst m.
  split; [reflexivity|]. split; [reflexivity|]. exists a', c. cbn [m_args m_calc].
  assert (W : forall x, with_numpy (a_numpy x) x = x) by (intros []; reflexivity).
  destruct (calc_again _ _ _ _ _ E (a_numpy a)) as (c' & E1 & E2). rewrite W, E in E2. apply Ok_inj in E2. injection E2 as <- E3.
  split; [rewrite W, E, <- E3; reflexivity|]. split; [reflexivity|]. split; [reflexivity|]. intros b'. destruct (calc_again _ _ _ _ _ E b') as (c2 & A & B). exists c2. auto.
Qed.
Lemma switch_in_mode (b : bool) k a b0 m : in_mode k a b0 m -> exists m', (if b then enable m else disable m) = Ok m' /\ in_mode k a b m'.
Proof.
  intros (Hk & Hb & a0 & c & E & Hc & Ha & All).
  assert (R : exists m', (do x <- create_calculator (m_kind m) (m_args m) b; Ok (mkMetric (m_kind m) (snd x) b (fst x))) = Ok m' /\ in_mode k a b m').
  { destruct (All b) as (c' & E1 & E2). rewrite Hk, E1. cbn [bind fst snd]. eexists. split; [reflexivity|]. split; [reflexivity|]. split; [reflexivity|].
    exists a0, c'. cbn [m_args m_calc]. split; [exact E2|]. split; [reflexivity|]. split; [exact (with_numpy_eq _ _ _ _ Ha)|exact All]. }
  destruct b; [|exact R]. unfold enable. destruct (match m_kind m with KUser => true | _ => false end) eqn:Eu; [|exact R].
  eexists. split; [reflexivity|]. split; [exact Hk|]. split; [reflexivity|]. exists a0, c. cbn [m_args m_calc]. rewrite Hk in Eu. destruct k; try discriminate.
  cbn [create_calculator] in E |- *. apply Ok_inj in E. pose proof (f_equal fst E) as Ec. pose proof (f_equal snd E) as Ea. cbn [fst snd] in Ec, Ea. split; [rewrite (with_numpy_eq _ true _ _ Ea), <- Ec; cbn [with_numpy a_func]; pose proof (f_equal a_func Ea) as Ef; cbn [with_numpy a_func] in Ef; rewrite Ef; reflexivity|]. split; [exact Hc|]. split; [exact (with_numpy_eq _ _ _ _ Ha)|exact All].
Qed.
Lemma mode_call big k a b m m' : in_mode k a b m -> in_mode k a b m' -> forall o1 o2, call big m o1 o2 = call big m' o1 o2.
Proof. intros (_ & _ & a0 & c & E & Hc & _) (_ & _ & a1 & c' & E' & Hc' & _) o1 o2. unfold call. rewrite Hc, Hc'. rewrite E in E'. apply Ok_inj in E'. injection E' as -> _. reflexivity. Qed.

Fixpoint switched (m : metric) (l : list bool) : res metric :=
  match l with [] => Ok m | b :: l => do m' <- (if b then enable m else disable m); switched m' l end.

(** C218.  A metric that was switched to numpy and back, however often, answers every call as a metric newly made with
    the last mode; its type, its function and its arguments stay (a computed range is added). *)
Theorem C218_switched big k a m (l : list bool) : create k a = Ok m ->
  exists m' new, switched m l = Ok m' /\ create k (mkArgs (a_func a) (last l (a_numpy a)) (a_degree a) (a_range a) (a_data a)) = Ok new /\
    (forall o1 o2, call big m' o1 o2 = call big new o1 o2) /\ m_kind m' = k /\ a_func (m_args m') = a_func (m_args m) /\ a_degree (m_args m') = a_degree (m_args m) /\ a_range (m_args m') = a_range (m_args m) /\ a_data (m_args m') = a_data (m_args m).
Proof.
  intros E.
  assert (G : forall l b0 m1, in_mode k a b0 m1 -> exists m', switched m1 l = Ok m' /\ in_mode k a (last l b0) m').
  { induction l0 as [|b l0 IH]; intros b0 m1 H; [exists m1; split; [reflexivity|exact H]|]. cbn [switched]. destruct (switch_in_mode b k a b0 m1 H) as (m2 & -> & H2). cbn [bind].
    destruct (IH b m2 H2) as (m' & E' & H'). exists m'. split; [exact E'|]. destruct l0 as [|b1 l0]; [exact H'|]. replace (last (b :: b1 :: l0) b0) with (last (b1 :: l0) b); [exact H'|].
    clear. cbn [last]. revert b b1. induction l0 as [|x l0 IH]; intros b b1; [reflexivity|]. apply (IH b x). }
  pose proof (create_in_mode k a m E) as H0. destruct (G l (a_numpy a) m H0) as (m' & Em & Hm). set (b := last l (a_numpy a)) in *.
  assert (N : exists new, create k (with_numpy b a) = Ok new). { destruct Hm as (_ & _ & a0 & c & Ec & _). unfold create. cbn [with_numpy a_numpy]. fold (with_numpy b a). rewrite Ec. cbn [bind]. eauto. }
  destruct N as (new & En). exists m', new. split; [exact Em|]. split; [exact En|]. split.
  - intros o1 o2. pose proof (create_in_mode _ _ _ En) as Hn. cbn [with_numpy a_numpy] in Hn. apply (mode_call big k a b); [exact Hm|].
    destruct Hn as (A & B & a0 & c & D). split; [exact A|]. split; [exact B|]. exists a0, c. exact D.
  - destruct Hm as (Hk & _ & a0 & c & E1 & _ & A1 & All1). destruct H0 as (_ & _ & a1 & c1 & E2 & _ & A2 & All2). split; [exact Hk|].
    destruct (All1 true) as (x & _ & X). destruct (All2 true) as (y & _ & Y). rewrite X in Y. apply Ok_inj in Y. apply (f_equal snd) in Y. cbn [snd] in Y.
    assert (W : with_numpy true (m_args m') = with_numpy true (m_args m)) by (rewrite (with_numpy_eq _ true _ _ A1), (with_numpy_eq _ true _ _ A2); exact Y).
    split; [exact (f_equal a_func W)|]. split; [exact (f_equal a_degree W)|]. split; [exact (f_equal a_range W)|exact (f_equal a_data W)].
Qed.
Print Assumptions C218_switched.

(** It is refused exactly if the type is unknown, or Gower distance has neither a range nor data. *)
Theorem C218_refused k a : (exists m, create k a = Ok m) <-> k <> KUnknown /\ (k = KGower -> a_range a = None -> exists p data, a_data a = Some (p :: data)).
Proof.
  unfold create. split.
  - intros (m & E). destruct k; try (split; [discriminate|]; intros Z; discriminate). split; [discriminate|]. intros _ Hr. cbn [create_calculator] in E. unfold max_range in E. rewrite Hr in E.
    destruct (a_data a) as [[|p data]|]; [discriminate|eauto|discriminate].
  - intros (Hu & Hg). destruct k; try (cbn [create_calculator bind]; eexists; reflexivity); [|congruence]. cbn [create_calculator]. unfold max_range. destruct (a_range a) as [r|]; [cbn [bind]; eexists; reflexivity|].
    destruct (Hg eq_refl eq_refl) as (p & data & ->). cbn [gower_range bind]. eexists; reflexivity.
Qed.
Print Assumptions C218_refused.

(** With and without numpy the distances of two points are the same: lists, or arrays where numpy is used. *)
Theorem C218_same_distances big k a m p q : create k a = Ok m -> k <> KUser -> p <> [] -> length p = length q ->
  (k = KGower -> exists range, a_range (m_args m) = Some range /\ length range = length p /\ forall i, i < length p -> nth i range 0%R = 0%R -> nth i p 0%R = nth i q 0%R) ->
  exists on off, enable m = Ok on /\ disable m = Ok off /\ exists r, call big on (Arr (V p)) (Arr (V q)) = Some r /\ call big off (Lst p) (Lst q) = Some r.
Proof.
  intros E Hu Hn Hl Hg. pose proof (create_in_mode k a m E) as H0.
  destruct H0 as (Hk & _ & a0 & c & _ & _ & _ & All). destruct (All true) as (ct & E1 & _). destruct (All false) as (cf & E2 & _).
  unfold enable, disable. rewrite Hk. replace (match k with KUser => true | _ => false end) with false by (destruct k; congruence). rewrite E1, E2. cbn [bind fst snd].
  eexists. eexists. split; [reflexivity|]. split; [reflexivity|]. unfold call. cbn [m_calc].
  assert (T : exists t, ct = Numpy t /\ cf = Basic t /\ same_ranges t p q).
  { destruct k; cbn [create_calculator] in E1, E2; try (apply Ok_inj in E1, E2; injection E1 as <-; injection E2 as <-; eexists; split; [reflexivity|]; split; [reflexivity|]; exact I); try congruence; try discriminate.
    destruct (Hg eq_refl) as (range & Er & Lr & Z). unfold max_range in E1, E2. rewrite Er in E1, E2. cbn [bind fst snd] in E1, E2. apply Ok_inj in E1, E2. injection E1 as <-. injection E2 as <-.
    eexists. split; [reflexivity|]. split; [reflexivity|]. split; [exact Lr|exact Z]. }
  destruct T as (t & -> & -> & Hs). cbn [basic_call]. eexists. split; [reflexivity|]. f_equal. rewrite <- (reduce_pair big t p q Hn Hl Hs).
  assert (B : broadcast (pair_op big t) (V p) (V q) = Ok (V (map2 (pair_op big t) p q))).
  { unfold broadcast. cbn [as_rows fst snd length]. rewrite Hl, bdim_same. cbn [bind]. rewrite bdim_same. cbn [bind spread repeat map2 nth]. rewrite !spread_same by auto. reflexivity. }
  unfold numpy_call. cbn [to_arr]. rewrite B. destruct t as [| | | |n| | |range]; try reflexivity.
  cbn [subtractable bind]. assert (B2 : broadcast (nan_divide big) (V (map2 (pair_op big (GOWER range)) p q)) (V range) = Ok (V (map2 (nan_divide big) (map2 (pair_op big (GOWER range)) p q) range))).
  { destruct Hs as [Lr _]. assert (Lm : length (map2 (pair_op big (GOWER range)) p q) = length p) by (apply map2_length; auto). unfold broadcast. cbn [as_rows fst snd length]. rewrite Lm, Lr, bdim_same. cbn [bind]. rewrite bdim_same. cbn [bind]. cbn [spread repeat map2 nth]. rewrite (spread_same (length p) (map2 _ p q)), (spread_same (length p) range) by auto. reflexivity. }
  rewrite B2. reflexivity.
Qed.
Print Assumptions C218_same_distances.
Example C218_example : exists m, create KGower (mkArgs None false None None (Some [[0; 1]; [2; 5]]%R)) = Ok m /\ exists m', switched m [true; false; true] = Ok m'.
Proof. eexists. split; [reflexivity|]. eexists. reflexivity. Qed.

(** * metrics shared by algorithms *)
Definition leaves_python (u : use) : Prop := match u with UseSilhouette | UsePlusPlus => False | _ => True end.

Lemma upd_other {A : Type} : forall (l : list A) i j x, i <> j -> nth_error (upd l i x) j = nth_error l j.
Proof. induction l as [|y l IH]; intros [|i] [|j] x H; try reflexivity; try congruence. simpl. apply IH. congruence. Qed.
Lemma upd_here {A : Type} : forall (l : list A) i x y, nth_error l i = Some y -> nth_error (upd l i x) i = Some x.
Proof. induction l as [|z l IH]; intros [|i] x y H; try discriminate; [reflexivity|]. simpl. exact (IH i x y H). Qed.

Lemma set_mode_other h i f h' j : set_mode h i f = Ok h' -> i <> j -> nth_error h' j = nth_error h j.
Proof. unfold set_mode. destruct (nth_error h i) as [m|]; [|discriminate]. destruct (f m); [|discriminate]. cbn [bind]. intros E H. apply Ok_inj in E. subst h'. apply upd_other. exact H. Qed.
Lemma set_mode_here h i f h' m : nth_error h i = Some m -> set_mode h i f = Ok h' -> exists m', f m = Ok m' /\ nth_error h' i = Some m'.
Proof. intros Hm. unfold set_mode. rewrite Hm. destruct (f m) as [m'|]; [|discriminate]. cbn [bind]. intros E. apply Ok_inj in E. subst h'. exists m'. split; [reflexivity|]. exact (upd_here _ _ _ _ Hm). Qed.
Lemma set_mode_length h i f h' : set_mode h i f = Ok h' -> length h' = length h.
Proof. unfold set_mode. destruct (nth_error h i) as [m|]; [|discriminate]. destruct (f m); [|discriminate]. cbn [bind]. intros E. apply Ok_inj in E. subst h'. apply upd_length. Qed.
Lemma copy_spec h i c : copy h i = Ok c -> exists m, nth_error h i = Some m /\ c = (h ++ [m], length h).
Proof. unfold copy. destruct (nth_error h i) as [m|]; [|discriminate]. intros E. apply Ok_inj in E. exists m. auto. Qed.
Lemma old (h : heap) i m x : nth_error h i = Some m -> i <> length h /\ nth_error (h ++ [x]) i = Some m.
Proof. intros H. assert (L : i < length h) by (apply nth_error_Some; congruence). split; [lia|]. rewrite nth_error_app1 by exact L. exact H. Qed.

(** a copy is used: the object itself is not *)
Lemma copied h i m u h' : nth_error h i = Some m -> used h i u = Ok h' -> match u with UseKmeans | UseXmeans | UsePredict | UseOther => True | _ => False end -> nth_error h' i = Some m.
Proof.
  intros Hm E Hu. destruct u; try contradiction; cbn [used] in E.
  - destruct (copy h i) as [c|] eqn:Ec; [|discriminate]. cbn [bind] in E. destruct (copy_spec _ _ _ Ec) as (x & _ & ->). cbn [fst snd] in E. destruct (old h i m x Hm) as [Hi Ho].
    unfold prepare in E. rewrite (set_mode_other _ _ _ _ i E) by congruence. exact Ho.
  - destruct (copy h i) as [c|] eqn:Ec; [|discriminate]. cbn [bind] in E. destruct (copy_spec _ _ _ Ec) as (x & _ & ->). cbn [fst snd] in E. destruct (old h i m x Hm) as [Hi Ho].
    destruct (copy (h ++ [x]) (length h)) as [d|] eqn:Ed; [|discriminate]. cbn [bind] in E. destruct (copy_spec _ _ _ Ed) as (y & _ & ->). cbn [fst snd] in E. destruct (old _ i m y Ho) as [Hi' Ho'].
    unfold prepare in E. rewrite (set_mode_other _ _ _ _ i E) by congruence. exact Ho'.
  - destruct (copy h i) as [c|] eqn:Ec; [|discriminate]. cbn [bind] in E. destruct (copy_spec _ _ _ Ec) as (x & _ & ->). cbn [fst snd] in E. destruct (old h i m x Hm) as [Hi Ho].
    destruct (set_mode (h ++ [x]) (length h) enable) as [h1|] eqn:E1; [|discriminate]. cbn [bind] in E. rewrite (set_mode_other _ _ _ _ i E), (set_mode_other _ _ _ _ i E1) by congruence. exact Ho.
  - apply Ok_inj in E. subst h'. exact Hm.
Qed.

Lemma used_mode k a h i m u h' : nth_error h i = Some m -> in_mode k a false m -> used h i u = Ok h' -> leaves_python u -> exists m', nth_error h' i = Some m' /\ in_mode k a false m'.
Proof.
  intros Hm Hk E Hu. destruct u; try contradiction; try (exists m; split; [eapply copied; eauto; exact I|exact Hk]). cbn [used] in E.
  destruct (set_mode h i enable) as [h1|] eqn:E1; [|discriminate]. cbn [bind] in E. destruct (set_mode_here _ _ _ _ _ Hm E1) as (m1 & F1 & H1). destruct (set_mode_here _ _ _ _ _ H1 E) as (m2 & F2 & H2).
  exists m2. split; [exact H2|]. destruct (switch_in_mode true _ _ _ _ Hk) as (x & Ex & Hx). rewrite F1 in Ex. apply Ok_inj in Ex. subst x. destruct (switch_in_mode false _ _ _ _ Hx) as (y & Ey & Hy). rewrite F2 in Ey. apply Ok_inj in Ey. subst y. exact Hy.
Qed.

(** C219.  A metric made without numpy and given to k-means, X-means, k-medians, k-medoids and BSAS, MBSAS or TTSAS in any
    order answers every call afterwards as before; k-means and X-means leave even a metric with numpy as it was. *)
Theorem C219_still_works_partial big k a m (h h' : heap) i l : create k a = Ok m -> a_numpy a = false -> nth_error h i = Some m ->
  (forall u, In u l -> u <> UseSilhouette /\ u <> UsePlusPlus) -> used_all h i l = Ok h' ->
  exists m', nth_error h' i = Some m' /\ forall o1 o2, call big m' o1 o2 = call big m o1 o2.
Proof.
  intros E Hf Hm Hl Eu. pose proof (create_in_mode k a m E) as Hk. rewrite Hf in Hk.
  assert (G : forall l h m1, nth_error h i = Some m1 -> in_mode k a false m1 -> (forall u, In u l -> leaves_python u) -> used_all h i l = Ok h' -> exists m', nth_error h' i = Some m' /\ in_mode k a false m').
  { induction l0 as [|u l0 IH]; intros h0 m1 H1 H2 H3 H4; [apply Ok_inj in H4; subst h'; eauto|]. cbn [used_all] in H4. destruct (used h0 i u) as [h1|] eqn:E1; [|discriminate]. cbn [bind] in H4.
    destruct (used_mode k a h0 i m1 u h1 H1 H2 E1 (H3 u ltac:(left; auto))) as (m2 & A & B). apply (IH h1 m2 A B); auto. intros; apply H3; right; auto. }
  destruct (G l h m Hm Hk) as (m' & A & B); [|exact Eu|].
  - intros u Hu. destruct (Hl u Hu). destruct u; simpl; auto; congruence.
  - exists m'. split; [exact A|]. apply (mode_call big k a false); auto.
Qed.
Print Assumptions C219_still_works_partial.
Theorem C219_copied (h h' : heap) i m l : nth_error h i = Some m -> (forall u, In u l -> u = UseKmeans \/ u = UseXmeans \/ u = UsePredict \/ u = UseOther) -> used_all h i l = Ok h' -> nth_error h' i = Some m.
Proof.
  revert h. induction l as [|u l IH]; intros h Hm Hl E; [apply Ok_inj in E; subst; exact Hm|]. cbn [used_all] in E. destruct (used h i u) as [h1|] eqn:E1; [|discriminate]. cbn [bind] in E.
  apply (IH h1); auto; [|intros; apply Hl; right; auto]. apply (copied h i m u h1 Hm E1). destruct (Hl u ltac:(left; auto)) as [->|[->|[->| ->]]]; exact I.
Qed.
Print Assumptions C219_copied.

Definition asks_shape (k : kind) : Prop := match k with KEuclidean | KEuclideanSquare | KManhattan | KChebyshev | KMinkowski => True | _ => False end.
(** Silhouette and k-means++ switch the object they are given to numpy and leave it so.  Euclidean, squared Euclidean,
    Manhattan, Chebyshev and Minkowski distances of two lists then raise AttributeError. *)
Theorem C219_left_in_numpy big k a m (h h' : heap) i u p q : create k a = Ok m -> asks_shape k -> nth_error h i = Some m -> u = UseSilhouette \/ u = UsePlusPlus -> used h i u = Ok h' ->
  exists m', nth_error h' i = Some m' /\ call big m' (Lst p) (Lst q) = Some (Raise AttributeError) /\ call big m' (Arr (V p)) (Lst q) = Some (Raise AttributeError).
Proof.
  intros E Hs Hm Hu Eu. pose proof (create_in_mode k a m E) as Hk.
  assert (U : is_user h i = false) by (unfold is_user; rewrite Hm; destruct Hk as (-> & _); destruct k; try contradiction; reflexivity).
  assert (S : set_mode h i enable = Ok h') by (destruct Hu as [-> | ->]; cbn [used] in Eu; [unfold prepare in Eu; rewrite U in Eu|]; exact Eu).
  destruct (set_mode_here _ _ _ _ _ Hm S) as (m' & F & H'). exists m'. split; [exact H'|].
  destruct (switch_in_mode true _ _ _ _ Hk) as (x & Ex & Hx). rewrite F in Ex. apply Ok_inj in Ex. subst x. destruct Hx as (_ & _ & a0 & c & Ec & Hc & _). unfold call. rewrite Hc.
  destruct k; try contradiction; cbn [create_calculator] in Ec; apply Ok_inj in Ec; injection Ec as <-; split; reflexivity.
Qed.
Print Assumptions C219_left_in_numpy.

(** Canberra, chi square and Gower distance do not ask for the shape: left in numpy they still take an array and a list, and
    answer as for two arrays; two lists they refuse *)
Theorem C219_left_in_numpy_others big k a m (h h' : heap) i u : create k a = Ok m -> k = KCanberra \/ k = KChiSquare \/ k = KGower -> nth_error h i = Some m -> u = UseSilhouette \/ u = UsePlusPlus -> used h i u = Ok h' ->
  exists m', nth_error h' i = Some m' /\ forall p q, call big m' (Arr (V p)) (Lst q) = call big m' (Arr (V p)) (Arr (V q)) /\ call big m' (Lst p) (Arr (V q)) = call big m' (Arr (V p)) (Arr (V q)) /\ call big m' (Lst p) (Lst q) = Some (Raise TypeError).
Proof.
  intros E Hs Hm Hu Eu. pose proof (create_in_mode k a m E) as Hk.
  assert (U : is_user h i = false) by (unfold is_user; rewrite Hm; destruct Hk as (-> & _); destruct Hs as [->|[->| ->]]; reflexivity).
  assert (S : set_mode h i enable = Ok h') by (destruct Hu as [-> | ->]; cbn [used] in Eu; [unfold prepare in Eu; rewrite U in Eu|]; exact Eu).
  destruct (set_mode_here _ _ _ _ _ Hm S) as (m' & F & H'). exists m'. split; [exact H'|].
  destruct (switch_in_mode true _ _ _ _ Hk) as (x & Ex & Hx). rewrite F in Ex. apply Ok_inj in Ex. subst x. destruct Hx as (_ & _ & a0 & c & Ec & Hc & _). unfold call. rewrite Hc.
  assert (T : exists t, c = Numpy t /\ match t with CANBERRA | CHI_SQUARE | GOWER _ => True | _ => False end).
  { destruct Hs as [->|[->| ->]]; cbn [create_calculator] in Ec.
    - apply Ok_inj in Ec. injection Ec as <-. exists CANBERRA. auto.
    - apply Ok_inj in Ec. injection Ec as <-. exists CHI_SQUARE. auto.
    - destruct (max_range (with_numpy true a)) as [r|]; [|discriminate]. cbn [bind] in Ec. apply Ok_inj in Ec. injection Ec as <-. eexists. split; [reflexivity|exact I]. }
  destruct T as (t & -> & T). intros p q. destruct t; try contradiction; repeat split; reflexivity.
Qed.
Print Assumptions C219_left_in_numpy_others.
(** so a metric that was given to silhouette cannot be used for lists, nor by k-medians, which compares an array with a
    list (cluster/kmedians.py:122) *)
Theorem C219_still_works_refuted : exists big k a m h h' i l p q x, create k a = Ok m /\ a_numpy a = false /\ nth_error h i = Some m /\ used_all h i l = Ok h' /\
  call big m (Lst p) (Lst q) = Some (Ok x) /\ exists m', nth_error h' i = Some m' /\ call big m' (Lst p) (Lst q) = Some (Raise AttributeError) /\ call big m' (Arr (V p)) (Lst q) = Some (Raise AttributeError).
Proof.
  set (a := mkArgs None false None None None). set (m := mkMetric KEuclideanSquare a false (Basic EUCLIDEAN_SQUARE)).
  exists 1%R, KEuclideanSquare, a, m, [m]. eexists. exists 0, [UseSilhouette], [0]%R, [1]%R. eexists. split; [reflexivity|]. split; [reflexivity|]. split; [reflexivity|]. split; [reflexivity|]. split; [reflexivity|].
  eexists. split; [reflexivity|]. split; reflexivity.
Qed.
Print Assumptions C219_still_works_refuted.

(** And k-medians switches a metric back that an object of silhouette still uses: its process then takes the rows of the
    table for coordinates, and raises IndexError if there are more points than coordinates. *)
Theorem C219_switched_back_refuted : exists big k a m h h' i, create k a = Ok m /\ nth_error h i = Some m /\ used_all h i [UseSilhouette; UseKmedians] = Ok h' /\
  exists m', nth_error h' i = Some m' /\ forall d rows p, length p < length rows -> call big m' (Arr (M d rows)) (Arr (V p)) = Some (Raise IndexError).
Proof.
  set (a := mkArgs None false None None None). set (m := mkMetric KEuclideanSquare a false (Basic EUCLIDEAN_SQUARE)).
  exists 1%R, KEuclideanSquare, a, m, [m]. eexists. exists 0. split; [reflexivity|]. split; [reflexivity|]. split; [reflexivity|]. eexists. split; [reflexivity|].
  intros d rows p H. change (Some (square_on_rows None rows p) = Some (Raise IndexError)). apply f_equal. assert (G : forall rows p acc, length p < length rows -> square_on_rows acc rows p = Raise IndexError); [|apply G; exact H].
  clear. induction rows as [|r rows IH]; intros [|x p] acc H; simpl in H; try lia; [reflexivity|]. cbn [square_on_rows]. apply IH. lia.
Qed.
Print Assumptions C219_switched_back_refuted.
Example C219_example : exists h', used_all [mkMetric KManhattan (mkArgs None false None None None) false (Basic MANHATTAN)] 0 [UseKmeans; UseKmedians; UseXmeans; UsePredict; UseOther] = Ok h'.
Proof. eexists. reflexivity. Qed.
