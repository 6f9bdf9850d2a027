(** C227-C229: order parameters of a range of iterations and their pictures, matrices and
    animations of a recorded dynamic, initial states of networks of phase oscillators. *)
From Verif Require Import Base Topology_Model Topology_Proofs Order_Model Order_Proofs Kuramoto_Model Kuramoto_Proofs Kuramoto_Props Syncview_Model.
From Coq Require Import ZArith Reals Lra Lia.
Open Scope nat_scope.

(** * Lists of python *)

Lemma py_get_nat {A} (l : list A) i x : nth_error l i = Some x -> py_get l (Z.of_nat i) = Ok x.
Proof.
  intro E. unfold py_get. destruct (Z.ltb_spec (Z.of_nat i) 0) as [H|H]; [lia|].
  destruct (Z.ltb_spec (Z.of_nat i) 0) as [H'|_]; [lia|]. rewrite Nat2Z.id, E. reflexivity.
Qed.

Lemma py_get_out {A} (l : list A) i : length l <= i -> py_get l (Z.of_nat i) = Raise IndexError.
Proof.
  intro E. unfold py_get. destruct (Z.ltb_spec (Z.of_nat i) 0) as [H|H]; [lia|].
  destruct (Z.ltb_spec (Z.of_nat i) 0) as [H'|_]; [lia|]. rewrite Nat2Z.id.
  apply nth_error_None in E. rewrite E. reflexivity.
Qed.

Lemma py_range_nat a b : py_range (Z.of_nat a) (Z.of_nat b) = map Z.of_nat (seq a (b - a)).
Proof.
  unfold py_range. replace (Z.to_nat (Z.of_nat b - Z.of_nat a)) with (b - a) by lia.
  generalize (b - a) as m. intro m. revert a. induction m as [|m IH]; intro a; [reflexivity|].
  cbn [seq map]. f_equal; [lia|]. rewrite <- seq_shift, map_map. rewrite <- (IH (S a)). apply map_ext. intro k. lia.
Qed.

Lemma py_slice_nat {A} (l : list A) a b : a <= b -> b <= length l -> py_slice l (Z.of_nat a) (Z.of_nat b) = firstn (b - a) (skipn a l).
Proof.
  intros Hab Hb. unfold py_slice, slice_bound.
  destruct (Z.ltb_spec (Z.of_nat a) 0) as [H|_]; [lia|]. destruct (Z.ltb_spec (Z.of_nat b) 0) as [H|_]; [lia|].
  rewrite !Z.min_l by lia. rewrite !Nat2Z.id. reflexivity.
Qed.

Lemma collect_app {A B} (f : A -> res B) l1 l2 :
  collect f (l1 ++ l2) = (do a <- collect f l1; do b <- collect f l2; Ok (a ++ b)).
Proof.
  induction l1 as [|x t IH]; cbn [app collect bind].
  - destruct (collect f l2); reflexivity.
  - destruct (f x) as [y|e]; cbn [bind]; [|reflexivity]. rewrite IH. destruct (collect f t) as [ys|e]; cbn [bind]; [|reflexivity].
    destruct (collect f l2); reflexivity.
Qed.

Lemma collect_ok {A B} (f : A -> res B) l ys :
  collect f l = Ok ys -> length ys = length l /\ forall k x, nth_error l k = Some x -> exists y, nth_error ys k = Some y /\ f x = Ok y.
Proof.
  revert ys. induction l as [|x t IH]; intros ys E; cbn [collect] in E.
  - injection E as <-. split; auto. intros [|k] x H; discriminate.
  - destruct (f x) as [y|e] eqn:Ex; cbn [bind] in E; [|discriminate]. destruct (collect f t) as [r|e] eqn:Er; cbn [bind] in E; [|discriminate].
    injection E as <-. destruct (IH r eq_refl) as [Hl Hn]. split; [cbn [length]; lia|].
    intros [|k] z H; cbn [nth_error] in *; [injection H as <-; eauto|]. eauto.
Qed.

Lemma collect_total {A B} (f : A -> res B) l : (forall x, In x l -> exists y, f x = Ok y) -> exists ys, collect f l = Ok ys.
Proof.
  induction l as [|x t IH]; intro H; cbn [collect]; [eauto|].
  destruct (H x (or_introl eq_refl)) as [y ->]. cbn [bind]. destruct IH as [ys ->]; [intros; apply H; right; auto|]. cbn [bind]. eauto.
Qed.

Lemma nth_error_range a m k : k < m -> nth_error (map Z.of_nat (seq a m)) k = Some (Z.of_nat (a + k)).
Proof.
  intro H. apply map_nth_error. rewrite (nth_error_nth' _ 0) by (rewrite seq_length; lia). rewrite seq_nth by lia. reflexivity.
Qed.

Lemma nth_error_firstn {A} (l : list A) m k : k < m -> nth_error (firstn m l) k = nth_error l k.
Proof.
  revert m k. induction l as [|x t IH]; intros [|m] [|k] H; cbn; try lia; auto. apply IH. lia.
Qed.

Lemma nth_error_skipn {A} (l : list A) m k : nth_error (skipn m l) k = nth_error l (m + k).
Proof. revert m. induction l as [|x t IH]; intros [|m]; cbn; auto. destruct k; reflexivity. Qed.

(** * C227: the order parameter of a range of iterations *)

(** a state in which the order parameter is defined: some oscillator has left phase 0 *)
Definition awake (st : list R) : Prop := exists p, In p st /\ p <> 0%R.

(** [r] is what order_estimator tells about the state recorded at iteration [i] *)
Definition order_at (d : dynamic) (i : nat) (r : R) : Prop :=
  exists st, nth_error (output d) i = Some st /\ calculate_sync_order st = Ok r.

(** [l] tells the order of the iterations [a], [a + 1], ..., [b - 1] *)
Definition orders (d : dynamic) (a b : nat) (l : list R) : Prop :=
  length l = b - a /\ forall k r, nth_error l k = Some r -> order_at d (a + k) r.

Lemma range_body d a b : a <= b -> b <= length (output d) ->
  (forall i st, a <= i < b -> nth_error (output d) i = Some st -> awake st) ->
  exists l, collect (fun i => do st <- py_get (output d) i; calculate_sync_order st) (py_range (Z.of_nat a) (Z.of_nat b)) = Ok l /\
    orders d a b l /\ Forall (fun r => 0 <= r <= 1)%R l.
Proof.
  intros Hab Hb Haw. rewrite py_range_nat.
  destruct (collect_total (fun i => do st <- py_get (output d) i; calculate_sync_order st) (map Z.of_nat (seq a (b - a)))) as [l E].
  - intros z Hz. apply in_map_iff in Hz as (i & <- & Hi). apply in_seq in Hi.
    destruct (nth_error (output d) i) as [st|] eqn:Es; [|apply nth_error_None in Es; lia].
    rewrite (py_get_nat _ _ _ Es). cbn [bind].
    assert (Ha : awake st) by (apply (Haw i st); auto; lia).
    destruct (sync_order_range st) as (r & Er & _); eauto. destruct Ha as (p & Hp & _). intro E. subst. inversion Hp.
  - exists l. split; [exact E|]. destruct (collect_ok _ _ _ E) as [Hl Hn]. rewrite map_length, seq_length in Hl.
    assert (Hk : forall k r, nth_error l k = Some r -> order_at d (a + k) r).
    { intros k r Hr. assert (k < b - a) by (rewrite <- Hl; apply nth_error_Some; congruence).
      destruct (Hn k (Z.of_nat (a + k))) as (y & Ey & Ef); [apply nth_error_range; auto|].
      assert (y = r) by congruence. subst y.
      destruct (nth_error (output d) (a + k)) as [st|] eqn:Es; [|apply nth_error_None in Es; lia].
      rewrite (py_get_nat _ _ _ Es) in Ef. exists st. auto. }
    split; [split; auto|]. apply Forall_forall. intros r Hr. apply In_nth_error in Hr as (k & Hr).
    assert (k < b - a) by (rewrite <- Hl; apply nth_error_Some; congruence).
    destruct (Hk k r Hr) as (st & Es & Er). assert (Ha : awake st) by (apply (Haw (a + k) st); auto; lia).
    destruct (sync_order_range st) as (r' & Er' & B); [destruct Ha as (p & Hp & _); intro E'; subst; inversion Hp|exact Ha|].
    assert (r = r') by congruence. subst. auto.
Qed.

(** the order parameter of the iterations from [a] up to and without [b] *)
Theorem C227_range d a b : a <= b -> b <= length (output d) ->
  (forall i st, a <= i < b -> nth_error (output d) i = Some st -> awake st) ->
  exists l, calculate_order_parameter d (Some (Z.of_nat a)) (Some (Z.of_nat b)) = Ok l /\
    orders d a b l /\ Forall (fun r => 0 <= r <= 1)%R l.
Proof. exact (range_body d a b). Qed.
Print Assumptions C227_range.

(** without arguments the order of the last state, with a start only that of this iteration *)
Theorem C227_defaults d a st : nth_error (output d) a = Some st -> awake st ->
  exists r, calculate_sync_order st = Ok r /\ calculate_order_parameter d (Some (Z.of_nat a)) None = Ok [r] /\
    (S a = length (output d) -> calculate_order_parameter d None None = Ok [r]).
Proof.
  intros Es Ha. destruct (sync_order_range st) as (r & Er & _); [destruct Ha as (p & Hp & _); intro E'; subst; inversion Hp|exact Ha|].
  assert (Hc : calculate_order_parameter d (Some (Z.of_nat a)) None = Ok [r]).
  { unfold calculate_order_parameter, calc_iterations. replace (Z.of_nat a + 1)%Z with (Z.of_nat (S a)) by lia.
    rewrite py_range_nat. replace (S a - a) with 1 by lia. cbn [seq map collect]. rewrite (py_get_nat _ _ _ Es). cbn [bind].
    rewrite Er. reflexivity. }
  exists r. repeat split; auto. intro Hl. rewrite <- Hc. unfold calculate_order_parameter, calc_iterations, dyn_len.
  replace (Z.of_nat (length (output d)) - 1)%Z with (Z.of_nat a) by lia. reflexivity.
Qed.
Print Assumptions C227_defaults.

(** consecutive ranges can be computed separately, for the global and for the local order *)
Theorem C227_split d n conn a b c : a <= b -> b <= c ->
  let order := fun x y => calculate_order_parameter d (Some (Z.of_nat x)) (Some (Z.of_nat y)) in
  let local := fun x y => calculate_local_order_parameter d n conn (Some (Z.of_nat x)) (Some (Z.of_nat y)) in
  order a c = (do l1 <- order a b; do l2 <- order b c; Ok (l1 ++ l2)) /\
  local a c = (do l1 <- local a b; do l2 <- local b c; Ok (l1 ++ l2)).
Proof.
  intros Hab Hbc. unfold calculate_order_parameter, calculate_local_order_parameter, calc_iterations. rewrite !py_range_nat.
  replace (c - a) with ((b - a) + (c - b)) by lia. rewrite seq_app, map_app. replace (a + (b - a)) with b by lia.
  split; apply collect_app.
Qed.
Print Assumptions C227_split.

(** an iteration which was not recorded *)
Theorem C227_beyond d a b : a <= length (output d) -> length (output d) < b ->
  (forall i st, a <= i -> nth_error (output d) i = Some st -> awake st) ->
  calculate_order_parameter d (Some (Z.of_nat a)) (Some (Z.of_nat b)) = Raise IndexError.
Proof.
  intros Ha Hb Haw. set (n := length (output d)) in *.
  destruct (C227_split d 0 (fun _ _ => false) a n b Ha (Nat.lt_le_incl _ _ Hb)) as [E _]. cbn zeta in E. rewrite E.
  destruct (C227_range d a n Ha (Nat.le_refl _)) as (l & El & _); [intros i st [Hi _] Hs; exact (Haw i st Hi Hs)|]. rewrite El. cbn [bind].
  unfold calculate_order_parameter, calc_iterations. rewrite py_range_nat. destruct (b - n) as [|m] eqn:Em; [lia|].
  cbn [seq map collect]. rewrite py_get_out by (subst n; lia). reflexivity.
Qed.
Print Assumptions C227_beyond.

(** a recorded state with all phases 0 spoils the whole range *)
Theorem C227_asleep d a b i st : a <= i < b -> nth_error (output d) i = Some st -> ~ awake st ->
  ~ exists l, calculate_order_parameter d (Some (Z.of_nat a)) (Some (Z.of_nat b)) = Ok l.
Proof.
  intros Hi Es Hn [l E]. unfold calculate_order_parameter, calc_iterations in E. rewrite py_range_nat in E.
  destruct (collect_ok _ _ _ E) as [_ H]. destruct (H (i - a) (Z.of_nat i)) as (y & _ & Ey).
  - rewrite nth_error_range by lia. do 2 f_equal. lia.
  - rewrite (py_get_nat _ _ _ Es) in Ey. cbn [bind] in Ey. rewrite sync_order_zero in Ey; [discriminate|].
    intros p Hp. destruct (Req_dec p 0) as [|N]; auto. exfalso. apply Hn. exists p. auto.
Qed.
Print Assumptions C227_asleep.

(** a line through the points (time, order) of the iterations [a] .. [b - 1] *)
Definition line_of (d : dynamic) (value : nat -> R -> Prop) (a b : nat) (l : list (R * R)) : Prop :=
  length l = b - a /\ forall k t r, nth_error l k = Some (t, r) -> nth_error (time d) (a + k) = Some t /\ value (a + k) r.

Lemma line_body d (value : nat -> R -> Prop) a b ys : a <= b -> b <= length (time d) -> length ys = b - a ->
  (forall k r, nth_error ys k = Some r -> value (a + k) r) ->
  exists l, plot_line (py_slice (time d) (Z.of_nat a) (Z.of_nat b)) ys = Ok l /\ line_of d value a b l.
Proof.
  intros Hab Hb Hl Hv. rewrite py_slice_nat by auto. unfold plot_line.
  assert (Hx : length (firstn (b - a) (skipn a (time d))) = b - a) by (rewrite firstn_length, skipn_length; lia).
  rewrite Hx, Hl, Nat.eqb_refl. eexists. split; [reflexivity|]. split; [rewrite combine_length; lia|].
  intros k t r Hk. assert (Hkl : k < b - a).
  { rewrite <- Hl. assert (k < length (combine (firstn (b - a) (skipn a (time d))) ys)) by (apply nth_error_Some; congruence).
    rewrite combine_length in H. lia. }
  assert (G : forall (xs : list R) (zs : list R) j u v, nth_error (combine xs zs) j = Some (u, v) -> nth_error xs j = Some u /\ nth_error zs j = Some v).
  { induction xs as [|x xs IH]; intros [|z zs] [|j] u v H; cbn in *; try discriminate; [injection H; intros; subst; auto|]. apply IH; auto. }
  apply G in Hk as [H1 H2]. rewrite nth_error_firstn, nth_error_skipn in H1 by auto. auto.
Qed.

(** the picture of the global and of the local order: one point (time, order) per iteration of
    the range, of all iterations by default *)
Theorem C227_shown d n conn a b : a <= b -> b <= length (output d) -> length (time d) = length (output d) ->
  let local := fun i r => exists st, nth_error (output d) i = Some st /\ r = calculate_local_sync_order st n conn in
  ((forall i st, a <= i < b -> nth_error (output d) i = Some st -> awake st) ->
   exists l, show_order_parameter d (Some (Z.of_nat a)) (Some (Z.of_nat b)) = Ok l /\ line_of d (order_at d) a b l) /\
  (exists l, show_local_order_parameter d n conn (Some (Z.of_nat a)) (Some (Z.of_nat b)) = Ok l /\ line_of d local a b l) /\
  (a = 0 -> b = length (output d) ->
   show_order_parameter d None None = show_order_parameter d (Some (Z.of_nat a)) (Some (Z.of_nat b)) /\
   show_local_order_parameter d n conn None None = show_local_order_parameter d n conn (Some (Z.of_nat a)) (Some (Z.of_nat b))).
Proof.
  intros Hab Hb Ht local. split; [|split].
  - intro Haw. unfold show_order_parameter, show_iterations. destruct (C227_range d a b Hab Hb Haw) as (ys & -> & [Hl Hv] & _). cbn [bind].
    apply line_body; auto. lia.
  - unfold show_local_order_parameter, show_iterations, calculate_local_order_parameter, calc_iterations. rewrite py_range_nat.
    destruct (collect_total (fun i => do st <- py_get (output d) i; Ok (calculate_local_sync_order st n conn)) (map Z.of_nat (seq a (b - a)))) as [ys E].
    + intros z Hz. apply in_map_iff in Hz as (i & <- & Hi). apply in_seq in Hi.
      destruct (nth_error (output d) i) as [st|] eqn:Es; [|apply nth_error_None in Es; lia]. rewrite (py_get_nat _ _ _ Es). cbn [bind]. eauto.
    + rewrite E. cbn [bind]. destruct (collect_ok _ _ _ E) as [Hl Hn]. rewrite map_length, seq_length in Hl. apply line_body; auto; [lia|].
      intros k r Hr. assert (k < b - a) by (rewrite <- Hl; apply nth_error_Some; congruence).
      destruct (Hn k (Z.of_nat (a + k))) as (y & Ey & Ef); [apply nth_error_range; auto|]. assert (y = r) by congruence. subst y.
      destruct (nth_error (output d) (a + k)) as [st|] eqn:Es; [|apply nth_error_None in Es; lia].
      rewrite (py_get_nat _ _ _ Es) in Ef. cbn [bind] in Ef. injection Ef as <-. exists st. auto.
  - intros -> ->. split; reflexivity.
Qed.
Print Assumptions C227_shown.

(** documented: stop_iteration is the last iteration that is used.  It is not used. *)
Theorem C227_stop_refuted : exists d a b, a <= b /\ b < length (output d) /\ (forall st, In st (output d) -> awake st) /\
  forall l, calculate_order_parameter d (Some (Z.of_nat a)) (Some (Z.of_nat b)) = Ok l -> ~ orders d a (S b) l.
Proof.
  exists (mkDyn [[1]; [2]]%R [0; 1]%R), 0, 1. split; [auto|]. split; [cbn; auto|]. split.
  - intros st [<- | [<- | []]]; [exists 1%R|exists 2%R]; split; cbn; auto; lra.
  - intros l E [Hl _]. destruct (C227_range (mkDyn [[1]; [2]]%R [0; 1]%R) 0 1) as (l' & E' & [Hl' _] & _); cbn; auto.
    + intros i st _ Hi. destruct i as [|[|i]]; cbn in Hi; [injection Hi as <-; exists 1%R|injection Hi as <-; exists 2%R|destruct i; discriminate]; split; cbn; auto; lra.
    + assert (l = l') by congruence. subst. lia.
Qed.
Print Assumptions C227_stop_refuted.

(** both bounds counted from the end: the same iterations *)
Theorem C227_from_end d n conn a b : a <= b -> b < length (output d) -> length (time d) = length (output d) ->
  let last := Z.of_nat (length (output d)) in
  let from := Some (Z.of_nat a - last)%Z in let to := Some (Z.of_nat b - last)%Z in
  calculate_order_parameter d from to = calculate_order_parameter d (Some (Z.of_nat a)) (Some (Z.of_nat b)) /\
  show_order_parameter d from to = show_order_parameter d (Some (Z.of_nat a)) (Some (Z.of_nat b)) /\
  show_local_order_parameter d n conn from to = show_local_order_parameter d n conn (Some (Z.of_nat a)) (Some (Z.of_nat b)).
Proof.
  intros Hab Hb Ht last from to.
  assert (C : forall B (f : list R -> res B), collect (fun i => do st <- py_get (output d) i; f st) (py_range (Z.of_nat a - last) (Z.of_nat b - last)) =
                                               collect (fun i => do st <- py_get (output d) i; f st) (py_range (Z.of_nat a) (Z.of_nat b))).
  { intros B f. unfold py_range. replace (Z.of_nat b - last - (Z.of_nat a - last))%Z with (Z.of_nat b - Z.of_nat a)%Z by lia.
    assert (K : forall k, In k (seq 0 (Z.to_nat (Z.of_nat b - Z.of_nat a))) -> k < b - a) by (intros k Hk; apply in_seq in Hk; lia).
    induction (seq 0 (Z.to_nat (Z.of_nat b - Z.of_nat a))) as [|k t IH]; [reflexivity|]. cbn [map collect]. rewrite IH by (intros; apply K; right; assumption).
    assert (k < b - a) by (apply K; left; reflexivity).
    replace (py_get (output d) (Z.of_nat a - last + Z.of_nat k)) with (py_get (output d) (Z.of_nat a + Z.of_nat k)); [reflexivity|].
    unfold py_get. fold last. destruct (Z.ltb_spec (Z.of_nat a + Z.of_nat k) 0) as [H1|_]; [lia|]. destruct (Z.ltb_spec (Z.of_nat a - last + Z.of_nat k) 0) as [_|H1]; [|lia].
    replace (Z.of_nat a - last + Z.of_nat k + last)%Z with (Z.of_nat a + Z.of_nat k)%Z by lia. reflexivity. }
  assert (T : py_slice (time d) (Z.of_nat a - last) (Z.of_nat b - last) = py_slice (time d) (Z.of_nat a) (Z.of_nat b)).
  { unfold py_slice, slice_bound. rewrite Ht. fold last. destruct (Z.ltb_spec (Z.of_nat a - last) 0) as [_|H]; [|lia]. destruct (Z.ltb_spec (Z.of_nat b - last) 0) as [_|H]; [|lia].
    destruct (Z.ltb_spec (Z.of_nat a) 0) as [H|_]; [lia|]. destruct (Z.ltb_spec (Z.of_nat b) 0) as [H|_]; [lia|].
    replace (Z.max 0 (Z.of_nat b - last + last)) with (Z.min (Z.of_nat b) last) by lia. replace (Z.max 0 (Z.of_nat a - last + last)) with (Z.min (Z.of_nat a) last) by lia. reflexivity. }
  split; [apply C|]. unfold from, to, show_order_parameter, show_local_order_parameter, show_iterations, calculate_order_parameter, calculate_local_order_parameter, calc_iterations. rewrite !C, T. split; reflexivity.
Qed.
Print Assumptions C227_from_end.

(** the last [k] iterations can not be shown by a negative start: the times are cut from the end
    of the list, the orders are computed from the end and then again from the beginning *)
Theorem C227_negative_refuted : exists d k, 0 < k <= length (output d) /\ length (time d) = length (output d) /\
  (forall st, In st (output d) -> awake st) /\ show_order_parameter d (Some (- Z.of_nat k)%Z) None = Raise ValueError.
Proof.
  exists (mkDyn [[PI]; [PI]]%R [0; 1]%R), 1. cbn [output time length]. repeat split; auto.
  - intros st [<- | [<- | []]]; exists PI; (split; [cbn; auto|]); pose proof PI_RGT_0; lra.
  - unfold show_order_parameter, show_iterations, calculate_order_parameter, calc_iterations, dyn_len.
    change (py_range (- Z.of_nat 1) (Z.of_nat (length (output (mkDyn [[PI]; [PI]] [0%R; 1%R]))))) with [(-1)%Z; 0%Z; 1%Z].
    cbn [collect output].
    assert (O1 : calculate_sync_order [PI] = Ok 1%R).
    { apply (sync_order_equal [PI] PI); [discriminate|pose proof PI_RGT_0; lra|]. intros p [<- | []]; auto. }
    change (py_get [[PI]; [PI]] (-1)) with (Ok [PI]). change (py_get [[PI]; [PI]] 0) with (Ok [PI]). change (py_get [[PI]; [PI]] 1) with (Ok [PI]).
    cbn [bind]. rewrite O1. cbn [bind]. reflexivity.
Qed.
Print Assumptions C227_negative_refuted.

Example C227_from_end_case : let d := mkDyn [[1; 2]; [PI; PI]; [0; 0]]%R [0; 1; 2]%R in 0 <= 2 /\ 2 < length (output d) /\ length (time d) = length (output d).
Proof. cbn. repeat split; auto. Qed.
Example C227_case : exists l, calculate_order_parameter (mkDyn [[1; 2]; [PI; PI]; [0; 0]]%R [0; 1; 2]%R) (Some 0%Z) (Some 2%Z) = Ok l /\
  length l = 2 /\ nth_error l 1 = Some 1%R.
Proof.
  destruct (C227_range (mkDyn [[1; 2]; [PI; PI]; [0; 0]]%R [0; 1; 2]%R) 0 2) as (l & E & [Hl Hv] & _); [auto|cbn; auto| |].
  - intros i st Hi Hs. destruct i as [|[|i]]; [| |lia]; cbn in Hs; injection Hs as <-; [exists 1%R|exists PI]; split; cbn; auto; pose proof PI_RGT_0; lra.
  - exists l. repeat split; auto. destruct (nth_error l 1) as [r|] eqn:Er; [|apply nth_error_None in Er; cbn in Hl; lia].
    destruct (Hv 1 r Er) as (st & Hs & Ho). cbn in Hs. injection Hs as <-. f_equal.
    assert (O : calculate_sync_order [PI; PI]%R = Ok 1%R). { apply (sync_order_equal [PI; PI] PI); [discriminate|pose proof PI_RGT_0; lra|]. intros p [<- | [<- | []]]; auto. }
    congruence.
Qed.

(** * C228: matrices of phases and correlations, animations *)

Lemma frames_of {B} (f : Z -> res B) n out : collect f (py_range 0 (Z.of_nat n)) = Ok out ->
  length out = n /\ forall k, k < n -> exists y, nth_error out k = Some y /\ f (Z.of_nat k) = Ok y.
Proof.
  intro E. change 0%Z with (Z.of_nat 0) in E. rewrite py_range_nat, Nat.sub_0_r in E. destruct (collect_ok _ _ _ E) as [Hl Hn].
  rewrite map_length, seq_length in Hl. split; auto. intros k Hk. apply Hn. apply (nth_error_range 0 n k Hk).
Qed.

Lemma frames_total {B} (f : Z -> res B) n : (forall k, k < n -> exists y, f (Z.of_nat k) = Ok y) -> exists out, collect f (py_range 0 (Z.of_nat n)) = Ok out.
Proof.
  intro H. change 0%Z with (Z.of_nat 0). rewrite py_range_nat, Nat.sub_0_r. apply collect_total. intros z Hz.
  apply in_map_iff in Hz as (i & <- & Hi). apply in_seq in Hi. apply H. lia.
Qed.

Lemma state_at_nat d k st : nth_error (output d) k = Some st -> state_at d (Some (Z.of_nat k)) = Ok st.
Proof. intro E. apply py_get_nat. exact E. Qed.

Lemma state_at_last d k st : nth_error (output d) k = Some st -> S k = length (output d) -> state_at d None = Ok st.
Proof.
  intros E H. unfold state_at, dyn_len. replace (Z.of_nat (length (output d)) - 1)%Z with (Z.of_nat k) by lia. apply py_get_nat. exact E.
Qed.

(** which state a call without and with an iteration speaks about *)
Definition speaks_of (d : dynamic) (iteration : option Z) (st : list R) : Prop :=
  exists k, nth_error (output d) k = Some st /\ (iteration = Some (Z.of_nat k) \/ iteration = None /\ S k = length (output d)).

Lemma speaks_state d it st : speaks_of d it st -> state_at d it = Ok st.
Proof. intros (k & E & [-> | [-> H]]); [apply state_at_nat|apply (state_at_last d k)]; auto. Qed.

Lemma speaks_nonempty d it st : speaks_of d it st -> output d <> [].
Proof. intros (k & E & _) H. rewrite H in E. destruct k; discriminate. Qed.

Lemma map_nth_seq (l : list R) m o : o + m <= length l -> map (fun j => nth (j + o) l 0%R) (seq 0 m) = firstn m (skipn o l).
Proof.
  revert l o. induction m as [|m IH]; intros l o H; [reflexivity|].
  cbn [seq map]. rewrite <- seq_shift, map_map. destruct (skipn o l) as [|x t] eqn:E.
  - assert (length (skipn o l) = 0) by (rewrite E; reflexivity). rewrite skipn_length in H0. lia.
  - cbn [firstn]. assert (Hx : nth_error l o = Some x). { rewrite <- (Nat.add_0_r o), <- nth_error_skipn, E. reflexivity. }
    rewrite (nth_error_nth _ _ 0%R Hx : nth (0 + o) l 0%R = x). f_equal.
    assert (Ht : t = skipn (S o) l).
    { clear - E. revert l E. induction o as [|o IHo]; intros l E; [cbn in E; subst; reflexivity|]. destruct l as [|y l]; [discriminate|]. cbn in E. apply (IHo l E). }
    rewrite Ht, <- (IH l (S o)) by lia. apply map_ext. intro j. f_equal. lia.
Qed.

Lemma rows_concat (st : list R) w h o : length st = o + w * h ->
  concat (map (fun i => map (fun j => nth (j + (o + i * w)) st 0%R) (seq 0 w)) (seq 0 h)) = skipn o st.
Proof.
  revert o. induction h as [|h IH]; intros o H.
  - cbn. rewrite skipn_all2; auto. lia.
  - cbn [seq map concat]. rewrite Nat.add_0_r, map_nth_seq by lia. rewrite <- seq_shift, map_map.
    rewrite (map_ext _ (fun i => map (fun j => nth (j + (o + w + i * w)) st 0%R) (seq 0 w))) by (intro i; apply map_ext; intro j; f_equal; lia).
    rewrite (IH (o + w)) by lia. rewrite <- (firstn_skipn w (skipn o st)) at 2. f_equal.
    clear. revert o. induction st as [|x t IHt]; intros [|o]; cbn [skipn plus]; auto; try (rewrite !skipn_nil; auto).
Qed.

(** the matrix of [h] rows of [w] phases, filled row by row *)
Definition phases_by_rows (st : list R) (w h : nat) (m : list (list R)) : Prop :=
  length m = h /\ Forall (fun row => length row = w) m /\ concat m = st.

Lemma matrix_by_rows st w h : length st = w * h ->
  phases_by_rows st w h (map (fun i => map (fun j => nth (j + i * w) st 0%R) (seq 0 w)) (seq 0 h)).
Proof.
  intro H. split; [rewrite map_length, seq_length; auto|]. split.
  - apply Forall_forall. intros row Hr. apply in_map_iff in Hr as (i & <- & _). rewrite map_length, seq_length. auto.
  - exact (rows_concat st w h 0 H).
Qed.

(** both sizes given: the phases row by row when they fit, otherwise an error *)
Theorem C228_phase_matrix d it st w h : speaks_of d it st ->
  (length st = w * h -> exists m, allocate_phase_matrix d (Some w) (Some h) it = Ok m /\ phases_by_rows st w h m) /\
  (length st <> w * h -> allocate_phase_matrix d (Some w) (Some h) it = Raise NameError).
Proof.
  intro S. pose proof (speaks_nonempty _ _ _ S) as Hne. unfold allocate_phase_matrix. destruct (output d) as [|o os] eqn:Eo; [congruence|].
  rewrite (speaks_state _ _ _ S). cbn [bind]. split; intro H.
  - rewrite H, Nat.eqb_refl. eexists. split; [reflexivity|]. apply matrix_by_rows; auto.
  - apply Nat.eqb_neq in H. rewrite H. reflexivity.
Qed.
Print Assumptions C228_phase_matrix.

(** a size missing: the other one is ignored; a square matrix when the number of oscillators is
    a square, otherwise an error *)
Theorem C228_missing_size d it st gw gh : speaks_of d it st -> gw = None \/ gh = None ->
  (forall s, length st = s * s -> exists m, allocate_phase_matrix d gw gh it = Ok m /\ phases_by_rows st s s m) /\
  ((forall s, length st <> s * s) -> allocate_phase_matrix d gw gh it = Raise NameError).
Proof.
  intros S Hg. pose proof (speaks_nonempty _ _ _ S) as Hne. unfold allocate_phase_matrix. destruct (output d) as [|o os] eqn:Eo; [congruence|].
  rewrite (speaks_state _ _ _ S). cbn [bind].
  assert (E : match gw, gh with Some w, Some h => (w, h) | _, _ => (Nat.sqrt_up (length st), Nat.sqrt_up (length st)) end =
    (Nat.sqrt_up (length st), Nat.sqrt_up (length st))) by (destruct Hg as [-> | ->]; [|destruct gw]; reflexivity).
  rewrite E. split.
  - intros s H. rewrite H, Nat.sqrt_up_square by lia. rewrite Nat.eqb_refl. eexists. split; [reflexivity|]. apply matrix_by_rows; auto.
  - intro H. specialize (H (Nat.sqrt_up (length st))). apply Nat.eqb_neq in H. rewrite H. reflexivity.
Qed.
Print Assumptions C228_missing_size.

(** [m] tells |sin| of the difference of the phases of every two oscillators *)
Definition correlations (st : list R) (m : list (list R)) : Prop :=
  length m = length st /\ Forall (fun row => length row = length st) m /\
  forall i j, i < length st -> j < length st ->
    (nth j (nth i m []) 0 = Rabs (sin (nth i st 0 - nth j st 0)) /\
     0 <= nth j (nth i m []) 0 <= 1 /\ nth j (nth i m []) 0 = nth i (nth j m []) 0 /\
     (nth j (nth i m []) 0 = 0 <-> exists z, nth i st 0 = nth j st 0 + IZR z * PI))%R.

Lemma nth_seq_map {B} (f : nat -> B) n k d : k < n -> nth k (map f (seq 0 n)) d = f k.
Proof. intro H. rewrite (nth_indep _ d (f 0)) by (rewrite map_length, seq_length; auto). rewrite map_nth, seq_nth by auto. reflexivity. Qed.

Lemma correlation_table st n : n = length st ->
  correlations st (map (fun i => map (fun j => Rabs (sin (nth i st 0 - nth j st 0)))%R (seq 0 n)) (seq 0 n)).
Proof.
  intros ->. split; [rewrite map_length, seq_length; auto|]. split.
  - apply Forall_forall. intros row Hr. apply in_map_iff in Hr as (i & <- & _). rewrite map_length, seq_length. auto.
  - intros i j Hi Hj. rewrite !nth_seq_map by auto. repeat split.
    + apply Rabs_pos.
    + apply Rabs_le. destruct (SIN_bound (nth i st 0 - nth j st 0)%R). lra.
    + rewrite <- Rabs_Ropp, <- sin_neg. f_equal. f_equal. lra.
    + intro H. destruct (Req_dec (sin (nth i st 0 - nth j st 0))%R 0%R) as [H0|H0]; [|apply Rabs_no_R0 in H0; congruence].
      apply sin_eq_0_0 in H0 as (z & Hz). exists z. lra.
    + intros (z & Hz). rewrite Hz. replace (nth j st 0 + IZR z * PI - nth j st 0)%R with (IZR z * PI)%R by lra.
      rewrite (sin_eq_0_1 (IZR z * PI)) by eauto. apply Rabs_R0.
Qed.

(** a value of the correlation matrix is 0 exactly for phases which differ by half turns *)
Theorem C228_correlation_matrix d it st : speaks_of d it st -> (forall s, In s (output d) -> length s = length st) ->
  exists m, allocate_correlation_matrix d it = Ok m /\ correlations st m.
Proof.
  intros S Hu. pose proof (speaks_nonempty _ _ _ S) as Hne. unfold allocate_correlation_matrix. destruct (output d) as [|o os] eqn:Eo; [congruence|].
  rewrite (speaks_state _ _ _ S). cbn [bind]. rewrite (Hu o (or_introl eq_refl)), Nat.leb_refl. eexists. split; [reflexivity|]. apply correlation_table; auto.
Qed.
Print Assumptions C228_correlation_matrix.

(** documented for sync_dynamic: the matrix shows which oscillators are in phase.  A value 0 does
    not tell it: it is also that of opposite phases. *)
Theorem C228_in_phase_refuted : exists d m, allocate_correlation_matrix d None = Ok m /\
  nth 1 (nth 0 m []) 0%R = 0%R /\ output d = [[0; PI]]%R.
Proof.
  destruct (C228_correlation_matrix (mkDyn [[0; PI]]%R [0%R]) None [0; PI]%R) as (m & E & _ & _ & H).
  - exists 0. cbn. auto.
  - cbn. intros s [<- | []]. reflexivity.
  - exists (mkDyn [[0; PI]]%R [0%R]), m. split; [exact E|]. split; [|reflexivity].
    destruct (H 0 1) as (_ & _ & _ & _ & H1); [cbn; auto|cbn; auto|]. apply H1. exists (-1)%Z. cbn [nth]. lra.
Qed.
Print Assumptions C228_in_phase_refuted.

(** the frames of the animations: frame [k] shows the state recorded at iteration [k] *)
Theorem C228_animations d n : output d <> [] -> (forall s, In s (output d) -> length s = n) ->
  (exists fs, animate_output_dynamic d = Ok fs /\ length fs = length (output d) /\
     forall k st, nth_error (output d) k = Some st -> nth_error fs k = Some (map (fun p => (p, 1%R)) st)) /\
  (exists fs, animate_correlation_matrix d = Ok fs /\ length fs = length (output d) /\
     forall k st, nth_error (output d) k = Some st -> exists m, nth_error fs k = Some m /\ correlations st m) /\
  (exists fs, animate d = Ok fs /\ length fs = length (output d) /\
     forall k st, nth_error (output d) k = Some st -> exists m, nth_error fs k = Some (map (fun p => (p, 1%R)) st, m) /\ correlations st m).
Proof.
  intros Hne Hu. set (N := length (output d)).
  assert (H0 : exists st, nth_error (output d) 0 = Some st) by (destruct (output d); [congruence|cbn; eauto]). destruct H0 as (st0 & H0).
  assert (Hk : forall k, k < N -> exists st, nth_error (output d) k = Some st).
  { intros k H. destruct (nth_error (output d) k) eqn:E; [eauto|]. apply nth_error_None in E. subst N. lia. }
  assert (Hc : forall k st, nth_error (output d) k = Some st -> exists m, allocate_correlation_matrix d (Some (Z.of_nat k)) = Ok m /\ correlations st m).
  { intros k st E. apply C228_correlation_matrix; [exists k; auto|]. intros s Hs. rewrite (Hu s Hs). symmetry. apply Hu. eapply nth_error_In; eauto. }
  destruct (Hc 0 st0 H0) as (m0 & Em0 & _). pose proof (py_get_nat _ _ _ H0) as Eg0. change (Z.of_nat 0) with 0%Z in *.
  split; [|split].
  - unfold animate_output_dynamic, dyn_len. fold N. rewrite Eg0. cbn [bind].
    match goal with |- context [collect ?f _] => destruct (frames_total f N) as [fs E] end.
    { intros k Hkn. destruct (Hk k Hkn) as (st & Es). rewrite (py_get_nat _ _ _ Es). cbn [bind]. eauto. }
    rewrite E. exists fs. split; [reflexivity|]. apply frames_of in E as [Hl Hf]. split; [exact Hl|]. intros k st Es.
    assert (Hkn : k < N) by (apply nth_error_Some; congruence). destruct (Hf k Hkn) as (y & Ey & Ef). rewrite (py_get_nat _ _ _ Es) in Ef. cbn [bind] in Ef.
    injection Ef as <-. exact Ey.
  - unfold animate_correlation_matrix, dyn_len. fold N. rewrite Em0. cbn [bind].
    match goal with |- context [collect ?f _] => destruct (frames_total f N) as [fs E] end.
    { intros k Hkn. destruct (Hk k Hkn) as (st & Es). destruct (Hc k st Es) as (m & Em & _). eauto. }
    rewrite E. exists fs. split; [reflexivity|]. apply frames_of in E as [Hl Hf]. split; [exact Hl|]. intros k st Es.
    assert (Hkn : k < N) by (apply nth_error_Some; congruence). destruct (Hf k Hkn) as (y & Ey & Ef). destruct (Hc k st Es) as (m & Em & Cm).
    assert (y = m) by congruence. subst. eauto.
  - unfold animate, dyn_len. fold N. rewrite Eg0, Em0. cbn [bind].
    match goal with |- context [collect ?f _] => destruct (frames_total f N) as [fs E] end.
    { intros k Hkn. destruct (Hk k Hkn) as (st & Es). destruct (Hc k st Es) as (m & Em & _). rewrite (py_get_nat _ _ _ Es), Em. cbn [bind]. eauto. }
    rewrite E. exists fs. split; [reflexivity|]. apply frames_of in E as [Hl Hf]. split; [exact Hl|]. intros k st Es.
    assert (Hkn : k < N) by (apply nth_error_Some; congruence). destruct (Hf k Hkn) as (y & Ey & Ef). destruct (Hc k st Es) as (m & Em & Cm).
    rewrite (py_get_nat _ _ _ Es), Em in Ef. cbn [bind] in Ef. injection Ef as <-. eauto.
Qed.
Print Assumptions C228_animations.

(** the same for the animated matrix of phases *)
Theorem C228_animated_phases d w h : output d <> [] -> (forall s, In s (output d) -> length s = w * h) ->
  exists fs, animate_phase_matrix d (Some w) (Some h) = Ok fs /\ length fs = length (output d) /\
    forall k st, nth_error (output d) k = Some st -> exists m, nth_error fs k = Some m /\ phases_by_rows st w h m.
Proof.
  intros Hne Hu. set (N := length (output d)).
  assert (H0 : exists st, nth_error (output d) 0 = Some st) by (destruct (output d); [congruence|cbn; eauto]). destruct H0 as (st0 & H0).
  assert (Hk : forall k, k < N -> exists st, nth_error (output d) k = Some st).
  { intros k H. destruct (nth_error (output d) k) eqn:E; [eauto|]. apply nth_error_None in E. subst N. lia. }
  assert (Hc : forall k st, nth_error (output d) k = Some st ->
    exists m, allocate_phase_matrix d (Some w) (Some h) (Some (Z.of_nat k)) = Ok m /\ phases_by_rows st w h m).
  { intros k st E. apply C228_phase_matrix; [exists k; auto|]. apply Hu. eapply nth_error_In; eauto. }
  destruct (Hc 0 st0 H0) as (m0 & Em0 & _). change (Z.of_nat 0) with 0%Z in *.
  unfold animate_phase_matrix, dyn_len. fold N. rewrite Em0. cbn [bind].
  match goal with |- context [collect ?f _] => destruct (frames_total f N) as [fs E] end.
  { intros k Hkn. destruct (Hk k Hkn) as (st & Es). destruct (Hc k st Es) as (m & Em & _). eauto. }
  rewrite E. exists fs. split; [reflexivity|]. apply frames_of in E as [Hl Hf]. split; [exact Hl|]. intros k st Es.
  assert (Hkn : k < N) by (apply nth_error_Some; congruence). destruct (Hf k Hkn) as (y & Ey & Ef). destruct (Hc k st Es) as (m & Em & Cm).
  assert (y = m) by congruence. subst. eauto.
Qed.
Print Assumptions C228_animated_phases.

Example C228_case : speaks_of (mkDyn [[1; 2; 3; 4]; [5; 6; 7; 8]]%R [0; 1]%R) None [5; 6; 7; 8]%R /\
  allocate_phase_matrix (mkDyn [[1; 2; 3; 4]; [5; 6; 7; 8]]%R [0; 1]%R) (Some 4) None None = Ok [[5; 6]; [7; 8]]%R /\
  allocate_phase_matrix (mkDyn [[1; 2; 3; 4]; [5; 6; 7; 8]]%R [0; 1]%R) (Some 4) (Some 1) (Some 0%Z) = Ok [[1; 2; 3; 4]]%R.
Proof. split; [exists 1; cbn; auto|]. split; reflexivity. Qed.

(** * C229: the state in which a network of phase oscillators is created *)

Lemma init_length n f i draw : forall l k, length (snd (init_loop n f i draw k l)) = length l /\
  (i <> OtherInitial -> length (fst (init_loop n f i draw k l)) = length l) /\
  (i = OtherInitial -> fst (init_loop n f i draw k l) = []).
Proof.
  induction l as [|x t IH]; intro k; [cbn; auto|]. cbn [init_loop]. destruct i.
  - destruct (IH (S (S k))) as (H1 & H2 & H3). destruct (init_loop n f RandomGaussian draw (S (S k)) t) as [ps fs]. cbn [fst snd app length] in *.
    repeat split; [lia|intro; rewrite H2; auto; discriminate|discriminate].
  - destruct (IH (S k)) as (H1 & H2 & H3). destruct (init_loop n f Equipartition draw (S k) t) as [ps fs]. cbn [fst snd app length] in *.
    repeat split; [lia|intro; rewrite H2; auto; discriminate|discriminate].
  - destruct (IH (S k)) as (H1 & H2 & H3). destruct (init_loop n f OtherInitial draw (S k) t) as [ps fs]. cbn [fst snd app length] in *.
    repeat split; [lia|congruence|auto].
Qed.

Lemma init_freq n f i draw x : forall l k, In x (snd (init_loop n f i draw k l)) -> exists j, x = (draw j * f)%R.
Proof.
  induction l as [|y t IH]; intros k H; [destruct H|]. cbn [init_loop] in H. destruct i;
    [destruct (init_loop n f RandomGaussian draw (S (S k)) t) as [ps fs] eqn:E|destruct (init_loop n f Equipartition draw (S k) t) as [ps fs] eqn:E
    |destruct (init_loop n f OtherInitial draw (S k) t) as [ps fs] eqn:E]; cbn [snd] in H; destruct H as [<- | H]; eauto.
  - apply (IH (S (S k))). rewrite E. exact H.
  - apply (IH (S k)). rewrite E. exact H.
  - apply (IH (S k)). rewrite E. exact H.
Qed.

Lemma init_random n f draw x : forall l k, In x (fst (init_loop n f RandomGaussian draw k l)) -> exists j, x = (draw j * 2 * PI)%R.
Proof.
  induction l as [|y t IH]; intros k H; [destruct H|]. cbn [init_loop] in H.
  destruct (init_loop n f RandomGaussian draw (S (S k)) t) as [ps fs] eqn:E. cbn [fst app] in H. destruct H as [<- | H]; eauto.
  apply (IH (S (S k))). rewrite E. exact H.
Qed.

Lemma init_equal n f draw : forall l k, fst (init_loop n f Equipartition draw k l) = map (fun i => PI / INR n * INR i)%R l.
Proof.
  induction l as [|y t IH]; intro k; [reflexivity|]. cbn [init_loop map]. rewrite <- (IH (S k)).
  destruct (init_loop n f Equipartition draw (S k) t) as [ps fs]. reflexivity.
Qed.

(** values of random.random() *)
Definition random_values (draw : nat -> R) : Prop := forall k, (0 <= draw k < 1)%R.

(** RANDOM_GAUSSIAN: every phase in [0, 2 pi), whatever is drawn (no phase of a normal
    distribution lies outside); frequencies below the multiplier, all 0 without it *)
Theorem C229_random n f draw : random_values draw -> (0 <= f)%R ->
  let '(phases, freq) := sync_init n f RandomGaussian draw in
  length phases = n /\ length freq = n /\
  (forall p, In p phases -> 0 <= p < 2 * PI)%R /\
  (forall w, In w freq -> 0 <= w <= f /\ (0 < f -> w < f))%R.
Proof.
  intros Hd Hf. unfold sync_init. destruct (init_length n f RandomGaussian draw (seq 0 n) 0) as (H1 & H2 & _).
  destruct (init_loop n f RandomGaussian draw 0 (seq 0 n)) as [ps fs] eqn:E. cbn [fst snd] in *. rewrite seq_length in *.
  split; [apply H2; discriminate|]. split; [exact H1|]. split.
  - intros p Hp. destruct (init_random n f draw p (seq 0 n) 0) as (j & ->); [rewrite E; exact Hp|]. specialize (Hd j). pose proof PI_RGT_0 as Hpi.
    split; [apply Rmult_le_pos; [lra|lra]|]. rewrite Rmult_assoc. rewrite <- (Rmult_1_l (2 * PI)) at 2. apply Rmult_lt_compat_r; lra.
  - intros w Hw. destruct (init_freq n f RandomGaussian draw w (seq 0 n) 0) as (j & ->); [rewrite E; exact Hw|]. specialize (Hd j).
    split; [split; [apply Rmult_le_pos; lra|]|].
    + rewrite <- (Rmult_1_l f) at 2. apply Rmult_le_compat_r; lra.
    + intro Hp. rewrite <- (Rmult_1_l f) at 2. apply Rmult_lt_compat_r; lra.
Qed.
Print Assumptions C229_random.

(** EQUIPARTITION: phase i is i/n of a half circle, whatever is drawn *)
Theorem C229_equipartition n f draw :
  let phases := fst (sync_init n f Equipartition draw) in
  length phases = n /\
  (forall i, i < n -> (nth i phases 0 = INR i * (PI / INR n) /\ 0 <= nth i phases 0 <= INR (n - 1) * (PI / INR n) /\ INR (n - 1) * (PI / INR n) < PI)%R) /\
  forall f' draw', fst (sync_init n f' Equipartition draw') = phases.
Proof.
  cbn zeta. unfold sync_init. rewrite init_equal. split; [rewrite map_length, seq_length; auto|]. split.
  - intros i Hi. rewrite (nth_seq_map (fun i => PI / INR n * INR i)%R n i 0%R Hi).
    pose proof PI_RGT_0 as Hpi. assert (Hn : (0 < INR n)%R) by (apply lt_0_INR; lia).
    assert (Hq : (0 < PI / INR n)%R) by (apply Rdiv_lt_0_compat; lra).
    split; [ring|]. repeat split.
    + apply Rmult_le_pos; [lra|apply pos_INR].
    + rewrite Rmult_comm. apply Rmult_le_compat_r; [lra|]. apply le_INR. lia.
    + replace PI with (INR n * (PI / INR n))%R at 2 by (field; lra). apply Rmult_lt_compat_r; [lra|]. apply lt_INR. lia.
  - intros f' draw'. rewrite init_equal. reflexivity.
Qed.
Print Assumptions C229_equipartition.

(** distance of two phases of [0, 2 pi] on the circle *)
Definition circle_distance (a b : R) : R := Rmin (Rabs (a - b)) (2 * PI - Rabs (a - b)).

(** documented (initial_type): the oscillators are equidistant from each other.  Only half of the
    circle is filled: the last and the first one are farther apart than neighbours. *)
Theorem C229_equidistant_refuted : exists n f draw, let phases := fst (sync_init n f Equipartition draw) in
  3 <= n /\ (circle_distance (nth 0 phases 0) (nth 1 phases 0) < circle_distance (nth (n - 1) phases 0) (nth 0 phases 0))%R.
Proof.
  exists 3, 0%R, (fun _ => 0%R). cbn zeta. split; [auto|]. destruct (C229_equipartition 3 0 (fun _ => 0%R)) as (_ & H & _).
  destruct (H 0) as [-> _]; [lia|]. destruct (H 1) as [-> _]; [lia|]. destruct (H (3 - 1)) as [-> _]; [lia|].
  replace (INR (3 - 1)) with 2%R by (cbn; lra). replace (INR 3) with 3%R by (cbn; lra). replace (INR 1) with 1%R by reflexivity. replace (INR 0) with 0%R by reflexivity.
  pose proof PI_RGT_0 as Hpi. unfold circle_distance.
  replace (0 * (PI / 3) - 1 * (PI / 3))%R with (- (PI / 3))%R by lra. replace (2 * (PI / 3) - 0 * (PI / 3))%R with (2 * (PI / 3))%R by lra.
  rewrite Rabs_Ropp, !Rabs_right by lra. rewrite !Rmin_left by lra. lra.
Qed.
Print Assumptions C229_equidistant_refuted.

(** any other value of the enumeration leaves the network without phases *)
Theorem C229_other n f draw : sync_init n f OtherInitial draw = ([], snd (sync_init n f OtherInitial draw)) /\
  length (snd (sync_init n f OtherInitial draw)) = n.
Proof.
  unfold sync_init. destruct (init_length n f OtherInitial draw (seq 0 n) 0) as (H1 & _ & H3).
  destruct (init_loop n f OtherInitial draw 0 (seq 0 n)) as [ps fs]. cbn [fst snd] in *. rewrite H3, H1, seq_length; auto.
Qed.
Print Assumptions C229_other.

Lemma sync_step_succeeds fuel net weight freq lo hi s : (0 <= lo)%R -> (hi <= 2 * PI)%R -> (hi - lo < PI)%R -> (0 <= weight <= 1)%R ->
  (forall i, nth i freq 0%R = 0%R) -> length s = n_osc net -> within_arc (fun _ => True) lo hi s ->
  exists s', sync_step fuel net weight freq s = Ok s' /\ length s' = n_osc net.
Proof.
  intros Hlo Hhi Hd Hw Hf Hl Ha. unfold sync_step.
  destruct (calculate_total fuel (phase_kuramoto net weight freq s) s (seq 0 (n_osc net))) as [ps E].
  - intros i Hi. apply in_seq in Hi. eexists. apply normalization_id.
    assert (B : (lo <= rnth s i + phase_kuramoto net weight freq s i (rnth s i) <= hi)%R).
    { apply (kuramoto_arc net weight freq s (fun k => k < n_osc net) lo hi i); try assumption; try lia.
      - intros k Hk. apply Ha; auto. lia.
      - apply Hf. }
    lra.
  - exists ps. split; auto. apply calculate_nth in E as [E _]. rewrite seq_length in E. auto.
Qed.

Lemma zero_freq n draw i : nth i (snd (sync_init n 0 Equipartition draw)) 0%R = 0%R.
Proof.
  destruct (le_lt_dec (length (snd (sync_init n 0 Equipartition draw))) i) as [H|H]; [apply nth_overflow; auto|].
  destruct (init_freq n 0 Equipartition draw (nth i (snd (sync_init n 0 Equipartition draw)) 0%R) (seq 0 n) 0) as (j & E); [apply nth_In; exact H|].
  rewrite E. ring.
Qed.

(** without own frequencies a network which starts equipartitioned never leaves its half circle:
    every state of every simulation, for any structure of connections, and no step fails *)
Theorem C229_half_circle fuel net weight draw l : 1 <= n_osc net -> (0 <= weight <= 1)%R ->
  let hi := (INR (n_osc net - 1) * (PI / INR (n_osc net)))%R in
  let start := sync_init (n_osc net) 0 Equipartition draw in
  let step := sync_step fuel net weight (snd start) in
  chain step (fst start) l ->
  Forall (fun s => forall i, i < n_osc net -> (0 <= nth i s 0 <= hi /\ hi < PI)%R) l /\
  exists s', step (last l (fst start)) = Ok s'.
Proof.
  intros Hn Hw hi start step Hc.
  destruct (C229_equipartition (n_osc net) 0 draw) as (Hl & Hp & _). fold start in Hl, Hp.
  assert (Hhi : (0 <= hi < PI)%R) by (destruct (Hp 0) as [_ H]; [lia|]; fold hi in H; lra). pose proof PI_RGT_0 as Hpi.
  assert (Hf : forall i, nth i (snd start) 0%R = 0%R) by (intro; apply zero_freq).
  assert (Ha : within_arc (fun _ => True) 0 hi (fst start)).
  { intros i Hi _. rewrite Hl in Hi. destruct (Hp i Hi) as [_ H]. fold hi in H. lra. }
  assert (Hkept : Forall (within_arc (fun _ => True) 0 hi) l).
  { apply (C122_arc_kept_sync fuel net weight (snd start) (fun _ => True) 0 hi (fst start) l); auto; try lra. }
  assert (Hlen : Forall (fun s => length s = n_osc net) l).
  { clear - Hc. induction Hc as [s|s s' l E Hc IH]; [constructor|]. constructor; auto.
    unfold step, sync_step in E. apply calculate_nth in E as [E _]. rewrite seq_length in E. auto. }
  split.
  - apply Forall_forall. intros s Hs i Hi. rewrite Forall_forall in Hkept, Hlen. split; [|lra]. apply (Hkept s Hs); auto. rewrite (Hlen s Hs). auto.
  - assert (Hlast : within_arc (fun _ => True) 0 hi (last l (fst start)) /\ length (last l (fst start)) = n_osc net).
    { destruct l as [|x t]; [cbn [last]; auto|]. assert (In (last (x :: t) (fst start)) (x :: t)).
      { destruct (exists_last (l := x :: t)) as (l' & y & ->); [discriminate|]. rewrite last_last. apply in_or_app. right. left. auto. }
      rewrite Forall_forall in Hkept, Hlen. auto. }
    destruct Hlast as [H1 H2]. destruct (sync_step_succeeds fuel net weight (snd start) 0 hi (last l (fst start))) as (s' & E & _); auto; try lra. eauto.
Qed.
Print Assumptions C229_half_circle.

Example C229_case : let start := sync_init 4 2 Equipartition (fun _ => (1 / 2)%R) in
  fst start = [PI / 4 * 0; PI / 4 * 1; PI / 4 * 2; PI / 4 * 3]%R /\ snd start = [1 / 2 * 2; 1 / 2 * 2; 1 / 2 * 2; 1 / 2 * 2]%R.
Proof.
  cbn zeta. unfold sync_init. cbn [seq init_loop app fst snd]. replace (INR 4) with 4%R by (cbn; lra). replace (INR 3) with 3%R by (cbn; lra).
  replace (INR 2) with 2%R by (cbn; lra). replace (INR 1) with 1%R by reflexivity. replace (INR 0) with 0%R by reflexivity. split; reflexivity.
Qed.

Example C229_half_circle_case : exists net s, network_init 3 CAllToAll RMatrix None = Ok net /\
  chain (sync_step 0 net 1 (snd (sync_init 3 0 Equipartition (fun _ => 0%R)))) (fst (sync_init 3 0 Equipartition (fun _ => 0%R))) [s].
Proof.
  eexists. destruct (C229_half_circle 0 (mkNet 3 CAllToAll (create_structure CAllToAll RMatrix 3 0) 0 0) 1 (fun _ => 0%R) []) as [_ [s E]]; [cbn; auto|lra|constructor|].
  exists s. split; [reflexivity|]. apply chain_cons; [exact E|constructor].
Qed.
