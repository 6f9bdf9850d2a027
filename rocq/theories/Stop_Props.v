(** When the iterative algorithms stop: k-medians, fuzzy c-means and EM. *)
From Verif Require Import Base Kmeans_Model Kmeans_Proofs Kmedians_Proofs Metric_Model Fcm_Model Fcm_Proofs Ema_Model Ema_Proofs Ema_Props Emaobs_Model Emaobs_Props.
From Coq Require Import Reals Lra.
Open Scope nat_scope.

(** * A loop with a limit that goes on while [go] *)
Section Loop.
Context {X : Type}.
Variable step : X -> X.
Variable go : X -> X -> bool.
(** [moving]: the step before went far enough *)
Fixpoint run (left : nat) (moving : bool) (x : X) : X :=
  match left with
  | 0 => x
  | S left' => if moving then run left' (go x (step x)) (step x) else x
  end.
Lemma run_keeps (I : X -> Prop) : (forall x, I x -> I (step x)) -> forall left moving x, I x -> I (run left moving x).
Proof. intro H. induction left as [|left IH]; intros moving x Hx; cbn [run]; [exact Hx|]. destruct moving; auto. Qed.
Lemma run_stopped left x : run left false x = x.
Proof. destruct left; reflexivity. Qed.
Lemma run_goes n : forall x, (forall i, i < n -> go (run i true x) (run (S i) true x) = true) -> run (S n) true x = step (run n true x).
Proof.
  induction n as [|n IH]; intros x H; [reflexivity|].
  pose proof (H 0 ltac:(lia)) as H0. cbn [run] in H0.
  assert (E : forall k, run (S k) true x = run k true (step x)) by (intro k; cbn [run]; rewrite H0; reflexivity).
  rewrite (E (S n)), (E n). apply IH. intros i Hi. rewrite <- !E. apply H. lia.
Qed.
Lemma run_stops n : forall x i, i < n -> go (run i true x) (run (S i) true x) = false -> run (S n) true x = run n true x.
Proof.
  induction n as [|n IH]; intros x i Hi H; [lia|].
  destruct (go x (step x)) eqn:H0.
  - assert (E : forall k, run (S k) true x = run k true (step x)) by (intro k; cbn [run]; rewrite H0; reflexivity).
    rewrite (E (S n)), (E n). destruct i as [|i]; [cbn [run] in H; congruence|]. apply (IH _ i); [lia|]. rewrite <- !E. exact H.
  - cbn [run]. rewrite H0. now rewrite !run_stopped.
Qed.
End Loop.

(** * k-medians *)
Section Kmedians.
Variable metric : point -> point -> Q.
Variable data : list point.
Definition mstep (x : list (list nat) * list point) : list (list nat) * list point :=
  let cl := kmedians_update_clusters metric data (snd x) in (cl, kmedians_update_medians data cl).
Definition mgo (tol : Q) (x y : list (list nat) * list point) : bool := Qltb tol (kmedians_changes metric (snd x) (snd y)).
Lemma kmedians_run tol left : forall change x, kmedians_loop metric data tol left change (fst x) (snd x) = run mstep (mgo tol) left (exceeds change tol) x.
Proof.
  induction left as [|left IH]; intros change [cl ms]; [reflexivity|]. cbn [kmedians_loop run fst snd]. destruct (exceeds change tol); [|reflexivity].
  exact (IH (Some (kmedians_changes metric ms (kmedians_update_medians data (kmedians_update_clusters metric data ms)))) (mstep (cl, ms))).
Qed.
Lemma changes_exceed tol (a b : list point) : b <> [] ->
  Qltb tol (kmedians_changes metric a b) = true <-> exists k, k < length b /\ (tol < metric (nth k a []) (nth k b []))%Q.
Proof.
  intro Hb. unfold kmedians_changes.
  assert (M : forall l x, (forall v, In v (x :: l) -> (v <= fold_left (fun m v => if Qltb m v then v else m) l x)%Q) /\
                          In (fold_left (fun m v => if Qltb m v then v else m) l x) (x :: l)).
  { induction l as [|y l IH]; intro x; cbn [fold_left].
    - split; [intros v [<-|[]]; apply Qle_refl|now left].
    - destruct (IH (if Qltb x y then y else x)) as (A & B). split.
      + intros v [<-|[<-|Hv]].
        * apply Qle_trans with (if Qltb x y then y else x); [|apply A; now left]. destruct (Qltb x y) eqn:E; [apply Qltb_true in E; apply Qlt_le_weak; exact E|apply Qle_refl].
        * apply Qle_trans with (if Qltb x y then y else x); [|apply A; now left]. destruct (Qltb x y) eqn:E; [apply Qle_refl|apply Qltb_false in E; exact E].
        * apply A. now right.
      + destruct B as [B|B]; [|now right; right]. rewrite <- B. destruct (Qltb x y); [right; now left|now left]. }
  set (f := fun k => metric (nth k a []) (nth k b [])).
  assert (Hs : seq 0 (length b) = 0 :: seq 1 (length b - 1)) by (destruct b; [congruence|cbn [length seq]; do 2 f_equal; lia]).
  rewrite Hs. cbn [map maxQ]. destruct (M (map f (seq 1 (length b - 1))) (f 0)) as (A & B). split.
  - intro H. apply Qltb_true in H. change (f 0 :: map f (seq 1 (length b - 1))) with (map f (0 :: seq 1 (length b - 1))) in B. rewrite <- Hs in B.
    apply in_map_iff in B. destruct B as (k & Ek & Hk). apply in_seq in Hk. exists k. split; [lia|]. rewrite <- Ek in H. exact H.
  - intros (k & Hk & H). apply Qltb_true. apply Qlt_le_trans with (f k); [exact H|]. apply A.
    change (f 0 :: map f (seq 1 (length b - 1))) with (map f (0 :: seq 1 (length b - 1))). rewrite <- Hs. apply in_map. apply in_seq. lia.
Qed.
End Kmedians.

(** Process with the limit n + 1 makes one more iteration than with the limit n
    while in every iteration so far some median moved by more than the
    tolerance, and none once in some iteration no median did. *)
Theorem C211_kmedians metric data initial tol n cl ms w :
  kmedians_process metric data initial tol n = Ok (cl, ms, w) ->
  let moved i := exists cl1 a w1 cl2 b w2, kmedians_process metric data initial tol i = Ok (cl1, a, w1) /\
       kmedians_process metric data initial tol (S i) = Ok (cl2, b, w2) /\ exists k, k < length b /\ (tol < metric (nth k a []) (nth k b []))%Q in
  ((forall i, i < n -> moved i) -> kmedians_process metric data initial tol (S n) = kmedians_process metric data ms tol 1) /\
  ((exists i, i < n /\ ~ moved i) -> kmedians_process metric data initial tol (S n) = kmedians_process metric data initial tol n).
Proof.
  intro H. cbv zeta. assert (Hd : data <> [] /\ initial <> [] /\ Qltb tol 0 = false /\ length (nth 0 initial []) = length (nth 0 data [])).
  { unfold kmedians_process in H. destruct data as [|p0 t]; [discriminate|]. destruct initial as [|c0 ct]; [discriminate|].
    destruct (Qltb tol 0); [discriminate|]. destruct (Nat.eqb_spec (length p0) (length c0)); [|discriminate]. cbn [nth]. repeat split; auto; discriminate. }
  destruct Hd as (D1 & D2 & D3 & D4).
  assert (P : forall start m, start <> [] -> length (nth 0 start []) = length (nth 0 data []) ->
     kmedians_process metric data start tol m = let r := run (mstep metric data) (mgo metric tol) m true ([], start) in Ok (fst r, snd r, total_wce metric data (fst r) (snd r))).
  { intros start m S1 S2. unfold kmedians_process. destruct data as [|p0 t]; [congruence|]. destruct start as [|c0 ct]; [congruence|].
    rewrite D3. cbn [nth] in S2. rewrite S2, Nat.eqb_refl. pose proof (kmedians_run metric (p0 :: t) tol m None ([], c0 :: ct)) as K. cbn [fst snd exceeds] in K. rewrite K.
    cbv zeta. destruct (run (mstep metric (p0 :: t)) (mgo metric tol) m true ([], c0 :: ct)) as [a b]. reflexivity. }
  set (R := fun m => run (mstep metric data) (mgo metric tol) m true ([], initial)).
  assert (E : forall m, kmedians_process metric data initial tol m = Ok (fst (R m), snd (R m), total_wce metric data (fst (R m)) (snd (R m)))) by (intro m; apply (P initial m D2 D4)).
  assert (I : forall m, snd (R m) <> [] /\ length (nth 0 (snd (R m)) []) = length (nth 0 data [])).
  { intro m. unfold R. apply (run_keeps (mstep metric data) (mgo metric tol) (fun x => snd x <> [] /\ length (nth 0 (snd x) []) = length (nth 0 data []))); [|split; assumption].
    intros [c0 m0] (I1 & _). unfold mstep. cbn [snd] in *. pose proof (kmedians_step_ok metric data (length m0) m0 I1 (le_n _)) as K.
    destruct (kmedians_ok_uniform data _ _ _ D1 K) as (K1 & K2). split; [exact K1|].
    destruct (kmedians_update_medians data (kmedians_update_clusters metric data m0)) as [|q qt]; [congruence|]. cbn [nth].
    rewrite (K2 q) by now left. unfold dimension. destruct data; [congruence|reflexivity]. }
  assert (G : forall i, mgo metric tol (R i) (R (S i)) = true <-> exists cl1 a w1 cl2 b w2, kmedians_process metric data initial tol i = Ok (cl1, a, w1) /\
       kmedians_process metric data initial tol (S i) = Ok (cl2, b, w2) /\ exists k, k < length b /\ (tol < metric (nth k a []) (nth k b []))%Q).
  { intro i. unfold mgo. rewrite (changes_exceed metric tol (snd (R i)) (snd (R (S i)))) by apply I. split.
    - intro Hk. do 6 eexists. rewrite !E. split; [reflexivity|]. split; [reflexivity|]. exact Hk.
    - intros (cl1 & a & w1 & cl2 & b & w2 & E1 & E2 & Hk). rewrite E in E1, E2. injection E1 as _ <- _. injection E2 as _ <- _. exact Hk. }
  assert (Hms : ms = snd (R n)) by (rewrite E in H; injection H; congruence). split.
  - intro Hm. rewrite E, Hms, (P (snd (R n)) 1) by apply I. cbv zeta. assert (Es : R (S n) = run (mstep metric data) (mgo metric tol) 1 true ([], snd (R n))).
    { unfold R at 1. rewrite run_goes; [reflexivity|]. intros i Hi. apply G. apply Hm. exact Hi. }
    rewrite Es. reflexivity.
  - intros (i & Hi & Hn). rewrite !E. assert (Es : R (S n) = R n).
    { apply (run_stops _ _ n ([], initial) i Hi). destruct (mgo metric tol (R i) (R (S i))) eqn:Eg; [|exact Eg]. exfalso. apply Hn, G. exact Eg. }
    rewrite Es. reflexivity.
Qed.
Print Assumptions C211_kmedians.

(** The first iteration moves a median by 1, the second none. *)
Example C211_kmedians_example :
  let out := kmedians_process manhattan [[0]; [2]; [10]; [12]]%Q [[0]; [10]]%Q (1 # 10) in
  exists w1 w2, out 1 = Ok ([[0; 1]; [2; 3]], [[2 # 2]; [22 # 2]], w1) /\ out 2 = Ok ([[0; 1]; [2; 3]], [[2 # 2]; [22 # 2]], w2) /\ out 3 = out 2.
Proof. eexists. eexists. split; [vm_compute; reflexivity|]. split; vm_compute; reflexivity. Qed.

(** * fuzzy c-means *)
Section Fuzzy.
Variable data : list rpoint.
Variable m : R.
Definition fstep (x : list (list R) * list rpoint) : list (list R) * list rpoint :=
  let mb := update_membership data m (snd x) in (mb, calculate_centers data mb (length (snd x))).
Definition fgo (tol : R) (x y : list (list R) * list rpoint) : bool := if Rlt_dec tol (calculate_changes (snd x) (snd y)) then true else false.
Lemma fcm_run tol left : forall change x, fcm_loop data m tol left change (fst x) (snd x) =
  run fstep (fgo tol) left (match change with None => true | Some c => if Rlt_dec tol c then true else false end) x.
Proof.
  induction left as [|left IH]; intros change [mb cs]; [reflexivity|]. cbn [fcm_loop run fst snd].
  destruct (match change with None => true | Some c => if Rlt_dec tol c then true else false end); [|reflexivity].
  exact (IH (Some (calculate_changes cs (calculate_centers data (update_membership data m cs) (length cs)))) (fstep (mb, cs))).
Qed.
(** squared distance *)
Definition moved2 (p q : rpoint) : R := fold_right Rplus R0 (map2 (fun a b => ((a - b) ^ 2)%R) p q).
Lemma fchanges tol (a b : list rpoint) : length a = length b -> a <> [] ->
  (tol < calculate_changes a b)%R <-> exists k, k < length b /\ (tol < moved2 (nth k a []) (nth k b []))%R.
Proof.
  intros L Hne. unfold calculate_changes.
  assert (G : forall (a b : list rpoint), length a = length b ->
     (0 <= fold_right Rmax 0 (map2 difference a b))%R /\
     ((0 < fold_right Rmax 0 (map2 difference a b))%R -> exists k, k < length b /\ fold_right Rmax 0%R (map2 difference a b) = moved2 (nth k a []) (nth k b [])) /\
     forall k, k < length b -> (moved2 (nth k a []) (nth k b []) <= fold_right Rmax 0 (map2 difference a b))%R).
  { clear. induction a as [|x a IH]; intros [|y b] L; try discriminate; cbn [map2 fold_right length].
    - split; [lra|]. split; [lra|]. intros k Hk. lia.
    - destruct (IH b ltac:(cbn in L; lia)) as (A & B & C). pose proof (difference_nonneg x y) as D. set (F := fold_right Rmax 0%R (map2 difference a b)) in *.
      split; [apply Rle_trans with F; [exact A|apply Rmax_r]|]. split.
      + intro Hp. destruct (Rle_dec F (difference x y)) as [Hl|Hl].
        * exists 0. split; [lia|]. rewrite Rmax_left by exact Hl. reflexivity.
        * rewrite Rmax_right in * by lra. destruct (B Hp) as (k & Hk & Ek). exists (S k). split; [lia|]. exact Ek.
      + intros [|k] Hk; [apply Rmax_l|]. apply Rle_trans with F; [apply (C k); lia|apply Rmax_r]. }
  destruct (G a b L) as (A & B & C). split.
  - intro H. destruct (Rlt_dec 0 (fold_right Rmax 0%R (map2 difference a b))) as [Hp|Hp].
    + destruct (B Hp) as (k & Hk & Ek). exists k. split; [exact Hk|]. rewrite <- Ek. exact H.
    + assert (Hz : fold_right Rmax 0%R (map2 difference a b) = 0%R) by lra. rewrite Hz in H. exists 0.
      assert (Hl : 0 < length b) by (rewrite <- L; destruct a; [congruence|cbn; lia]). split; [exact Hl|].
      pose proof (difference_nonneg (nth 0 a []) (nth 0 b [])) as D. change (difference (nth 0 a []) (nth 0 b [])) with (moved2 (nth 0 a []) (nth 0 b [])) in D. lra.
  - intros (k & Hk & H). specialize (C k Hk). lra.
Qed.
End Fuzzy.

(** The same for fuzzy c-means; a centre moves by the squared distance. *)
Theorem C211_fcm data m initial tol n cl cs mb :
  fcm_process data m initial tol n = Ok (cl, cs, mb) ->
  let moved i := exists cl1 a m1 cl2 b m2, fcm_process data m initial tol i = Ok (cl1, a, m1) /\
       fcm_process data m initial tol (S i) = Ok (cl2, b, m2) /\ exists k, k < length b /\ (tol < moved2 (nth k a []) (nth k b []))%R in
  ((forall i, i < n -> moved i) -> fcm_process data m initial tol (S n) = fcm_process data m cs tol 1) /\
  ((exists i, i < n /\ ~ moved i) -> fcm_process data m initial tol (S n) = fcm_process data m initial tol n).
Proof.
  intro H. cbv zeta. assert (Hd : length data <> 0 /\ length initial <> 0).
  { unfold fcm_process in H. destruct (Nat.eqb_spec (length data) 0); [discriminate|]. destruct (Nat.eqb_spec (length initial) 0); [discriminate|]. auto. }
  destruct Hd as (D1 & D2).
  set (start := fun c : list rpoint => (map (fun _ : rpoint => map (fun _ : rpoint => 0%R) c) data, c)).
  assert (P : forall c k, length c <> 0 -> fcm_process data m c tol k =
     let r := run (fstep data m) (fgo tol) k true (start c) in Ok (extract_clusters (fst r) (length (snd r)), snd r, fst r)).
  { intros c k Hc. unfold fcm_process. destruct (Nat.eqb_spec (length data) 0); [congruence|]. destruct (Nat.eqb_spec (length c) 0); [congruence|].
    pose proof (fcm_run data m tol k None (start c)) as Q. cbn [fst snd start] in Q. cbv zeta. rewrite <- Q. reflexivity. }
  set (R := fun k => run (fstep data m) (fgo tol) k true (start initial)).
  assert (E : forall k, fcm_process data m initial tol k = Ok (extract_clusters (fst (R k)) (length (snd (R k))), snd (R k), fst (R k))) by (intro k; apply (P initial k D2)).
  assert (I : forall k, length (snd (R k)) = length initial).
  { intro k. unfold R. apply (run_keeps (fstep data m) (fgo tol) (fun x => length (snd x) = length initial)); [|reflexivity].
    intros [a b] Hx. cbn [snd fstep] in *. unfold calculate_centers. rewrite map_length, seq_length. exact Hx. }
  assert (G : forall i, fgo tol (R i) (R (S i)) = true <-> exists cl1 a m1 cl2 b m2, fcm_process data m initial tol i = Ok (cl1, a, m1) /\
       fcm_process data m initial tol (S i) = Ok (cl2, b, m2) /\ exists k, k < length b /\ (tol < moved2 (nth k a []) (nth k b []))%R).
  { intro i. unfold fgo. assert (F : (tol < calculate_changes (snd (R i)) (snd (R (S i))))%R <-> exists k, k < length (snd (R (S i))) /\ (tol < moved2 (nth k (snd (R i)) []) (nth k (snd (R (S i))) []))%R).
    { apply fchanges; [rewrite !I; reflexivity|]. intro Hz. specialize (I i). rewrite Hz in I. cbn in I. congruence. }
    split.
    - intro Hk. destruct (Rlt_dec tol _) as [Hl|]; [|discriminate]. do 6 eexists. rewrite !E. split; [reflexivity|]. split; [reflexivity|]. apply F. exact Hl.
    - intros (cl1 & a & m1 & cl2 & b & m2 & E1 & E2 & Hk). rewrite E in E1, E2. injection E1 as _ <- _. injection E2 as _ <- _. apply F in Hk.
      destruct (Rlt_dec tol _); [reflexivity|contradiction]. }
  assert (Hcs : cs = snd (R n)) by (rewrite E in H; injection H; congruence). split.
  - intro Hm. rewrite E, Hcs, (P (snd (R n)) 1) by (rewrite I; exact D2). cbv zeta.
    assert (Es : R (S n) = run (fstep data m) (fgo tol) 1 true (start (snd (R n)))).
    { unfold R at 1. rewrite run_goes; [reflexivity|]. intros i Hi. apply G. apply Hm. exact Hi. }
    rewrite Es. reflexivity.
  - intros (i & Hi & Hn). rewrite !E. assert (Es : R (S n) = R n).
    { apply (run_stops _ _ n (start initial) i Hi). destruct (fgo tol (R i) (R (S i))) eqn:Eg; [|exact Eg]. exfalso. apply Hn, G. exact Eg. }
    rewrite Es. reflexivity.
Qed.
Print Assumptions C211_fcm.
Example C211_fcm_example : exists r, fcm_process [[0]; [1]; [5]]%R 2%R [[0]; [4]]%R (1 / 1000)%R 3 = Ok r.
Proof. eexists. reflexivity. Qed.

(** * Expectation-maximization *)

(** The logarithm of the likelihood: for every point the weighted sum of its
    densities. *)
Definition value (g : option R) : R := match g with Some x => x | None => 0%R end.
Definition likelihood (n : nat) (s : state) : R :=
  sum_over n (fun i => ln (sum_over (length (clusters s)) (fun c => (nth c (pic s) 0 * value (nth i (nth c (gaussians s) []) None))%R))).

Section Em.
Variable data : list rpoint.
Variable density : rpoint -> matrix -> rpoint -> option R.
Hypothesis Hd : regular density.
Hypothesis Hn : 0 < length data.

Definition finite_rows (rows : list (list (option R))) : Prop :=
  forall row, In row rows -> length row = length data /\ forall v, In v row -> exists g, v = Some g /\ (0 < g)%R.
Lemma step_finite s x : well_formed s -> nonzero_variances s -> step data density s = Ok x -> finite_rows (gaussians x).
Proof.
  intros W V H. unfold step in H. destruct (expectation data density s) as [e|] eqn:E; cbn [bind] in H; [|discriminate].
  destruct (expectation_spec data density Hd Hn s W V) as (e' & E' & EA & _ & _ & _ & EG & ER & EC). rewrite E in E'. apply Ok_inj in E'. subst e'.
  assert (F : finite_rows (gaussians e)).
  { unfold expectation in E. destruct (_ || _); [discriminate|]. apply Ok_inj in E. subst e. cbn [gaussians]. intros row Hr.
    apply in_map_iff in Hr. destruct Hr as (c & <- & Hc). apply in_seq in Hc. split; [apply map_length|]. intros v Hv. apply in_map_iff in Hv.
    destruct Hv as (p & <- & _). apply Hd. apply V. apply nth_In. destruct W as (_ & _ & L & _). unfold matrix in *. lia. }
  assert (Lg : length (gaussians e) = amount e) by lia.
  assert (Am : amount (maximization data e) <= amount e).
  { unfold maximization. cbn [amount]. unfold possible.
    assert (G : forall (f : nat -> bool) l, length (filter f l) <= length l) by (intros f l; induction l as [|y l IH]; cbn; [lia|destruct (f y); cbn; lia]).
    rewrite <- (seq_length (amount e) 0) at 2. apply G. }
  unfold extract in H. destruct (amount (maximization data e) =? 0); [discriminate|]. apply Ok_inj in H. subst x.
  unfold erase_empty. cbn [clusters]. set (cl := fold_left _ _ _).
  assert (Lc : length cl <= amount e).
  { apply Nat.le_trans with (amount (maximization data e)); [|exact Am]. unfold cl.
    rewrite (push_groups (fun i => argmax (candidates (maximization data e) i))). unfold groups_of. rewrite map_length, seq_length. lia. }
  destruct (_ =? _); cbn [gaussians]; [exact F|]. intros row Hr. unfold keep in Hr. apply in_map_iff in Hr. destruct Hr as (c & <- & Hc).
  apply filter_In in Hc. destruct Hc as (Hc & _). apply in_seq in Hc. apply F. change (gaussians (maximization data e)) with (gaussians e). apply nth_In. lia.
Qed.

Lemma likelihood_of x : aligned (length data) x -> finite_rows (gaussians x) -> log_likelihood data x = Some (likelihood (length data) x).
Proof.
  intros (W & Lc & Lr & Lg & _) F. unfold log_likelihood, likelihood, sum_over. change (fold_right Rplus R0) with rtotal.
  apply total_some. intros i Hi. apply in_seq in Hi. rewrite Lc.
  assert (G : forall c, c < amount x -> nth i (nth c (gaussians x) []) None = Some (value (nth i (nth c (gaussians x) []) None)) /\ (0 < value (nth i (nth c (gaussians x) []) None))%R).
  { intros c Hc. destruct (F (nth c (gaussians x) [])) as (L & P); [apply nth_In; lia|]. destruct (P (nth i (nth c (gaussians x) []) None)) as (g & -> & Hg); [apply nth_In; lia|]. auto. }
  assert (M : mixture x i = Some (rtotal (map (fun c => (nth c (pic x) 0 * value (nth i (nth c (gaussians x) []) None))%R) (seq 0 (amount x))))).
  { unfold mixture. apply total_some. intros c Hc. apply in_seq in Hc. destruct (G c ltac:(lia)) as (E & _). rewrite E at 1. reflexivity. }
  rewrite M. cbn [log_term]. destruct (Rlt_dec 0 _) as [_|Hneg]; [reflexivity|]. exfalso. apply Hneg.
  apply rtotal_pos; [apply seq_nonempty; apply W|]. intros c Hc. apply in_seq in Hc. apply Rmult_lt_0_compat; [|apply G; lia].
  apply (pic_pos data Hn); [exact W|lia].
Qed.

(** the loop with the likelihood as a part of the state *)
Definition est := (em_observer * option R * state)%type.
Definition estep (x : est) : est :=
  if stop_condition (snd x) then x else
  match step data density (snd x) with
  | Ok s' => (em_notify (fst (fst x)) s', log_likelihood data s', s')
  | Raise _ => x
  end.
Definition ego (tol : R) (x y : est) : bool := negb (stop_condition (snd y) || negb (changed tol (snd (fst x)) (snd (fst y)))).
Definition good (x : est) : Prop := aligned (length data) (snd x) /\ snd (fst x) = Some (likelihood (length data) (snd x)).
Lemma estep_ok x : well_formed (snd x) -> stop_condition (snd x) = false ->
  exists s', step data density (snd x) = Ok s' /\ estep x = (em_notify (fst (fst x)) s', log_likelihood data s', s') /\ good (estep x).
Proof.
  intros W E. destruct (step_spec data density Hd Hn (snd x) W (stop_false _ E)) as (y & Ey & A & _). exists y. split; [exact Ey|].
  assert (G : estep x = (em_notify (fst (fst x)) y, log_likelihood data y, y)) by (unfold estep; rewrite E, Ey; reflexivity).
  split; [exact G|]. rewrite G. split; [exact A|]. cbn [fst snd]. apply likelihood_of; [exact A|]. exact (step_finite _ _ W (stop_false _ E) Ey).
Qed.
Lemma good_kept x : good x -> good (estep x).
Proof.
  intro G. destruct (stop_condition (snd x)) eqn:E; [unfold estep; rewrite E; exact G|].
  destruct (estep_ok x) as (s' & _ & _ & H); [apply G|exact E|exact H].
Qed.
Lemma em_run tol left : forall previous current o s, well_formed s ->
  em_loop data density tol left (stop_condition s) previous current o s =
  let r := run estep (ego tol) left (negb (stop_condition s || negb (changed tol previous current))) (o, current, s) in (fst (fst r), Ok (snd r)).
Proof.
  induction left as [|left IH]; intros previous current o s W; cbn [em_loop run]; [reflexivity|].
  destruct (stop_condition s || negb (changed tol previous current)) eqn:E; cbn [negb]; [reflexivity|].
  apply orb_false_iff in E as (E & _). destruct (estep_ok (o, current, s) W E) as (s' & Es & Ee & G & _). cbn [snd fst] in *.
  rewrite Es, Ee. rewrite Ee in G. apply IH. apply G.
Qed.
End Em.

(** EM stops after an iteration that leaves a covariance without any spread or
    changes the logarithm of the likelihood by at most the tolerance; the
    value before the first iteration is -100000. *)
Theorem C211_em data density k means0 variances0 tol n :
  regular density -> 0 < length data -> 0 < k -> length means0 = k -> length variances0 = k -> (forall v, In v variances0 -> norm v <> 0%R) ->
  let process i := em_process data density em_new k means0 variances0 tol i in
  let stops i := exists o1 r1 o2 r2, process i = (o1, Ok r1) /\ process (S i) = (o2, Ok r2) /\
     ((exists v, In v (variances r2) /\ norm v = 0%R) \/
      (Rabs ((if i =? 0 then -100000 else likelihood (length data) r1) - likelihood (length data) r2) <= tol)%R) in
  ((tol < 100000)%R -> (forall i, i < n -> ~ stops i) -> em_len (fst (process n)) = n /\ em_len (fst (process (S n))) = S n) /\
  ((tol < 100000)%R -> (exists i, i < n /\ stops i) -> process (S n) = process n) /\
  ((100000 <= tol)%R -> process n = process 0).
Proof.
  intros Hd Hn Hk Lm Lv Hv process stops.
  set (s0 := {| amount := k; means := means0; variances := variances0; pic := repeat 1%R k;
        gaussians := repeat [] k; rc := repeat (repeat 0%R (length data)) k; clusters := [] |}).
  assert (W : well_formed s0).
  { unfold well_formed, s0. cbn [amount means variances pic]. repeat (split; [auto; now rewrite repeat_length|]). intros w Hw. apply repeat_spec in Hw. subst w. lra. }
  assert (S0 : stop_condition s0 = false).
  { unfold stop_condition. destruct (existsb _ _) eqn:E; [|reflexivity]. apply existsb_exists in E as (v & Hi & Ez). destruct (Req_EM_T (norm v) 0); [|discriminate]. exfalso. exact (Hv v Hi e). }
  set (x0 := (em_new, Some (-100000)%R, s0) : est).
  set (first := changed tol (Some (-200000)%R) (Some (-100000)%R)).
  assert (P : forall i, process i = let r := run (estep data density) (ego tol) i first x0 in (fst (fst r), Ok (normalize data (snd r)))).
  { intro i. unfold process, em_process. destruct (Nat.eqb_spec (length data) 0); [lia|]. destruct (Nat.eqb_spec k 0); [lia|]. fold s0.
    pose proof (em_run data density Hd Hn tol i (Some (-200000)%R) (Some (-100000)%R) em_new s0 W) as E. rewrite S0 in E. rewrite E.
    cbn [orb]. rewrite negb_involutive. reflexivity. }
  assert (Hf : first = if Rlt_dec tol 100000 then true else false).
  { unfold first, changed. replace (-200000 - -100000)%R with (-100000)%R by lra. rewrite Rabs_left by lra. replace (- (-100000))%R with 100000%R by lra. reflexivity. }
  split; [|split; [|]]; cycle 2.
  { intro Ht. rewrite !P, Hf. destruct (Rlt_dec tol 100000); [lra|]. now rewrite !run_stopped. }
  all: intro Ht; assert (Hft : first = true) by (rewrite Hf; destruct (Rlt_dec tol 100000); [reflexivity|lra]).
  all: set (R := fun i => run (estep data density) (ego tol) i true x0).
  all: assert (E : forall i, process i = (fst (fst (R i)), Ok (normalize data (snd (R i))))) by (intro i; rewrite P, Hft; reflexivity).
  all: assert (G : forall i, good data (R (S i))) by
     (intro i; unfold R; cbn [run]; apply run_keeps; [intros x Hx; exact (good_kept data density Hd Hn x Hx)|]; destruct (estep_ok data density Hd Hn x0 W S0) as (s' & _ & _ & H); exact H).
  all: assert (Lk : forall s, likelihood (length data) (normalize data s) = likelihood (length data) s) by reflexivity.
  all: assert (C : forall i, snd (fst (R i)) = Some (if i =? 0 then -100000 else likelihood (length data) (snd (R i)))%R)
    by (intros [|i]; [reflexivity|apply G]).
  all: assert (B : forall i, ego tol (R i) (R (S i)) = false <-> stops i).
  1, 3: intro i; unfold ego; rewrite negb_false_iff, orb_true_iff, negb_true_iff, !C; cbn [changed]; change (S i =? 0) with false; cbv iota;
    (split;
    [ intro H; unfold stops; rewrite !E; do 4 eexists; split; [reflexivity|]; split; [reflexivity|]; rewrite !Lk; destruct H as [H|H];
      [left; unfold stop_condition in H; apply existsb_exists in H as (v & Hi & Hz); destruct (Req_EM_T (norm v) 0); [eauto|discriminate]
      |right; apply Rnot_lt_le; intro Hl; match type of H with context [Rlt_dec ?a ?b] => destruct (Rlt_dec a b); [discriminate H|contradiction] end]
    | intros (o1 & r1 & o2 & r2 & E1 & E2 & H); rewrite E in E1, E2; injection E1 as _ <-; injection E2 as _ <-; rewrite !Lk in H; destruct H as [(v & Hi & Hz)|H];
      [left; unfold stop_condition; apply existsb_exists; exists v; split; [exact Hi|]; destruct (Req_EM_T (norm v) 0); [reflexivity|contradiction]
      |right; match goal with |- context [Rlt_dec ?a ?b] => destruct (Rlt_dec a b) as [Hl|]; [exfalso; apply (Rlt_not_le _ _ Hl); exact H|reflexivity] end]]).
  - assert (Len : forall m, (forall i, i < m -> ~ stops i) -> em_len (fst (fst (R m))) = m /\ stop_condition (snd (R m)) = false).
    { induction m as [|m IH]; intro H; [split; [reflexivity|exact S0]|]. destruct (IH ltac:(intros; apply H; lia)) as (A1 & A2).
      assert (Eg : forall i, i < S m -> ego tol (R i) (R (S i)) = true).
      { intros i Hi. destruct (ego tol (R i) (R (S i))) eqn:Eg; [reflexivity|]. exfalso. apply (H i Hi), B. exact Eg. }
      assert (Es : R (S m) = estep data density (R m)) by (apply run_goes; intros i Hi; apply Eg; lia).
      split; [|specialize (Eg m ltac:(lia)); unfold ego in Eg; apply negb_true_iff, orb_false_iff in Eg; apply Eg].
      assert (Wm : well_formed (snd (R m))) by (destruct m; [exact W|apply G]).
      destruct (estep_ok data density Hd Hn (R m) Wm A2) as (s' & _ & Ee & _). rewrite Es, Ee. cbn [fst]. unfold em_len, em_notify in *. cbn [em_means]. rewrite app_length, A1. cbn. lia. }
    intro H. rewrite !E. cbn [fst]. destruct (Len n H) as (A1 & A2). split; [exact A1|].
    assert (Es : R (S n) = estep data density (R n)).
    { apply run_goes. intros i Hi. destruct (ego tol (R i) (R (S i))) eqn:Eg; [exact Eg|]. exfalso. apply (H i Hi), B. exact Eg. }
    assert (Wm : well_formed (snd (R n))) by (destruct n; [exact W|apply G]).
    destruct (estep_ok data density Hd Hn (R n) Wm A2) as (s' & _ & Ee & _). rewrite Es, Ee. cbn [fst]. unfold em_len, em_notify in *. cbn [em_means]. rewrite app_length, A1. cbn. lia.
  - intros (i & Hi & H). apply B in H. rewrite !E. assert (Es : R (S n) = R n) by (exact (run_stops _ _ n x0 i Hi H)). rewrite Es. reflexivity.
Qed.
Print Assumptions C211_em.
(** The density of the library and two clusters of unit variance meet the
    hypotheses. *)
Example C211_em_example : forall pinv, regular (gaussian pinv) /\ (forall v, In v [[[1%R]]; [[1%R]]] -> norm v <> 0%R).
Proof. intro pinv. split; [apply C44_gaussian_regular|]. exact (proj2 C44_start_example). Qed.
