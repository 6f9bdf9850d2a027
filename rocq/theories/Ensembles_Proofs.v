(** Ensembles: specifications and proofs. *)
From Verif Require Import Base Ensembles_Model.

(** * Specifications *)

(** distance of two phases on a circle of the given length, both in [0, period] *)
Definition circle_dist (period x y : Q) : Q :=
  let d := Qabs (x - y)%Q in
  if Qle_bool d (period - d)%Q then d else (period - d)%Q.

(** what the code accepts as synchronous: near on the line, or near after reflection of [x] *)
Definition sync_accepts (period tolerance x y : Q) : Prop :=
  (Qabs (x - y) < tolerance)%Q \/ (Qabs (Qabs (x - period) - y) < tolerance)%Q.

(** [v] comes after [u] in the same group / in a later group *)
Definition phase (state : list Q) (i : nat) : Q := nth i state 0%Q.

(** each member but the first of a group is accepted by a member before it *)
Definition chained (acc : nat -> nat -> Prop) (g : list nat) : Prop :=
  forall pre v post, g = pre ++ v :: post -> pre <> [] -> exists u, In u pre /\ acc v u.

(** an oscillator is accepted by no earlier oscillator of an earlier group *)
Definition first_fit (acc : nat -> nat -> Prop) (gs : list (list nat)) : Prop :=
  forall l1 g1 l2 g2 l3 u v, gs = l1 ++ g1 :: l2 ++ g2 :: l3 -> In u g1 -> In v g2 -> u < v -> ~ acc v u.

(** the candidate is within the tolerance of the neuron at each of the last [steps] states *)
Definition follows (dynamic : list (list Q)) (tolerance : Q) (steps neuron i : nat) : Prop :=
  forall k, k < Nat.min steps (length dynamic) ->
    let st := nth (length dynamic - 1 - k) dynamic [] in
    (Qabs (phase st i - phase st neuron) < tolerance)%Q.

(** [i] fires at step [t] *)
Definition fires (dynamic : list (list nat)) (t i : nat) : Prop := nth i (nth t dynamic []) 0 = 1.

(** [t] is the last step (not counting step 0) at which [i] fires *)
Definition last_fire (dynamic : list (list nat)) (i t : nat) : Prop :=
  1 <= t < length dynamic /\ fires dynamic t i /\
  forall t', t < t' < length dynamic -> ~ fires dynamic t' i.

(** the oscillator is active at some step after the first one and inactive later *)
Definition whole_pulse (threshold : Q) (dynamic : list (list Q)) (i : nat) : Prop :=
  exists t s, 1 <= t < s /\ s < length dynamic /\
    (threshold < phase (nth t dynamic []) i)%Q /\ (phase (nth s dynamic []) i <= threshold)%Q.

(** the last finished pulse of a recorded signal: active at [e], the signal is not active at some later step, whatever is
    active after [e] is still active at the end; the pulse starts after [s], the last step before [e] below the
    threshold, or 0 *)
Definition last_pulse (threshold : Q) (signal : nat -> Q) (steps e s : nat) : Prop :=
  1 <= e < steps /\ (threshold < signal e)%Q /\ (exists t, e < t < steps /\ (signal t <= threshold)%Q) /\
  (forall t, e < t < steps -> (threshold < signal t)%Q -> forall u, t < u < steps -> (threshold < signal u)%Q) /\
  s < e /\ (s = 0 \/ (signal s < threshold)%Q) /\ (forall t, s < t < e -> (threshold <= signal t)%Q).
(** the middle of a pulse is closer to the middle of another one than the tolerance times the length of the latter *)
Definition pulse_near (tolerance : Q) (p founder : nat * nat) : Prop :=
  let mid (x : nat * nat) := ((inject_Z (Z.of_nat (fst x)) + inject_Z (Z.of_nat (snd x))) / 2)%Q in
  (Qabs (mid p - mid founder) < tolerance * (inject_Z (Z.of_nat (fst founder)) - inject_Z (Z.of_nat (snd founder))))%Q.

(** number of steps at which a recorded signal falls below the threshold *)
Fixpoint falls (threshold : Q) (prev : Q) (l : list Q) : nat :=
  match l with
  | [] => 0
  | v :: t => (if Qle_bool threshold prev && Qltb v threshold then 1 else 0) + falls threshold v t
  end.

(** * Generic facts on [append_at] *)
Lemma append_at_perm cl k v : k < length cl -> Permutation (concat (append_at cl k v)) (concat cl ++ [v]).
Proof.
  revert k; induction cl as [|c t IH]; intros [|k] H; simpl in *; try lia.
  - rewrite <- !app_assoc. apply Permutation_app_head. apply Permutation_app_comm.
  - rewrite <- app_assoc. apply Permutation_app_head. apply IH. lia.
Qed.

Lemma append_at_split cl k v : k < length cl ->
  exists l1 g l2, cl = l1 ++ g :: l2 /\ length l1 = k /\ append_at cl k v = l1 ++ (g ++ [v]) :: l2.
Proof.
  revert k; induction cl as [|c t IH]; intros [|k] H; simpl in *; try lia.
  - exists [], c, t. auto.
  - destruct (IH k) as (l1 & g & l2 & E & El & Ea); [lia|]. exists (c :: l1), g, l2.
    rewrite E at 1. simpl. rewrite El, Ea. auto.
Qed.

Lemma append_at_no_empty cl k v : no_empty cl -> no_empty (append_at cl k v).
Proof.
  unfold no_empty. intros H; revert k; induction H as [|c t Hc Ht IH]; intros [|k]; simpl; constructor; auto.
  destruct c; simpl; discriminate.
Qed.

Lemma seq_snoc n : seq 0 (S n) = seq 0 n ++ [n].
Proof. rewrite seq_S. reflexivity. Qed.

Lemma in_groups_lt n cl g v : partitions n cl -> In g cl -> In v g -> v < n.
Proof.
  intros H Hg Hv. assert (Hin : In v (concat cl)) by (apply in_concat; eauto).
  apply (Permutation_in _ H) in Hin. apply in_seq in Hin. lia.
Qed.

(** * Sync *)
Lemma Qabs_lt_iff a t : (Qabs a < t)%Q <-> (a < t /\ - t < a)%Q.
Proof.
  split.
  - intros H. pose proof (Qle_Qabs a). pose proof (Qle_Qabs (- a)). rewrite Qabs_opp in H1. split; lra.
  - intros [H1 H2]. apply Qabs_case; intros; lra.
Qed.

Lemma sync_close_spec period st tol i u :
  sync_close period st tol i u = true <-> sync_accepts period tol (phase st i) (phase st u).
Proof.
  unfold sync_close, sync_accepts, phase. cbv zeta. generalize (Qabs (nth i st 0%Q - period)%Q). intros z.
  rewrite orb_true_iff, !andb_true_iff, !Qltb_true, !Qabs_lt_iff.
  split; (intros [[H1 H2]|[H1 H2]]; [left|right]; split; lra).
Qed.

Section Sync.
Variable period tolerance : Q.
Variable state : list Q.
Let n := length state.
Let acc v u := sync_accepts period tolerance (phase state v) (phase state u).

Lemma sync_member_ok i c : (forall x, In x c -> x < n) ->
  exists b, sync_member period state tolerance i c = Ok b /\
    (b = true <-> exists u, In u c /\ acc i u).
Proof.
  induction c as [|x t IH]; intros H; simpl.
  - exists false. split; auto. split; [discriminate|]. intros [u [[] _]].
  - assert (Hx : x < n) by (apply H; simpl; auto).
    apply Nat.ltb_lt in Hx. unfold n in Hx. rewrite Hx.
    destruct (sync_close period state tolerance i x) eqn:E.
    + exists true. split; auto. split; auto. intros _. exists x. split; [simpl; auto|].
      apply sync_close_spec; auto.
    + destruct IH as [b [Eb Hb]]; [intros; apply H; simpl; auto|]. exists b. split; auto.
      rewrite Hb. split; intros [u [Hu Ha]]; exists u; split; simpl; auto.
      destruct Hu as [<-|Hu]; auto. apply sync_close_spec in Ha. congruence.
Qed.

Lemma sync_group_ok i cl : (forall g x, In g cl -> In x g -> x < n) ->
  (exists k l1 g l2, sync_group period state tolerance i cl = Ok (Some k) /\
     cl = l1 ++ g :: l2 /\ length l1 = k /\ (exists u, In u g /\ acc i u) /\
     forall g' u, In g' l1 -> In u g' -> ~ acc i u) \/
  (sync_group period state tolerance i cl = Ok None /\ forall g' u, In g' cl -> In u g' -> ~ acc i u).
Proof.
  induction cl as [|c t IH]; intros H; simpl.
  - right. split; auto.
  - destruct (sync_member_ok i c) as [b [Eb Hb]]; [intros; eapply H; simpl; eauto|].
    rewrite Eb. simpl. destruct b.
    + left. exists 0, [], c, t. repeat split; auto. apply Hb; auto.
    + assert (Hc : forall u, In u c -> ~ acc i u).
      { intros u Hu Ha. assert (false = true) by (apply Hb; eauto). discriminate. }
      destruct IH as [(k & l1 & g & l2 & E & Ec & El & Hg & Hn)|[E Hn]]; [intros; eapply H; simpl; eauto| |].
      * left. rewrite E. simpl. exists (S k), (c :: l1), g, l2. rewrite Ec. simpl. rewrite El.
        repeat split; auto. intros g' u [<-|Hg'] Hu; eauto.
      * right. rewrite E. simpl. split; auto. intros g' u [<-|Hg'] Hu; eauto.
Qed.

Definition sync_inv (i : nat) (cl : list (list nat)) : Prop :=
  partitions i cl /\ no_empty cl /\ Forall (StronglySorted lt) cl /\ Forall (chained acc) cl /\ first_fit acc cl.

Lemma first_fit_join cl1 g cl2 i : first_fit acc (cl1 ++ g :: cl2) ->
  partitions i (cl1 ++ g :: cl2) -> (forall g' u, In g' cl1 -> In u g' -> ~ acc i u) ->
  first_fit acc (cl1 ++ (g ++ [i]) :: cl2).
Proof.
  intros Hf Hp Hn l1 g1 l2 g2 l3 u v E Hu Hv Huv.
  (* locate the two groups *)
  assert (Hlt : forall g' x, In g' (cl1 ++ g :: cl2) -> In x g' -> x < i)
    by (intros; eapply in_groups_lt; eauto).
  assert (Hcase : forall (A : list (list nat)) B C D (x y : list nat), A ++ x :: B = C ++ y :: D ->
    (exists m, C = A ++ x :: m /\ B = m ++ y :: D) \/ (A = C /\ x = y /\ B = D) \/
    (exists m, A = C ++ y :: m /\ D = m ++ x :: B)).
  { clear. induction A as [|a A IH]; intros B C D x y H; destruct C as [|c C]; simpl in *;
      injection H as H1 H2; subst.
    - right; left; auto.
    - left. exists C. auto.
    - right; right. exists A. auto.
    - destruct (IH _ _ _ _ _ H2) as [[m [E1 E2]]|[[E1 [E2 E3]]|[m [E1 E2]]]]; subst.
      + left. exists m; auto.
      + right; left; auto.
      + right; right. exists m; auto. }
  destruct (Hcase _ _ _ _ _ _ E) as [[m [E1 E2]]|[[E1 [E2 E3]]|[m [E1 E2]]]].
  - (* changed group before g1 *)
    subst l1 cl2. eapply (Hf (cl1 ++ g :: m) g1 l2 g2 l3); eauto. now rewrite <- app_assoc.
  - subst l1 g1 cl2. apply in_app_iff in Hu as [Hu|[<-|[]]].
    + eapply (Hf cl1 g l2 g2 l3); eauto.
    + exfalso. assert (v < i); [|lia]. apply (Hlt g2); auto. rewrite in_app_iff; simpl; rewrite in_app_iff; simpl; auto.
  - subst cl1. destruct (Hcase _ _ _ _ _ _ E2) as [[m' [E1 E3]]|[[E1 [E3 E4]]|[m' [E1 E3]]]].
    + subst m l3. eapply (Hf l1 g1 l2 g2 (m' ++ g :: cl2)); eauto. rewrite <- !app_assoc. simpl. now rewrite <- !app_assoc.
    + subst l2 g2 l3. apply in_app_iff in Hv as [Hv|[<-|[]]].
      * eapply (Hf l1 g1 m g cl2); eauto. now rewrite <- app_assoc.
      * apply (Hn g1); auto. rewrite in_app_iff; simpl; auto.
    + subst l2 cl2. eapply (Hf l1 g1 (m ++ g :: m') g2 l3); eauto. rewrite <- !app_assoc. simpl. auto.
Qed.

Lemma sync_step_ok i cl : i < n -> sync_inv i cl ->
  exists cl', sync_step period state tolerance None cl i = Ok cl' /\ sync_inv (S i) cl'.
Proof.
  intros Hi (Hp & Hne & Hs & Hch & Hff).
  assert (Hlt : forall g x, In g cl -> In x g -> x < i) by (intros; eapply in_groups_lt; eauto).
  unfold sync_step.
  destruct (sync_group_ok i cl (fun g x Hg Hx => Nat.lt_trans _ _ _ (Hlt g x Hg Hx) Hi))
    as [(k & l1 & g & l2 & E & Ec & El & (u & Hu & Ha) & Hn)|[E Hn]].
  - rewrite E. simpl. assert (Hk : k < length cl) by (rewrite Ec, app_length; simpl; lia).
    eexists; split; [reflexivity|].
    assert (Ea : append_at cl k i = l1 ++ (g ++ [i]) :: l2).
    { destruct (append_at_split cl k i Hk) as (m1 & g' & m2 & E1 & E2 & E3). rewrite E3.
      rewrite Ec in E1. assert (l1 = m1 /\ g = g' /\ l2 = m2) as (-> & -> & ->); auto.
      clear - E1 E2 El. revert m1 k E1 E2 El. induction l1 as [|a l1 IH]; intros [|b m1] k E1 E2 El; simpl in *; try lia;
        injection E1 as Ea Eb; subst; auto.
      destruct (IH m1 (length l1)) as (-> & -> & ->); auto; lia. }
    split; [|split; [|split; [|split]]].
    + unfold partitions. rewrite append_at_perm by auto. rewrite seq_snoc. apply Permutation_app_tail. exact Hp.
    + apply append_at_no_empty; auto.
    + rewrite Ea. rewrite Ec in Hs. apply Forall_app in Hs as [H1 H2]. inversion H2; subst.
      apply Forall_app. split; auto. constructor; auto. apply sorted_snoc; auto. intros y Hy. apply (Hlt g); auto.
      rewrite in_app_iff; simpl; auto.
    + rewrite Ea. rewrite Ec in Hch. apply Forall_app in Hch as [H1 H2]. inversion H2; subst.
      apply Forall_app. split; auto. constructor; auto. intros pre v post Eg Hpre.
      apply snoc_inv in Eg as [(-> & -> & <-)|[post' [-> ->]]]; [eauto|]. eapply H3; eauto.
    + rewrite Ea. rewrite Ec in Hff, Hp. eapply first_fit_join; eauto.
  - rewrite E. simpl. eexists; split; [reflexivity|]. split; [|split; [|split; [|split]]].
    + unfold partitions. rewrite concat_app, seq_snoc. cbn [concat app]. apply Permutation_app_tail. exact Hp.
    + apply Forall_app. split; auto. constructor; auto. discriminate.
    + apply Forall_app. split; auto. constructor; auto. repeat constructor.
    + apply Forall_app. split; auto. constructor; auto. intros [|a pre] v post Eg Hpre; [congruence|].
      destruct pre; discriminate.
    + intros l1 g1 l2 g2 l3 u v Eg Hu Hv Huv.
      rewrite app_comm_cons, app_assoc in Eg.
      change (cl ++ [[i]] = ((l1 ++ g1 :: l2) ++ g2 :: l3)) in Eg.
      apply snoc_inv in Eg as [(E3 & E4 & E5)|[post' [E4 E5]]].
      * subst g2. destruct Hv as [<-|[]]. apply (Hn g1); auto. rewrite E4. rewrite in_app_iff; simpl; auto.
      * eapply (Hff l1 g1 l2 g2 post'); eauto. rewrite E5. rewrite <- app_assoc. reflexivity.
Qed.

Lemma sync_loop_ok k : forall i cl, i + k = n -> sync_inv i cl ->
  exists cl', sync_loop period state tolerance None cl (seq i k) = Ok cl' /\ sync_inv n cl'.
Proof.
  induction k as [|k IH]; intros i cl Hik Hinv; simpl.
  - exists cl. split; auto. replace n with i by lia. auto.
  - destruct (sync_step_ok i cl) as [cl' [E H]]; [lia|auto|]. rewrite E. simpl. apply IH; auto. lia.
Qed.

Lemma sync_inv_one : sync_inv 1 [[0]].
Proof.
  split; [|split; [|split; [|split]]].
  - unfold partitions. simpl. auto.
  - repeat constructor. discriminate.
  - repeat constructor.
  - constructor; auto. intros [|a pre] v post E H; [congruence|]. destruct pre; discriminate.
  - intros l1 g1 l2 g2 l3 u v E. destruct l1 as [|a l1]; simpl in E; injection E as E1 E2.
    + destruct l2; discriminate.
    + destruct l1; discriminate.
Qed.
End Sync.

Theorem sync_ensembles_spec period tolerance dynamic it state n :
  nth_error dynamic (match it with None => length dynamic - 1 | Some k => k end) = Some state ->
  (forall st, In st dynamic -> length st = S n) ->
  exists cl, sync_ensembles period dynamic tolerance None it = Ok cl /\
    sync_inv period tolerance state (S n) cl.
Proof.
  intros Hs Hl. unfold sync_ensembles. destruct dynamic as [|first t].
  - destruct (match it with None => _ | Some k => k end); discriminate.
  - rewrite (Hl first) by (simpl; auto).
    assert (Hlt : match it with None => length (first :: t) - 1 | Some k => k end < length (first :: t)).
    { apply nth_error_Some. rewrite Hs. discriminate. }
    apply Nat.ltb_lt in Hlt. rewrite Hlt.
    rewrite (nth_error_nth _ _ [] Hs).
    assert (Hst : length state = S n) by (apply Hl; eapply nth_error_In; eauto).
    destruct (sync_loop_ok period tolerance state (S n - 1) 1 [[0]]) as [cl [E H]].
    + lia.
    + apply sync_inv_one.
    + exists cl. rewrite Hst in H. auto.
Qed.

(** phases that are near on the circle are accepted *)
Lemma circle_near_accepts period tol x y : (0 <= x <= period)%Q -> (0 <= y <= period)%Q ->
  (circle_dist period x y < tol)%Q -> sync_accepts period tol x y.
Proof.
  unfold circle_dist, sync_accepts. intros [Hx1 Hx2] [Hy1 Hy2].
  destruct (Qle_bool (Qabs (x - y)) (period - Qabs (x - y))) eqn:E; intros H; [left; auto|].
  right. apply Qle_bool_false in E. revert H E. apply (Qabs_case (x - y)); intros Hxy H E;
    rewrite Qabs_lt_iff; (rewrite (Qabs_neg (x - period)) by lra); split; lra.
Qed.

Lemma sync_two period tol x y : sync_close period [x; y] tol 1 0 = true ->
  sync_ensembles period [[x; y]] tol None None = Ok [[0; 1]].
Proof.
  intros H. unfold sync_ensembles. cbn -[sync_close]. unfold sync_step, sync_group, sync_member.
  cbn -[sync_close]. rewrite H. reflexivity.
Qed.

(** * Phase matrix *)
Lemma phase_matrix_spec dynamic w h it state :
  nth_error dynamic (match it with None => length dynamic - 1 | Some k => k end) = Some state ->
  (length state = w * h ->
   exists m, phase_matrix dynamic w h it = Ok m /\ length m = h /\ Forall (fun r => length r = w) m /\ concat m = state) /\
  (length state <> w * h -> phase_matrix dynamic w h it = Raise NameError).
Proof.
  intros Hs. unfold phase_matrix. destruct dynamic as [|f t].
  { destruct (match it with None => _ | Some k => k end); discriminate. }
  assert (Hlt : match it with None => length (f :: t) - 1 | Some k => k end < length (f :: t)).
  { apply nth_error_Some. rewrite Hs. discriminate. }
  apply Nat.ltb_lt in Hlt. rewrite Hlt. rewrite (nth_error_nth _ _ [] Hs). split; intros Hl.
  - rewrite Hl, Nat.eqb_refl. eexists; split; [reflexivity|]. split; [now rewrite map_length, seq_length|]. split.
    + apply Forall_forall. intros r Hr. apply in_map_iff in Hr as [i [<- _]]. now rewrite map_length, seq_length.
    + clear - Hl. revert state Hl. induction h as [|h IH]; intros state Hl.
      * rewrite Nat.mul_0_r in Hl. destruct state; [reflexivity|discriminate].
      * rewrite seq_S, map_app, concat_app. simpl.
        rewrite app_nil_r.
        transitivity (firstn (w * h) state ++ skipn (w * h) state); [|now rewrite !firstn_skipn].
        f_equal.
        -- rewrite <- (IH (firstn (w * h) state)) by (rewrite firstn_length; lia).
           f_equal. apply map_ext_in. intros i Hi. apply map_ext_in. intros j Hj.
           apply in_seq in Hi, Hj. assert (j + i * w < w * h) by nia.
           rewrite <- (firstn_skipn (w * h) state) at 1. apply app_nth1. rewrite firstn_length. lia.
        -- apply nth_ext with (d := 0%Q) (d' := 0%Q).
           ++ rewrite map_length, seq_length, skipn_length. lia.
           ++ intros k Hk. rewrite map_length, seq_length in Hk.
              rewrite (nth_indep _ 0%Q (nth (0 + h * w) state 0%Q)) by (rewrite map_length, seq_length; auto).
              rewrite (map_nth (fun j => nth (j + h * w) state 0%Q)), seq_nth by auto. simpl.
              rewrite <- (firstn_skipn (w * h) state) at 1.
              rewrite app_nth2; rewrite firstn_length; [|nia]. f_equal. nia.
  - apply Nat.eqb_neq in Hl. rewrite Hl. reflexivity.
Qed.

(** * Hysteresis *)
Lemma hyst_close_spec st tol neuron i :
  hyst_close st tol neuron i = true <-> (Qabs (phase st i - phase st neuron) < tol)%Q.
Proof.
  unfold hyst_close, phase. rewrite andb_true_iff, !Qltb_true, Qabs_lt_iff. split; intros [? ?]; split; lra.
Qed.

Lemma hyst_follow_spec dynamic tol steps neuron i :
  hyst_follow dynamic tol steps neuron i = true <-> follows dynamic tol steps neuron i.
Proof.
  unfold hyst_follow, follows. rewrite forallb_forall.
  set (L := length dynamic). set (m := Nat.min steps L). assert (Hm : m <= L) by (unfold m; lia).
  split.
  - intros H k Hk. apply hyst_close_spec. apply H.
    replace (nth (L - 1 - k) dynamic []) with (nth (m - 1 - k) (skipn (L - m) dynamic) []).
    + apply nth_In. rewrite skipn_length. fold L. lia.
    + rewrite <- (firstn_skipn (L - m) dynamic) at 2. rewrite app_nth2; rewrite firstn_length; fold L; [f_equal|]; lia.
  - intros H st Hst. apply (In_nth _ _ []) in Hst as [k [Hk <-]]. rewrite skipn_length in Hk. fold L in Hk.
    apply hyst_close_spec. specialize (H (m - 1 - k) ltac:(lia)). simpl in H.
    replace (nth k (skipn (L - m) dynamic) []) with (nth (L - 1 - (m - 1 - k)) dynamic []); auto.
    rewrite <- (firstn_skipn (L - m) dynamic) at 1. rewrite app_nth2; rewrite firstn_length; fold L; [f_equal|]; lia.
Qed.

(** after a failure the flag stays False *)
Lemma hyst_capture_false dynamic tol steps i cl :
  hyst_capture dynamic tol steps i cl false = (cl, false).
Proof.
  induction cl as [|c t IH]; simpl; auto.
  destruct (hyst_follow dynamic tol steps (hd 0 c) i); rewrite IH; reflexivity.
Qed.

Lemma hyst_loop dynamic tol steps l : forall g singles,
  fold_left (hyst_step dynamic tol steps) l ((0 :: g) :: singles) =
  ((0 :: g) ++ filter (hyst_follow dynamic tol steps 0) l)
    :: singles ++ map (fun i => [i]) (filter (fun i => negb (hyst_follow dynamic tol steps 0 i)) l).
Proof.
  induction l as [|i l IH]; intros g singles.
  - simpl. now rewrite !app_nil_r.
  - cbn [fold_left]. unfold hyst_step at 2. cbn [hyst_capture hd].
    cbn [filter]. destruct (hyst_follow dynamic tol steps 0 i) eqn:E.
    + cbn [negb]. change ((0 :: g) ++ [i]) with (0 :: (g ++ [i])). rewrite IH. cbn [app]. now rewrite <- app_assoc.
    + rewrite hyst_capture_false. cbn [negb map]. change (((0 :: g) :: singles) ++ [[i]]) with ((0 :: g) :: (singles ++ [[i]])).
      rewrite IH. now rewrite <- app_assoc.
Qed.

Theorem hyst_ensembles_spec dynamic tol steps n :
  dynamic <> [] -> length (hd [] dynamic) = S n ->
  exists g singles, hyst_ensembles dynamic tol steps = Ok ((0 :: g) :: map (fun i => [i]) singles) /\
    (forall i, In i g <-> 1 <= i <= n /\ follows dynamic tol steps 0 i) /\
    (forall i, In i singles <-> 1 <= i <= n /\ ~ follows dynamic tol steps 0 i) /\
    partitions (S n) ((0 :: g) :: map (fun i => [i]) singles).
Proof.
  intros Hne Hn. destruct dynamic as [|first t] eqn:Ed; [congruence|]. rewrite <- Ed in *.
  exists (filter (hyst_follow dynamic tol steps 0) (seq 1 n)),
         (filter (fun i => negb (hyst_follow dynamic tol steps 0 i)) (seq 1 n)).
  split; [|split; [|split]].
  - unfold hyst_ensembles. rewrite Ed. f_equal. rewrite <- Ed. rewrite Ed in Hn. simpl in Hn. rewrite Hn.
    replace (S n - 1) with n by lia. rewrite hyst_loop. reflexivity.
  - intros i. rewrite filter_In, in_seq, hyst_follow_spec. intuition lia.
  - intros i. rewrite filter_In, in_seq, negb_true_iff. rewrite <- hyst_follow_spec.
    destruct (hyst_follow dynamic tol steps 0 i); intuition (try lia; try congruence).
  - unfold partitions. simpl. constructor.
    assert (Hc : forall l : list nat, concat (map (fun i => [i]) l) = l).
    { induction l as [|a l IH]; simpl; congruence. }
    rewrite Hc. generalize (seq 1 n). intros l. induction l as [|a l IH]; simpl; auto.
    destruct (hyst_follow dynamic tol steps 0 a); simpl; [constructor; auto|].
    rewrite <- Permutation_middle. constructor; auto.
Qed.

(** * PCNN *)
Lemma pcnn_new_in st n tr i : In i (pcnn_new st n tr) <-> i < n /\ nth i st 0 = 1 /\ ~ In i tr.
Proof.
  unfold pcnn_new. rewrite filter_In, in_seq, andb_true_iff, Nat.eqb_eq, negb_true_iff.
  assert (existsb (Nat.eqb i) tr = false <-> ~ In i tr).
  { destruct (existsb (Nat.eqb i) tr) eqn:E.
    - apply existsb_exists in E as [x [Hx Ex]]. apply Nat.eqb_eq in Ex. subst. intuition congruence.
    - split; auto. intros _ Hc. assert (existsb (Nat.eqb i) tr = true); [|congruence].
      apply existsb_exists. exists i. split; auto. apply Nat.eqb_refl. }
  intuition lia.
Qed.

Lemma pcnn_new_sorted st n tr : StronglySorted lt (pcnn_new st n tr).
Proof. apply filter_sorted, seq_sorted. Qed.

(** The ensembles of a list of states, latest first, written without the accumulator. *)
Definition ensemble_at (states : list (list nat)) (n k : nat) (tr : list nat) : list nat :=
  filter (fun i => (nth i (nth k states []) 0 =? 1) && negb (existsb (Nat.eqb i) tr) &&
                   forallb (fun st => negb (nth i st 0 =? 1)) (firstn k states)) (seq 0 n).

Lemma existsb_app_or {A} (f : A -> bool) l l' : existsb f (l ++ l') = existsb f l || existsb f l'.
Proof. apply existsb_app. Qed.

Lemma existsb_pcnn_new st n tr i : i < n ->
  existsb (Nat.eqb i) (pcnn_new st n tr) = (nth i st 0 =? 1) && negb (existsb (Nat.eqb i) tr).
Proof.
  intros Hi. apply eq_true_iff_eq. rewrite existsb_exists.
  unfold pcnn_new. split.
  - intros [x [Hx E]]. apply Nat.eqb_eq in E. subst x. apply filter_In in Hx as [_ Hx]. auto.
  - intros H. exists i. split; [|apply Nat.eqb_refl]. apply filter_In. split; auto. apply in_seq. lia.
Qed.

Lemma pcnn_sync_loop_spec states n : forall tr ens,
  pcnn_sync_loop states n tr ens =
  ens ++ filter (fun e => match e with [] => false | _ => true end)
           (map (fun k => ensemble_at states n k tr) (seq 0 (length states))).
Proof.
  induction states as [|st t IH]; intros tr ens; simpl; [now rewrite app_nil_r|].
  assert (E0 : ensemble_at (st :: t) n 0 tr = pcnn_new st n tr).
  { unfold ensemble_at, pcnn_new. apply filter_ext. intros i. simpl. now rewrite andb_true_r. }
  assert (ES : forall k, ensemble_at (st :: t) n (S k) tr = ensemble_at t n k (tr ++ pcnn_new st n tr)).
  { intros k. unfold ensemble_at. apply filter_ext_in. intros i Hi. apply in_seq in Hi.
    rewrite existsb_app_or, existsb_pcnn_new by lia. simpl.
    destruct (nth i (nth k t []) 0 =? 1), (nth i st 0 =? 1), (existsb (Nat.eqb i) tr); simpl; auto. }
  rewrite E0, IH. rewrite <- seq_shift, map_map.
  rewrite (map_ext _ _ ES). destruct (pcnn_new st n tr) as [|a l] eqn:En; simpl; auto.
  now rewrite <- app_assoc.
Qed.

Lemma ensemble_at_in dynamic first t n i k : dynamic = first :: t -> k < length t ->
  (In i (ensemble_at (rev t) n k []) <-> i < n /\ last_fire dynamic i (length t - k)).
Proof.
  intros -> Hk. unfold ensemble_at. rewrite filter_In, in_seq, !andb_true_iff, Nat.eqb_eq. simpl.
  assert (Hr : forall j, j < length t -> nth j (rev t) [] = nth (length t - j) (first :: t) []).
  { intros j Hj. rewrite rev_nth by auto. replace (length t - j) with (S (length t - S j)) by lia. reflexivity. }
  rewrite Hr by auto. unfold last_fire, fires. simpl length.
  rewrite forallb_forall. split.
  - intros (H1 & (H2 & _) & H3). split; [lia|]. split; [lia|]. split; auto. intros t' Ht' Hf.
    specialize (H3 (nth (length t - t') (rev t) [])).
    assert (Hin : In (nth (length t - t') (rev t) []) (firstn k (rev t))).
    { rewrite <- (firstn_skipn k (rev t)) at 1. rewrite app_nth1.
      - apply nth_In. rewrite firstn_length, rev_length. lia.
      - rewrite firstn_length, rev_length. lia. }
    specialize (H3 Hin). rewrite Hr in H3 by lia. replace (length t - (length t - t')) with t' in H3 by lia.
    rewrite Hf in H3. discriminate.
  - intros (H1 & H2 & H3 & H4). repeat split; auto; try lia. intros st Hst.
    apply (In_nth _ _ []) in Hst as [j [Hj <-]]. rewrite firstn_length, rev_length in Hj.
    rewrite negb_true_iff. apply Nat.eqb_neq. intro Hc. apply (H4 (length t - j)); [lia|].
    rewrite <- Hr by lia. rewrite <- (firstn_skipn k (rev t)). rewrite app_nth1; auto.
    rewrite firstn_length, rev_length. lia.
Qed.

Lemma last_fire_inj dynamic i t t' : last_fire dynamic i t -> last_fire dynamic i t' -> t = t'.
Proof.
  intros (H1 & H2 & H3) (H1' & H2' & H3'). destruct (Nat.lt_trichotomy t t') as [H|[H|H]]; auto; exfalso.
  - apply (H3 t'); auto. lia.
  - apply (H3' t); auto. lia.
Qed.

Lemma last_fire_exists dynamic i : (exists t, 1 <= t < length dynamic /\ fires dynamic t i) ->
  exists t, last_fire dynamic i t.
Proof.
  intros [t [Ht Hf]]. remember (length dynamic - t) as m. revert t Ht Hf Heqm.
  induction m as [m IH] using lt_wf_ind. intros t Ht Hf Hm.
  assert (Hd : (exists t', t < t' < length dynamic /\ fires dynamic t' i) \/
               (forall t', t < t' < length dynamic -> ~ fires dynamic t' i)).
  { clear IH Hm. unfold fires. 
    assert (H : forall k, (exists t', t < t' < t + S k /\ nth i (nth t' dynamic []) 0 = 1) \/
      (forall t', t < t' < t + S k -> nth i (nth t' dynamic []) 0 <> 1)).
    { induction k as [|k [[t' [Hk Hk']]|Hk]].
      - right. intros. lia.
      - left. exists t'. split; auto. lia.
      - destruct (Nat.eq_dec (nth i (nth (t + S k) dynamic []) 0) 1) as [E|E].
        + left. exists (t + S k). split; auto. lia.
        + right. intros t' Ht'. destruct (Nat.eq_dec t' (t + S k)) as [->|]; auto. apply Hk. lia. }
    destruct (H (length dynamic - t - 1)) as [[t' [H1 H2]]|H1].
    - left. exists t'. split; auto. lia.
    - right. intros t' Ht'. apply H1. lia. }
  destruct Hd as [[t' [H1 H2]]|H1].
  - apply (IH (length dynamic - t')) with (t := t'); auto; lia.
  - exists t. split; auto.
Qed.

Lemma concat_filter_nonempty {A} (l : list (list A)) :
  concat (filter (fun e => match e with [] => false | _ => true end) l) = concat l.
Proof. induction l as [|[|a e] l IH]; simpl; congruence. Qed.

Lemma NoDup_concat_map {A} (f : A -> list nat) l : NoDup l -> (forall a, In a l -> NoDup (f a)) ->
  (forall a b x, In a l -> In b l -> In x (f a) -> In x (f b) -> a = b) -> NoDup (concat (map f l)).
Proof.
  induction 1 as [|a l Ha Hl IH]; intros Hn Hi; simpl; [constructor|].
  apply NoDup_app_intro.
  - apply Hn; simpl; auto.
  - apply IH; [intros; apply Hn; simpl; auto|]. intros b c x Hb Hc. apply Hi; simpl; auto.
  - intros x Hx Hc. apply in_concat in Hc as [e [He Hxe]]. apply in_map_iff in He as [b [<- Hb]].
    assert (a = b) by (apply (Hi a b x); simpl; auto). subst. contradiction.
Qed.

Theorem pcnn_sync_spec dynamic : dynamic <> [] ->
  exists es, pcnn_sync_ensembles dynamic = Ok es /\ no_empty es /\ NoDup (concat es) /\
    (forall i, In i (concat es) <->
       i < length (hd [] dynamic) /\ exists t, 1 <= t < length dynamic /\ fires dynamic t i) /\
    (forall e i j, In e es -> In i e ->
       (In j e <-> j < length (hd [] dynamic) /\ exists t, last_fire dynamic i t /\ last_fire dynamic j t)).
Proof.
  intros Hne. destruct dynamic as [|first t] eqn:Ed; [congruence|]. rewrite <- Ed in *.
  set (n := length first).
  set (ks := seq 0 (length t)).
  exists (filter (fun e => match e with [] => false | _ => true end) (map (fun k => ensemble_at (rev t) n k []) ks)).
  assert (Hh : length (hd [] dynamic) = n) by (rewrite Ed; reflexivity). rewrite Hh.
  assert (Hin : forall i k, In k ks -> (In i (ensemble_at (rev t) n k []) <-> i < n /\ last_fire dynamic i (length t - k))).
  { intros i k Hk. apply in_seq in Hk. apply (ensemble_at_in dynamic first); auto. lia. }
  assert (Hks : forall k k' i, In k ks -> In k' ks ->
     last_fire dynamic i (length t - k) -> last_fire dynamic i (length t - k') -> k = k').
  { intros k k' i Hk Hk' H H'. apply in_seq in Hk, Hk'. pose proof (last_fire_inj _ _ _ _ H H'). lia. }
  split; [|split; [|split; [|split]]].
  - rewrite Ed. unfold pcnn_sync_ensembles. f_equal. rewrite pcnn_sync_loop_spec, rev_length. reflexivity.
  - apply Forall_forall. intros e He. apply filter_In in He as [_ He]. destruct e; [discriminate|congruence].
  - rewrite concat_filter_nonempty. apply NoDup_concat_map.
    + apply seq_NoDup.
    + intros k Hk. apply sorted_nodup. apply filter_sorted, seq_sorted.
    + intros k k' i Hk Hk' Hi Hi'. apply Hin in Hi as [_ Hi]; auto. apply Hin in Hi' as [_ Hi']; auto. eapply Hks; eauto.
  - intros i. rewrite concat_filter_nonempty. rewrite in_concat. split.
    + intros [e [He Hi]]. apply in_map_iff in He as [k [<- Hk]]. apply Hin in Hi as [H1 (H2 & H3 & _)]; auto.
      split; auto. exists (length t - k). auto.
    + intros [H1 H2]. apply last_fire_exists in H2 as [s Hs].
      exists (ensemble_at (rev t) n (length t - s) []).
      assert (Hsr : 1 <= s < length dynamic) by (destruct Hs; auto). rewrite Ed in Hsr. simpl in Hsr.
      assert (Hk : In (length t - s) ks) by (apply in_seq; lia).
      split; [apply in_map_iff; eauto|]. apply Hin; auto. split; auto. replace (length t - (length t - s)) with s by lia. auto.
  - intros e i j He Hi. apply filter_In in He as [He _]. apply in_map_iff in He as [k [<- Hk]].
    rewrite Hin by auto. apply Hin in Hi as [_ Hi]; auto. split.
    + intros [Hj Hj']. split; auto. eauto.
    + intros [Hj [s [Hs Hs']]]. split; auto. rewrite (last_fire_inj _ _ _ _ Hi Hs). auto.
Qed.

(** spike ensembles *)
Theorem pcnn_spike_spec dynamic : dynamic <> [] ->
  exists es, pcnn_spike_ensembles dynamic = Ok es /\
    no_empty es /\ Forall (StronglySorted lt) es /\
    exists ts, StronglySorted lt ts /\ length ts = length es /\
      (forall t, In t ts <-> t < length dynamic /\ exists i, i < length (hd [] dynamic) /\ fires dynamic t i) /\
      (forall k, k < length es -> forall i, In i (nth k es []) <-> i < length (hd [] dynamic) /\ fires dynamic (nth k ts 0) i).
Proof.
  intros Hne. destruct dynamic as [|first tl] eqn:Ed; [congruence|]. rewrite <- Ed in *.
  assert (Hh : hd [] dynamic = first) by (rewrite Ed; reflexivity). rewrite Hh. set (n := length first).
  set (f := fun st => filter (fun i => nth i st 0 =? 1) (seq 0 n)).
  set (g := fun e : list nat => match e with [] => false | _ => true end).
  exists (filter g (map f dynamic)). split; [|split; [|split]].
  - unfold pcnn_spike_ensembles. rewrite Ed. reflexivity.
  - apply Forall_forall. intros e He. apply filter_In in He as [_ He]. destruct e; [discriminate|congruence].
  - apply Forall_forall. intros e He. apply filter_In in He as [He _]. apply in_map_iff in He as [st [<- _]].
    apply filter_sorted, seq_sorted.
  - exists (filter (fun t => g (f (nth t dynamic []))) (seq 0 (length dynamic))).
    assert (Em : filter g (map f dynamic) =
                 map (fun t => f (nth t dynamic [])) (filter (fun t => g (f (nth t dynamic []))) (seq 0 (length dynamic)))).
    { clear. 
      assert (H : forall (d : list (list nat)) pre, filter g (map f d) =
         map (fun t => f (nth t (pre ++ d) [])) (filter (fun t => g (f (nth t (pre ++ d) []))) (seq (length pre) (length d)))).
      { induction d as [|st d IH]; intros pre; simpl; auto.
        rewrite app_nth2 by lia. rewrite Nat.sub_diag. cbn [nth].
        specialize (IH (pre ++ [st])). rewrite <- app_assoc in IH. simpl in IH.
        rewrite app_length in IH. simpl in IH. rewrite Nat.add_1_r in IH. rewrite IH.
        destruct (g (f st)); simpl; auto. rewrite app_nth2 by lia. rewrite Nat.sub_diag. reflexivity. }
      apply (H dynamic []). }
    split; [apply filter_sorted, seq_sorted|]. split; [|split].
    + rewrite Em, map_length. reflexivity.
    + intros t. rewrite filter_In, in_seq.
      assert (g (f (nth t dynamic [])) = true <-> exists i, i < n /\ fires dynamic t i).
      { unfold fires. split.
        - destruct (f (nth t dynamic [])) as [|a l] eqn:E; [discriminate|]. intros _. exists a.
          assert (Ha : In a (f (nth t dynamic []))) by (rewrite E; simpl; auto).
          unfold f in Ha. apply filter_In in Ha as [H1 H2]. apply in_seq in H1. apply Nat.eqb_eq in H2. split; auto; lia.
        - intros [i [Hi Hf]]. assert (Ha : In i (f (nth t dynamic []))).
          { unfold f. apply filter_In. split; [apply in_seq; lia|]. apply Nat.eqb_eq; auto. }
          destruct (f (nth t dynamic [])); [contradiction|reflexivity]. }
      intuition lia.
    + intros k Hk i. rewrite Em in Hk |- *. rewrite map_length in Hk.
      set (ts := filter (fun t => g (f (nth t dynamic []))) (seq 0 (length dynamic))) in *.
      rewrite (nth_indep _ [] (f (nth 0 dynamic []))) by (rewrite map_length; auto).
      rewrite (map_nth (fun t => f (nth t dynamic []))). unfold f, fires. rewrite filter_In, in_seq, Nat.eqb_eq.
      intuition lia.
Qed.

Lemma fold_add_acc l : forall a, fold_left Nat.add l a = a + fold_left Nat.add l 0.
Proof.
  induction l as [|x l IH]; intros a; simpl; [lia|]. rewrite (IH (a + x)), (IH x). lia.
Qed.

Theorem pcnn_time_signal_spec dynamic :
  Forall (Forall (fun v => v = 0 \/ v = 1)) dynamic ->
  length (pcnn_time_signal dynamic) = length dynamic /\
  forall t, t < length dynamic -> nth t (pcnn_time_signal dynamic) 0 = count_occ Nat.eq_dec (nth t dynamic []) 1.
Proof.
  intros H. unfold pcnn_time_signal. rewrite map_length. split; auto. intros t Ht.
  rewrite (nth_indep _ 0 (fold_left Nat.add (@nil nat) 0)) by (rewrite map_length; auto).
  rewrite (map_nth (fun st => fold_left Nat.add st 0)).
  rewrite Forall_forall in H. specialize (H _ (nth_In _ [] Ht)).
  induction H as [|x l [->| ->] Hl IH]; simpl; auto. rewrite fold_add_acc, IH. reflexivity.
Qed.

(** * Number of oscillations *)
(** in a run that starts low, waiting is exactly high *)
Lemma osc_fold_synced threshold l : forall number prev,
  fst (fst (fold_left (osc_step threshold) l (number, Qle_bool threshold prev, Qle_bool threshold prev))) =
  number + falls threshold prev l.
Proof.
  induction l as [|v l IH]; intros number prev; cbn [fold_left falls]; [simpl; lia|].
  unfold osc_step at 2.
  destruct (Qle_bool threshold prev) eqn:Ep; cbn [negb andb orb].
  - rewrite andb_false_r, andb_true_r. cbn [orb]. unfold Qltb. destruct (Qle_bool threshold v) eqn:Ev; cbn [negb andb orb].
    + specialize (IH number v). rewrite Ev in IH. rewrite IH. lia.
    + specialize (IH (S number) v). rewrite Ev in IH. rewrite IH. lia.
  - rewrite andb_false_r, andb_true_r. rewrite orb_false_r. destruct (Qle_bool threshold v) eqn:Ev; cbn [negb andb orb].
    + specialize (IH number v). rewrite Ev in IH. rewrite IH. lia.
    + specialize (IH number v). rewrite Ev in IH. rewrite IH. lia.
Qed.

(** in a run that starts high, the first fall is not counted *)
Lemma osc_fold_high threshold l : forall prev, (threshold <= prev)%Q ->
  fst (fst (fold_left (osc_step threshold) l (0, false, true))) = pred (falls threshold prev l).
Proof.
  assert (Hw : forall l number prev,
    fst (fst (fold_left (osc_step threshold) l (number, true, Qle_bool threshold prev))) =
    number + falls threshold prev l).
  { clear. induction l as [|v l IH]; intros number prev; cbn [fold_left falls]; [simpl; lia|].
    unfold osc_step at 2.
    destruct (Qle_bool threshold prev) eqn:Ep; cbn [negb andb orb].
    - rewrite andb_false_r, andb_true_r. cbn [orb]. unfold Qltb. destruct (Qle_bool threshold v) eqn:Ev; cbn [negb andb orb].
      + specialize (IH number v). rewrite Ev in IH. rewrite IH. lia.
      + pose proof (osc_fold_synced threshold l (S number) v) as H. rewrite Ev in H. rewrite H. lia.
    - rewrite andb_false_r, andb_true_r. rewrite orb_false_r. destruct (Qle_bool threshold v) eqn:Ev; cbn [negb andb orb].
      + specialize (IH number v). rewrite Ev in IH. rewrite IH. lia.
      + specialize (IH number v). rewrite Ev in IH. rewrite IH. lia. }
  induction l as [|v l IH]; intros prev Hp; cbn [fold_left falls]; auto.
  unfold osc_step at 2. rewrite (proj2 (Qle_bool_iff _ _) Hp). cbn [negb andb orb].
  rewrite andb_false_r, andb_true_r. cbn [orb]. unfold Qltb.
  destruct (Qle_bool threshold v) eqn:Ev; cbn [negb andb orb].
  - rewrite IH with (prev := v); auto. apply Qle_bool_iff; auto.
  - specialize (Hw l 0 v). rewrite Ev in Hw. rewrite Hw. lia.
Qed.

Theorem oscillations_spec dyn index threshold v0 rest :
  (forall st, In st dyn -> index < length st) ->
  map (fun st => phase st index) dyn = v0 :: rest ->
  extract_number_oscillations dyn index threshold =
  Ok (if Qltb threshold v0 then pred (falls threshold v0 rest) else falls threshold v0 rest).
Proof.
  intros Hl Hm. unfold extract_number_oscillations. destruct dyn as [|first t]; [discriminate|].
  rewrite (proj2 (forallb_forall _ _)).
  2:{ intros st Hst. apply Nat.ltb_lt. apply Hl; auto. }
  unfold phase in Hm. rewrite Hm. simpl in Hm. injection Hm as H0 H1. rewrite H0. f_equal.
  cbn [fold_left]. unfold osc_step at 2. destruct (Qltb threshold v0) eqn:E.
  - pose proof (proj1 (Qltb_true _ _) E) as Hlt. cbn [negb andb orb].
    rewrite andb_false_r, andb_true_r. cbn [orb].
    assert (Ev : Qltb v0 threshold = false) by (apply Qltb_false; lra). rewrite Ev.
    apply osc_fold_high. lra.
  - apply Qltb_false in E. cbn [negb andb orb]. rewrite andb_true_r, andb_false_r, orb_false_r.
    destruct (Qle_bool threshold v0) eqn:Ev; cbn [negb andb orb].
    + pose proof (osc_fold_synced threshold rest 0 v0) as H. rewrite Ev in H. rewrite H. reflexivity.
    + pose proof (osc_fold_synced threshold rest 0 v0) as H. rewrite Ev in H. rewrite H. reflexivity.
Qed.

(** * Ensembles from pulses *)
Lemma osc_scan_none th col t : forall d0 active, (0 < d0 \/ active = false) ->
  (osc_scan th col active d0 t = (0, 0) <->
   d0 = 0 /\ active = false /\ forall s, 1 <= s <= t -> (nth s col 0%Q <= th)%Q).
Proof.
  induction t as [|t IH]; intros d0 active H; cbn [osc_scan].
  - destruct H as [H|H].
    + split; [intros E; injection E; lia|intros [? _]; lia].
    + split; [intros E; injection E as ->; repeat split; auto; lia|intros (-> & _ & _); auto].
  - destruct (Qltb th (nth (S t) col 0%Q)) eqn:E1; cbn [andb].
    + destruct active; cbn [negb andb].
      * assert (Hd : 0 < d0) by (destruct H; auto; discriminate).
        destruct (Qltb (nth (S t) col 0%Q) th); cbn [andb].
        -- split; [intros E; injection E; lia|lia].
        -- rewrite IH by auto. intuition lia.
      * rewrite IH by lia. split; [lia|]. intros (_ & _ & Hs). specialize (Hs (S t) ltac:(lia)).
        apply Qltb_true in E1. lra.
    + destruct (Qltb (nth (S t) col 0%Q) th) eqn:E2; cbn [andb].
      * destruct active; cbn [negb andb].
        -- split; [intros E; injection E; lia|intuition discriminate].
        -- rewrite IH by auto. apply Qltb_false in E1. split; intros (Ha & Hb & Hs); repeat split; auto; intros s Hs'.
           ++ destruct (Nat.eq_dec s (S t)) as [->|]; auto. apply Hs; lia.
           ++ apply Hs; lia.
      * rewrite IH by auto. apply Qltb_false in E1. split; intros (Ha & Hb & Hs); repeat split; auto; intros s Hs'.
        ++ destruct (Nat.eq_dec s (S t)) as [->|]; auto. apply Hs; lia.
        ++ apply Hs; lia.
Qed.

Lemma osc_stop_spec th col t : let s := osc_stop th col t in
  s <= t /\ (forall k, s < k <= t -> (th < nth k col 0)%Q) /\ (0 < s -> (nth s col 0 <= th)%Q).
Proof.
  induction t as [|t IH]; cbn [osc_stop]; [repeat split; try lia|].
  destruct (Qltb th (nth (S t) col 0%Q)) eqn:E.
  - destruct IH as (H1 & H2 & H3). apply Qltb_true in E. repeat split; auto; try lia.
    intros k Hk. destruct (Nat.eq_dec k (S t)) as [->|]; auto. apply H2; lia.
  - apply Qltb_false in E. repeat split; auto; lia.
Qed.

Lemma osc_descriptor_spec th col : 1 <= length col ->
  (osc_descriptor th col <> None <->
   exists t s, 1 <= t < s /\ s < length col /\ (th < nth t col 0)%Q /\ (nth s col 0 <= th)%Q).
Proof.
  intros Hl. unfold osc_descriptor. set (last := length col - 1).
  assert (Hnone : forall stop, (match osc_scan th col false 0 stop with (0, 0) => None | d => Some d end) <> None
    <-> exists t, 1 <= t <= stop /\ (th < nth t col 0)%Q).
  { intros stop. pose proof (osc_scan_none th col stop 0 false (or_intror eq_refl)) as Hn.
    assert (Hd : (forall s, 1 <= s <= stop -> (nth s col 0 <= th)%Q) \/ exists t, 1 <= t <= stop /\ (th < nth t col 0)%Q).
    { clear. induction stop as [|k [IH|[t [H1 H2]]]].
      - left. intros; lia.
      - destruct (Qlt_le_dec th (nth (S k) col 0%Q)) as [H|H].
        + right. exists (S k). split; auto. lia.
        + left. intros s Hs. destruct (Nat.eq_dec s (S k)) as [->|]; auto. apply IH; lia.
      - right. exists t. split; auto. lia. }
    destruct (osc_scan th col false 0 stop) as [a b] eqn:Es.
    destruct Hd as [Hd|Hd].
    - assert (E : (a, b) = (0, 0)) by (apply Hn; auto). injection E as -> ->. split; [congruence|].
      intros [t [H1 H2]]. specialize (Hd t H1). exfalso; lra.
    - split; [auto|]. intros _. destruct a as [|a]; [destruct b as [|b]|]; try discriminate.
      destruct Hd as [t [H1 H2]]. destruct (proj1 Hn eq_refl) as (_ & _ & H3). specialize (H3 t H1). exfalso; lra. }
  destruct (Qltb th (nth last col 0%Q)) eqn:Ea; cbn [andb].
  - apply Qltb_true in Ea. destruct (osc_stop_spec th col last) as (H1 & H2 & H3).
    set (stop := osc_stop th col last) in *. destruct (Nat.eqb_spec stop 0) as [E0|E0].
    + split; [congruence|]. intros (t & s & Ht & Hs & Hv & Hv'). exfalso.
      specialize (H2 s ltac:(lia)). lra.
    + rewrite Hnone. specialize (H3 ltac:(lia)). split.
      * intros [t [Ht Hv]]. exists t, stop. assert (t <> stop) by (intros ->; lra).
        repeat split; auto; lia.
      * intros (t & s & Ht & Hs & Hv & Hv'). exists t. split; auto.
        destruct (Nat.le_gt_cases t stop); [lia|]. specialize (H2 s ltac:(lia)). exfalso; lra.
  - apply Qltb_false in Ea. rewrite Hnone. split.
    + intros [t [Ht Hv]]. exists t, last. assert (t <> last) by (intros ->; lra). repeat split; auto; lia.
    + intros (t & s & Ht & Hs & Hv & Hv'). exists t. split; auto. lia.
Qed.

Lemma osc_place_perm tol d i ens ens' : osc_place tol d i ens = Some ens' ->
  Permutation (concat (map snd ens')) (concat (map snd ens) ++ [i]) /\
  (no_empty (map snd ens) -> no_empty (map snd ens')).
Proof.
  revert ens'; induction ens as [|[f m] t IH]; intros ens' E; cbn [osc_place] in E; [discriminate|].
  destruct (_ && _).
  - injection E as <-. simpl. split.
    + rewrite <- !app_assoc. apply Permutation_app_head, Permutation_app_comm.
    + intros H; inversion H; subst. constructor; auto. destruct m; discriminate.
  - destruct (osc_place tol d i t) as [t'|] eqn:Et; [|discriminate]. injection E as <-.
    destruct (IH t' eq_refl) as [H1 H2]. simpl. split.
    + rewrite <- app_assoc. apply Permutation_app_head. auto.
    + intros H; inversion H; subst. constructor; auto. apply H2; auto.
Qed.

Definition is_some {A} (o : option A) : bool := match o with Some _ => true | None => false end.

Lemma osc_fold_perm tol xs : forall ens,
  let r := fold_left (osc_allocate tol) xs ens in
  Permutation (concat (map snd r)) (concat (map snd ens) ++ map fst (filter (fun x => is_some (snd x)) xs)) /\
  (no_empty (map snd ens) -> no_empty (map snd r)).
Proof.
  induction xs as [|[i o] xs IH]; intros ens; cbn [fold_left]; [simpl; rewrite app_nil_r; auto|].
  destruct (IH (osc_allocate tol ens (i, o))) as [H1 H2]. split.
  - etransitivity; [exact H1|]. unfold osc_allocate. cbn [snd fst]. simpl filter.
    destruct o as [d|]; simpl; auto.
    destruct (osc_place tol d i ens) as [e|] eqn:E.
    + apply osc_place_perm in E as [E _]. rewrite E, <- app_assoc. simpl. auto.
    + rewrite map_app, concat_app. simpl. rewrite <- app_assoc. auto.
  - intros H. apply H2. unfold osc_allocate. cbn [snd fst]. destruct o as [d|]; auto.
    destruct (osc_place tol d i ens) as [e|] eqn:E.
    + apply osc_place_perm in E as [_ E]. auto.
    + rewrite map_app. apply Forall_app. split; auto. constructor; auto. discriminate.
Qed.

Lemma filter_combine_map {A} (f : nat -> option A) l :
  map fst (filter (fun x => is_some (snd x)) (combine l (map f l))) = filter (fun i => is_some (f i)) l.
Proof. induction l as [|a l IH]; simpl; auto. destruct (f a); simpl; congruence. Qed.

Theorem utils_ensembles_spec dynamic tol th ignore : dynamic <> [] ->
  exists es, utils_sync_ensembles dynamic tol th ignore = Ok es /\ no_empty es /\ NoDup (concat es) /\
    forall i, In i (concat es) <-> i < length (hd [] dynamic) /\ ~ In i ignore /\ whole_pulse th dynamic i.
Proof.
  intros Hne. destruct dynamic as [|first t] eqn:Ed; [congruence|]. rewrite <- Ed in *.
  set (f := fun i => if existsb (Nat.eqb i) ignore then None
                     else osc_descriptor th (map (fun st => nth i st 0%Q) dynamic)).
  set (l := seq 0 (length first)).
  destruct (osc_fold_perm tol (combine l (map f l)) []) as [H1 H2].
  exists (map snd (fold_left (osc_allocate tol) (combine l (map f l)) [])).
  rewrite filter_combine_map in H1. simpl in H1. split; [|split; [|split]].
  - unfold utils_sync_ensembles, f, l. rewrite Ed. reflexivity.
  - apply H2. constructor.
  - eapply Permutation_NoDup; [apply Permutation_sym, H1|]. apply NoDup_filter, seq_NoDup.
  - intros i. assert (Hiff : In i (concat (map snd (fold_left (osc_allocate tol) (combine l (map f l)) []))) <->
        In i (filter (fun i => is_some (f i)) l)).
    { split; intros H; [eapply Permutation_in; eauto|eapply Permutation_in; [apply Permutation_sym; eauto|auto]]. }
    rewrite Hiff, filter_In. unfold l. rewrite in_seq. rewrite Ed. cbn [hd]. rewrite <- Ed.
    assert (Hf : is_some (f i) = true <-> ~ In i ignore /\ whole_pulse th dynamic i).
    { unfold f. destruct (existsb (Nat.eqb i) ignore) eqn:Ei.
      - apply existsb_exists in Ei as [x [Hx E]]. apply Nat.eqb_eq in E. subst x. simpl. intuition discriminate.
      - assert (Hn : ~ In i ignore).
        { intro Hc. assert (existsb (Nat.eqb i) ignore = true); [|congruence]. apply existsb_exists. exists i. split; auto.
          apply Nat.eqb_refl. }
        transitivity (osc_descriptor th (map (fun st => nth i st 0%Q) dynamic) <> None).
        { destruct (osc_descriptor _ _); simpl; split; congruence. }
        rewrite osc_descriptor_spec; [|rewrite map_length, Ed; simpl; lia].
        unfold whole_pulse, phase. rewrite map_length.
        assert (Hnth : forall k, k < length dynamic -> nth k (map (fun st => nth i st 0%Q) dynamic) 0%Q = nth i (nth k dynamic []) 0%Q).
        { intros k Hk. rewrite (nth_indep _ 0%Q (nth i (@nil Q) 0%Q)) by (rewrite map_length; auto).
          apply (map_nth (fun st => nth i st 0%Q)). }
        split.
        + intros (t0 & s & H3 & H4 & H5 & H6). split; auto. exists t0, s. rewrite Hnth in H5, H6 by lia. auto.
        + intros (_ & t0 & s & H3 & H4 & H5 & H6). exists t0, s. rewrite !Hnth by lia. auto. }
    rewrite Hf. intuition lia.
Qed.

(** ** Which oscillators share an ensemble *)
Lemma osc_scan_inactive th col : forall t e s, osc_scan th col false 0 t = (e, s) -> (e, s) <> (0, 0) ->
  1 <= e <= t /\ (th < nth e col 0)%Q /\ (forall u, e < u <= t -> (nth u col 0 <= th)%Q) /\ osc_scan th col true e (e - 1) = (e, s).
Proof.
  induction t as [|t IH]; intros e s E Hne; cbn [osc_scan] in E; [congruence|].
  destruct (Qltb th (nth (S t) col 0%Q)) eqn:Ea; cbn [andb negb] in E.
  - apply Qltb_true in Ea. assert (Ee : e = S t).
    { assert (G : forall k, fst (osc_scan th col true (S t) k) = S t).
      { induction k as [|k IHk]; cbn [osc_scan]; auto. rewrite andb_false_r, andb_true_r. destruct (Qltb _ _); auto. }
      specialize (G t). rewrite E in G. exact G. }
    subst e. replace (S t - 1) with t by lia. repeat split; auto; try lia.
  - apply Qltb_false in Ea. rewrite andb_false_r in E. destruct (IH e s E Hne) as (H1 & H2 & H3 & H4). repeat split; auto; try lia.
    intros u Hu. destruct (Nat.eq_dec u (S t)) as [->|]; auto. apply H3; lia.
Qed.
Lemma osc_scan_active th col e : forall t s, osc_scan th col true e t = (e, s) ->
  s <= t /\ (s = 0 \/ (nth s col 0 < th)%Q) /\ forall u, s < u <= t -> (th <= nth u col 0)%Q.
Proof.
  induction t as [|t IH]; intros s E; cbn [osc_scan] in E.
  - injection E as <-. repeat split; auto. intros; lia.
  - rewrite andb_false_r, andb_true_r in E. destruct (Qltb (nth (S t) col 0%Q) th) eqn:Ea.
    + injection E as <-. apply Qltb_true in Ea. repeat split; auto. intros; lia.
    + apply Qltb_false in Ea. destruct (IH s E) as (H1 & H2 & H3). repeat split; auto; try lia.
      intros u Hu. destruct (Nat.eq_dec u (S t)) as [->|]; auto. apply H3; lia.
Qed.

Lemma osc_descriptor_last th col e s : osc_descriptor th col = Some (e, s) -> last_pulse th (fun t => nth t col 0%Q) (length col) e s.
Proof.
  unfold osc_descriptor. set (last := length col - 1).
  assert (G : forall stop, stop <= last -> (match osc_scan th col false 0 stop with (0, 0) => None | d => Some d end) = Some (e, s) ->
    (exists t, stop <= t <= last /\ 0 < stop /\ (nth stop col 0 <= th)%Q) -> (forall u, stop < u <= last -> (th < nth u col 0)%Q) ->
    last_pulse th (fun t => nth t col 0%Q) (length col) e s).
  { intros stop Hs E (t & Ht & Hpos & Hv) Hu. destruct (osc_scan th col false 0 stop) as [a b] eqn:Es.
    assert (Eab : (a, b) = (e, s) /\ (e, s) <> (0, 0)).
    { destruct a as [|a]; [destruct b as [|b]; [discriminate|]|]; injection E as <- <-; split; auto; congruence. }
    destruct Eab as (Eab & Hne). injection Eab as -> ->. destruct (osc_scan_inactive th col stop e s Es Hne) as (H1 & H2 & H3 & H4).
    destruct (osc_scan_active th col e (e - 1) s H4) as (H5 & H6 & H7).
    assert (He : e <> stop) by (intros ->; lra).
    unfold last_pulse. split; [lia|]. split; [exact H2|]. split; [exists stop; split; [lia|exact Hv]|]. split; [|split; [lia|split; [exact H6|]]].
    - intros x Hx Hax u Hux. destruct (Nat.le_gt_cases x stop) as [Hle|Hgt]; [specialize (H3 x ltac:(lia)); exfalso; lra|]. apply Hu. lia.
    - intros x Hx. apply H7. lia. }
  destruct (Qltb th (nth last col 0%Q)) eqn:Ea; cbn [andb].
  - destruct (osc_stop_spec th col last) as (H1 & H2 & H3). set (stop := osc_stop th col last) in *.
    destruct (Nat.eqb_spec stop 0) as [E0|E0]; [discriminate|]. intros E. apply (G stop); auto. exists stop. repeat split; auto; try lia. apply H3. lia.
  - apply Qltb_false in Ea. intros E. destruct (Nat.eq_dec last 0) as [El|El].
    + rewrite El in E. cbn in E. discriminate.
    + apply (G last); auto; [exists last; repeat split; auto; lia|intros; lia].
Qed.

Lemma window_near tol d f :
  Qltb (osc_middle d) (osc_middle f + osc_reducer tol f)%Q && Qltb (osc_middle f - osc_reducer tol f)%Q (osc_middle d) = true <-> pulse_near tol d f.
Proof.
  rewrite andb_true_iff, !Qltb_true. unfold pulse_near, osc_reducer, osc_middle.
  set (a := inject_Z (Z.of_nat (fst d))). set (b := inject_Z (Z.of_nat (snd d))). set (x := inject_Z (Z.of_nat (fst f))). set (y := inject_Z (Z.of_nat (snd f))).
  assert (E1 : (b + (a - b) / 2 == (a + b) / 2)%Q) by field. assert (E2 : (y + (x - y) / 2 == (x + y) / 2)%Q) by field.
  rewrite E1, E2. rewrite Qabs_Qlt_condition. set (u := ((a + b) / 2)%Q). set (v := ((x + y) / 2)%Q). set (w := ((x - y) * tol)%Q).
  assert (Ew : (tol * (x - y) == w)%Q) by (unfold w; ring). rewrite Ew. split; intros [H1 H2]; split; lra.
Qed.

(** an ensemble with its founder first, every later member near the founder; no member of an ensemble near the founder of
    an earlier one *)
Definition grouped (tol : Q) (descr : nat -> option (nat * nat)) (ens : list ((nat * nat) * list nat)) : Prop :=
  Forall (fun fm => exists a rest, snd fm = a :: rest /\ descr a = Some (fst fm) /\
                     forall i, In i rest -> exists d, descr i = Some d /\ pulse_near tol d (fst fm)) ens /\
  forall j k fj mj fk mk i d, j < k -> nth_error ens j = Some (fj, mj) -> nth_error ens k = Some (fk, mk) -> In i mk -> descr i = Some d -> ~ pulse_near tol d fj.

Lemma osc_place_shape tol d i : forall ens, match osc_place tol d i ens with
  | None => forall j f m, nth_error ens j = Some (f, m) -> ~ pulse_near tol d f
  | Some ens' => exists p f m, nth_error ens p = Some (f, m) /\ pulse_near tol d f /\ ens' = upd ens p (f, m ++ [i]) /\
      forall j f' m', j < p -> nth_error ens j = Some (f', m') -> ~ pulse_near tol d f'
  end.
Proof.
  induction ens as [|[f m] t IH]; cbn [osc_place]; [intros [|j]; discriminate|].
  destruct (_ && _) eqn:E.
  - apply window_near in E. exists 0, f, m. repeat split; auto. intros; lia.
  - assert (Hn : ~ pulse_near tol d f) by (intros H; apply window_near in H; congruence).
    destruct (osc_place tol d i t) as [t'|].
    + destruct IH as (p & f' & m' & H1 & H2 & -> & H4). exists (S p), f', m'. repeat split; auto.
      intros [|j] f0 m0 Hj E0; cbn in E0; [injection E0 as <- <-; auto|]. apply (H4 j f0 m0); auto. lia.
    + intros [|j] f0 m0 E0; cbn in E0; [injection E0 as <- <-; auto|]. apply (IH j f0 m0); auto.
Qed.

Lemma nth_error_upd {A} (l : list A) p j v : nth_error (upd l p v) j = if (p =? j) && (p <? length l) then Some v else nth_error l j.
Proof.
  revert p j. induction l as [|x t IH]; intros p j; [destruct p, j; cbn; rewrite ?andb_false_r; auto|].
  destruct p, j; cbn [upd nth_error Nat.eqb andb length]; auto. rewrite IH. reflexivity.
Qed.

Lemma osc_allocate_grouped tol descr i ens : grouped tol descr ens -> grouped tol descr (osc_allocate tol ens (i, descr i)).
Proof.
  intros (G1 & G2). unfold osc_allocate. cbn [fst snd]. destruct (descr i) as [d|] eqn:Ed; [|split; auto].
  pose proof (osc_place_shape tol d i ens) as S. destruct (osc_place tol d i ens) as [ens'|].
  - destruct S as (p & f & m & H1 & H2 & -> & H4). assert (Hp : p < length ens) by (apply nth_error_Some; congruence). split.
    + apply Forall_forall. intros x Hx. apply (In_nth_error) in Hx as (j & Hj). rewrite nth_error_upd in Hj. rewrite Forall_forall in G1.
      destruct (Nat.eqb_spec p j) as [->|Hn]; cbn [andb] in Hj.
      * destruct (Nat.ltb_spec j (length ens)); [|lia]. injection Hj as <-. cbn [fst snd].
        destruct (G1 (f, m) (nth_error_In _ _ H1)) as (a & rest & E & Ha & Hr). cbn [fst snd] in *. exists a, (rest ++ [i]). rewrite E. split; [auto|]. split; [auto|].
        intros x Hx. apply in_app_or in Hx as [Hx|[<-|[]]]; [auto|]. exists d. auto.
      * apply G1. eapply nth_error_In; eauto.
    + intros j k fj mj fk mk x dx Hjk Ej Ek Hx Hd. rewrite nth_error_upd in Ej, Ek.
      assert (Ej' : exists mj', nth_error ens j = Some (fj, mj')).
      { destruct (Nat.eqb_spec p j) as [->|Hn]; cbn [andb] in Ej; eauto. destruct (Nat.ltb_spec j (length ens)); [|lia]. injection Ej as <- <-. eauto. }
      destruct Ej' as (mj' & Ej').
      destruct (Nat.eqb_spec p k) as [->|Hn]; cbn [andb] in Ek.
      * destruct (Nat.ltb_spec k (length ens)); [|lia]. injection Ek as <- <-. apply in_app_or in Hx as [Hx|[<-|[]]].
        -- exact (G2 j k fj mj' f m x dx Hjk Ej' H1 Hx Hd).
        -- rewrite Ed in Hd. injection Hd as <-. apply (H4 j fj mj'); auto.
      * exact (G2 j k fj mj' fk mk x dx Hjk Ej' Ek Hx Hd).
  - split.
    + apply Forall_app. split; auto. constructor; auto. cbn [fst snd]. exists i, []. repeat split; auto. intros x [].
    + intros j k fj mj fk mk x dx Hjk Ej Ek Hx Hd.
      destruct (Nat.lt_ge_cases k (length ens)) as [Hk|Hk].
      * rewrite nth_error_app1 in Ej, Ek by lia. exact (G2 j k fj mj fk mk x dx Hjk Ej Ek Hx Hd).
      * rewrite nth_error_app2 in Ek by lia. destruct (k - length ens) as [|k'] eqn:Ekk; [|destruct k'; discriminate].
        injection Ek as <- <-. destruct Hx as [<-|[]]. rewrite Ed in Hd. injection Hd as <-. rewrite nth_error_app1 in Ej by lia. apply (S j fj mj); auto.
Qed.

Theorem utils_ensembles_near dynamic tol th ignore es : dynamic <> [] -> utils_sync_ensembles dynamic tol th ignore = Ok es ->
  exists founders, length founders = length es /\
    forall k, k < length es ->
      last_pulse th (fun t => phase (nth t dynamic []) (hd 0 (nth k es []))) (length dynamic) (fst (nth k founders (0, 0))) (snd (nth k founders (0, 0))) /\
      forall i, In i (nth k es []) -> exists e s, last_pulse th (fun t => phase (nth t dynamic []) i) (length dynamic) e s /\
        (i <> hd 0 (nth k es []) -> pulse_near tol (e, s) (nth k founders (0, 0))) /\
        forall j, j < k -> ~ pulse_near tol (e, s) (nth j founders (0, 0)).
Proof.
  intros Hne E. unfold utils_sync_ensembles in E. destruct dynamic as [|first t] eqn:Ed; [congruence|]. rewrite <- Ed in *. apply Ok_inj in E.
  set (f := fun i => if existsb (Nat.eqb i) ignore then None else osc_descriptor th (map (fun st => nth i st 0%Q) dynamic)) in *.
  set (l := seq 0 (length first)) in *.
  assert (G : forall l ens, grouped tol f ens -> grouped tol f (fold_left (osc_allocate tol) (combine l (map f l)) ens)).
  { clear. induction l as [|i l IH]; intros ens H; cbn [map combine fold_left]; auto. apply IH. apply osc_allocate_grouped. auto. }
  specialize (G l [] ltac:(split; [constructor|intros j k; destruct j; discriminate])).
  set (ens := fold_left _ _ _) in *. destruct G as (G1 & G2).
  assert (Hpulse : forall i e s, f i = Some (e, s) -> last_pulse th (fun t => phase (nth t dynamic []) i) (length dynamic) e s).
  { intros i e s Hf. unfold f in Hf. destruct (existsb _ _); [discriminate|]. apply osc_descriptor_last in Hf. rewrite map_length in Hf.
    assert (Hnth : forall k, k < length dynamic -> nth k (map (fun st => nth i st 0%Q) dynamic) 0%Q = phase (nth k dynamic []) i).
    { intros k Hk. unfold phase. rewrite (nth_indep _ 0%Q (nth i (@nil Q) 0%Q)) by (rewrite map_length; auto). apply (map_nth (fun st => nth i st 0%Q)). }
    destruct Hf as (P1 & P2 & (u & P3 & P3') & P4 & P5 & P6 & P7). unfold last_pulse. rewrite Hnth in P2 by lia. rewrite Hnth in P3' by lia.
    split; [auto|]. split; [auto|]. split; [eauto|]. split; [|split; [auto|split]].
    - intros x Hx Hv y Hy. rewrite <- Hnth in Hv by lia. specialize (P4 x Hx Hv y Hy). rewrite Hnth in P4 by lia. auto.
    - destruct P6 as [P6|P6]; auto. right. rewrite Hnth in P6 by lia. auto.
    - intros x Hx. specialize (P7 x Hx). rewrite Hnth in P7 by lia. auto. }
  assert (Hes : es = map snd ens) by (symmetry; exact E). exists (map fst ens). rewrite Hes, !map_length. split; [reflexivity|]. intros k Hk.
  assert (Nf : forall j, j < length ens -> nth j (map fst ens) (0, 0) = fst (nth j ens ((0, 0), []))).
  { intros j Hj. apply (map_nth fst ens ((0, 0), [])). }
  assert (Ns : nth k (map snd ens) [] = snd (nth k ens ((0, 0), []))) by apply (map_nth snd ens ((0, 0), [])).
  rewrite Ns, Nf by auto. rewrite Forall_forall in G1.
  destruct (G1 (nth k ens ((0, 0), [])) (nth_In _ _ Hk)) as (a & rest & Em & Ha & Hr).
  rewrite Em. cbn [hd]. split.
  - destruct (fst (nth k ens ((0, 0), []))) as [e s] eqn:Efs. cbn [fst snd]. apply Hpulse. auto.
  - intros i Hi. assert (Hd : exists d, f i = Some d /\ (i <> a -> pulse_near tol d (fst (nth k ens ((0, 0), []))))).
    { destruct Hi as [<-|Hi]; [eexists; split; [exact Ha|congruence]|]. destruct (Hr i Hi) as (d & H1 & H2). eauto. }
    destruct Hd as ([e s] & Hd1 & Hd2). exists e, s. split; [apply Hpulse; auto|]. split; [exact Hd2|].
    intros j Hj. rewrite Nf by lia.
    assert (Ej : nth_error ens j = Some (nth j ens ((0, 0), []))) by (apply nth_error_nth'; lia).
    assert (Ek : nth_error ens k = Some (nth k ens ((0, 0), []))) by (apply nth_error_nth'; lia).
    destruct (nth j ens ((0, 0), [])) as [fj mj]. destruct (nth k ens ((0, 0), [])) as [fk mk]. cbn [fst snd] in *. subst mk.
    rewrite Em in Ek. exact (G2 j k fj mj fk (a :: rest) i (e, s) Hj Ej Ek Hi Hd1).
Qed.

(** * Legion weights *)
Definition qsum (l : list Q) : Q := fold_right Qplus 0%Q l.

Lemma legion_row_spec Wt stim n nb i : NoDup nb -> (forall j, In j nb -> j < n) ->
  let k := length (filter (fun j => Qltb 0 (nth j stim 0%Q)) nb) in
  length (legion_row Wt stim n nb i) = n /\
  forall j, j < n -> nth j (legion_row Wt stim n nb i) 0%Q =
    if (Qltb 0 (nth i stim 0%Q) && (0 <? k) && existsb (Nat.eqb j) nb) then (Wt / inject_Z (Z.of_nat k))%Q else 0%Q.
Proof.
  intros Hnd Hlt k. unfold legion_row. fold k.
  assert (Hz : forall j, nth j (repeat 0%Q n) 0%Q = 0%Q).
  { intros j. destruct (Nat.lt_ge_cases j n).
    - apply nth_repeat.
    - apply nth_overflow. rewrite repeat_length. auto. }
  assert (Hfold : forall w l row, length (fold_left (fun r j => upd r j w) l row) = length row /\
     forall j, j < length row -> nth j (fold_left (fun r j => upd r j w) l row) 0%Q = if existsb (Nat.eqb j) l then w else nth j row 0%Q).
  { intros w. induction l as [|a l IH]; intros row; simpl; auto. destruct (IH (upd row a w)) as [H1 H2].
    rewrite upd_length in H1, H2. split; auto. intros j Hj. rewrite H2 by auto.
    destruct (existsb (Nat.eqb j) l) eqn:E; [now rewrite orb_true_r|]. rewrite orb_false_r.
    rewrite upd_nth. rewrite (Nat.eqb_sym j a). destruct (Nat.eqb_spec a j) as [->|]; simpl; auto.
    apply Nat.ltb_lt in Hj. now rewrite Hj. }
  assert (Hk : nb = [] -> k = 0) by (intros ->; reflexivity).
  destruct nb as [|a nb'] eqn:En.
  - rewrite Hk by auto. simpl. rewrite andb_false_r. simpl. split; [apply repeat_length|auto].
  - rewrite <- En in *. replace (length nb =? 0) with false by (rewrite En; reflexivity). cbn [negb andb].
    destruct (Qltb 0 (nth i stim 0%Q)); cbn [andb]; [|split; [apply repeat_length|auto]].
    destruct (0 <? k); cbn [andb]; [|split; [apply repeat_length|auto]].
    destruct (Hfold (Wt / inject_Z (Z.of_nat k))%Q nb (repeat 0%Q n)) as [H1 H2]. rewrite repeat_length in H1, H2.
    split; auto. intros j Hj. rewrite H2 by auto. now rewrite Hz.
Qed.
