(** C240: the pictures of a pulse coupled network. *)
From Verif Require Import Base Ensembles_Model Ensembles_Proofs Ensembles_Props Spikepic_Model.
Open Scope nat_scope.

(** ** specification *)
Definition spikes (dynamic : list (list nat)) (t i : nat) : Prop := nth i (nth t dynamic []) 0 = 1.
(** a record of [n] neurons with outputs 0 and 1 *)
Definition record_of (n : nat) (dynamic : list (list nat)) : Prop :=
  forall state, In state dynamic -> length state = n /\ forall v, In v state -> v = 0 \/ v = 1.
Definition black (frame : list (list bool)) (row col : nat) : Prop := nth col (nth row frame []) false = true.

(** ** proofs *)
Lemma blacken_ok pixels : forall picture, (forall i, In i pixels -> i < length picture) ->
  exists p, blacken picture pixels = Ok p /\ length p = length picture /\
    forall k, nth k p false = true <-> nth k picture false = true \/ In k pixels.
Proof.
  induction pixels as [|i t IH]; intros picture H; cbn [blacken].
  - exists picture. split; [reflexivity|]. split; [reflexivity|]. intro k. cbn [In]. tauto.
  - pose proof (H i (or_introl eq_refl)) as Hi. destruct (Nat.ltb_spec i (length picture)); [|lia].
    destruct (IH (upd picture i true)) as (p & E & L & N); [intros j Hj; rewrite upd_length; apply H; right; exact Hj|].
    exists p. split; [exact E|]. split; [rewrite L; apply upd_length|]. intro k. rewrite N, upd_nth. cbn [In].
    destruct (Nat.eqb_spec i k) as [-> |Hk]; cbn [andb].
    + destruct (Nat.ltb_spec k (length picture)); [tauto|lia].
    + tauto.
Qed.

Lemma nth_firstn_lt {A} (l : list A) d : forall n k, k < n -> nth k (firstn n l) d = nth k l d.
Proof. induction l as [|x l IH]; intros [|n] [|k] H; try lia; cbn [firstn nth]; try reflexivity. apply IH. lia. Qed.
Lemma nth_skipn_add {A} (l : list A) d : forall n k, nth k (skipn n l) d = nth (n + k) l d.
Proof. induction l as [|x l IH]; intros [|n] k; cbn [skipn plus nth]; try reflexivity; [destruct k; reflexivity|]. apply IH. Qed.

Lemma reshape_nth h w p r c : r < h -> c < w -> nth c (nth r (reshape h w p) []) false = nth (r * w + c) p false.
Proof.
  intros Hr Hc. unfold reshape.
  rewrite (nth_indep _ [] (firstn w (skipn (0 * w) p))) by now rewrite map_length, seq_length.
  rewrite (map_nth (fun r => firstn w (skipn (r * w) p))), seq_nth by exact Hr. cbn [plus].
  rewrite nth_firstn_lt by exact Hc. apply nth_skipn_add.
Qed.

Lemma reshape_size h w p : length p = h * w -> length (reshape h w p) = h /\ forall row, In row (reshape h w p) -> length row = w.
Proof.
  intro L. unfold reshape. split; [now rewrite map_length, seq_length|]. intros row H. apply in_map_iff in H as (r & <- & Hr). apply in_seq in Hr.
  rewrite firstn_length, skipn_length, L. apply Nat.min_l. nia.
Qed.

Lemma sum_positive (state : list nat) : (forall v, In v state -> v = 0 \/ v = 1) -> (0 < fold_left Nat.add state 0 <-> exists i, i < length state /\ nth i state 0 = 1).
Proof.
  induction state as [|x l IH]; intro H; cbn [fold_left].
  - split; [lia|]. intros (i & Hi & _). cbn in Hi. lia.
  - rewrite fold_add_acc. destruct (H x (or_introl eq_refl)) as [-> | ->].
    + cbn [plus]. rewrite IH by (intros v Hv; apply H; right; exact Hv). split.
      * intros (i & Hi & E). exists (S i). cbn [length nth]. split; [lia|exact E].
      * intros ([|i] & Hi & E); [discriminate|]. exists i. cbn [length nth] in *. split; [lia|exact E].
    + split; [|lia]. intros _. exists 0. cbn [length nth]. split; [lia|reflexivity].
Qed.

Lemma frames_ok h w n : n <= h * w -> forall dynamic pre, record_of n dynamic ->
  let firing st := filter (fun i => nth i st 0 =? 1) (seq 0 n) in
  let some e := match e : list nat with [] => false | _ => true end in
  exists fs, frames h w (pcnn_time_signal dynamic) (pre ++ filter some (map firing dynamic)) (length pre) = Ok fs /\ length fs = length dynamic /\
    forall t, t < length dynamic -> length (nth t fs []) = h /\ (forall row, In row (nth t fs []) -> length row = w) /\
      forall r c, r < h -> c < w -> (black (nth t fs []) r c <-> r * w + c < n /\ spikes dynamic t (r * w + c)).
Proof.
  intros Hn dynamic. induction dynamic as [|st d IH]; intros pre Hr firing some.
  - exists []. cbn. split; [reflexivity|]. split; [reflexivity|]. intros t Ht. lia.
  - destruct (Hr st (or_introl eq_refl)) as (L & V).
    assert (Hr' : record_of n d) by (intros s Hs; apply Hr; right; exact Hs).
    pose proof (sum_positive st V) as Sp. rewrite L in Sp.
    assert (In_f : forall k, In k (firing st) <-> k < n /\ nth k st 0 = 1).
    { intro k. unfold firing. rewrite filter_In, in_seq, Nat.eqb_eq. intuition lia. }
    assert (Bl : forall k, nth k (repeat false (h * w)) false = false).
    { intro k. apply nth_repeat. }
    cbn [pcnn_time_signal map frames]. fold (pcnn_time_signal d).
    set (s := fold_left Nat.add st 0) in *.
    destruct (Nat.ltb_spec 0 s) as [Hs|Hs].
    + apply Sp in Hs. assert (Es : some (firing st) = true).
      { destruct Hs as (i & Hi & Ei). assert (W : In i (firing st)) by (apply In_f; auto). destruct (firing st); [destruct W|reflexivity]. }
      cbn [filter]. rewrite Es. rewrite nth_error_app2, Nat.sub_diag by lia. cbn [nth_error].
      destruct (blacken_ok (firing st) (repeat false (h * w))) as (p & P1 & P2 & P3).
      { intros i Hi. apply In_f in Hi. rewrite repeat_length. lia. }
      rewrite P1. cbn [bind fst snd]. rewrite repeat_length in P2.
      destruct (IH (pre ++ [firing st]) Hr') as (fs & F1 & F2 & F3). rewrite <- app_assoc in F1. cbn [app] in F1. rewrite app_length in F1. cbn [length] in F1.
      fold firing in F1. fold some in F1. rewrite F1. cbn [bind]. eexists. split; [reflexivity|]. split; [cbn [length]; lia|].
      intros [|t] Ht; cbn [nth].
      * destruct (reshape_size h w p P2) as (Z1 & Z2). split; [exact Z1|]. split; [exact Z2|]. intros r c Hrr Hc. unfold black, spikes. rewrite reshape_nth by assumption.
        cbn [nth]. rewrite P3, Bl, In_f. split; [intros [H|H]; [discriminate|exact H]|auto].
      * apply F3. cbn [length] in Ht. lia.
    + assert (Nf : forall k, k < n -> nth k st 0 <> 1) by (intros k Hk E; assert (0 < s) by (apply Sp; eauto); lia).
      assert (Es : firing st = []).
      { destruct (firing st) as [|k l] eqn:E; [reflexivity|]. assert (W : In k (k :: l)) by (left; reflexivity). apply In_f in W. destruct W as (W1 & W2). destruct (Nf k W1 W2). }
      cbn [filter]. rewrite Es. cbn [some]. cbn [bind fst snd].
      destruct (IH pre Hr') as (fs & F1 & F2 & F3). fold firing in F1. fold some in F1. rewrite F1. cbn [bind]. eexists. split; [reflexivity|]. split; [cbn [length]; lia|].
      intros [|t] Ht; cbn [nth].
      * destruct (reshape_size h w (repeat false (h * w)) (repeat_length _ _)) as (Z1 & Z2). split; [exact Z1|]. split; [exact Z2|]. intros r c Hrr Hc. unfold black, spikes. rewrite reshape_nth by assumption.
        cbn [nth]. rewrite Bl. split; [discriminate|]. intros (H1 & H2). destruct (Nf _ H1 H2).
      * apply F3. cbn [length] in Ht. lia.
Qed.

(** The animation has one frame of the given size per recorded step; a pixel is
    black exactly when the neuron with this number fires at this step. *)
Theorem C240_animation (n height width : nat) (dynamic : list (list nat)) :
  dynamic <> [] -> record_of n dynamic -> n <= height * width ->
  exists fs, animate_spike_ensembles dynamic height width = Ok fs /\ length fs = length dynamic /\
    forall t, t < length dynamic -> length (nth t fs []) = height /\ (forall row, In row (nth t fs []) -> length row = width) /\
      forall r c, r < height -> c < width -> (black (nth t fs []) r c <-> r * width + c < n /\ spikes dynamic t (r * width + c)).
Proof.
  intros Hne Hr Hn. unfold animate_spike_ensembles, pcnn_spike_ensembles. destruct dynamic as [|st d] eqn:Ed; [contradiction Hne; reflexivity|]. rewrite <- Ed in *.
  assert (L : length st = n) by (apply Hr; rewrite Ed; left; reflexivity). rewrite L. cbn [bind].
  exact (frames_ok height width n Hn dynamic [] Hr).
Qed.
Print Assumptions C240_animation.

(** The time signal: at every step the number of neurons that fire. *)
Theorem C240_time_signal (n : nat) (dynamic : list (list nat)) : record_of n dynamic ->
  length (show_time_signal dynamic) = length dynamic /\
  forall t, t < length dynamic -> nth t (show_time_signal dynamic) (0, 0) = (t, count_occ Nat.eq_dec (nth t dynamic []) 1).
Proof.
  intro Hr. destruct (C42_pcnn_time_signal dynamic) as (L & H).
  { apply Forall_forall. intros s Hs. apply Forall_forall. intros v Hv. apply (Hr s Hs). exact Hv. }
  unfold show_time_signal. rewrite combine_length, seq_length, Nat.min_id. split; [exact L|].
  intros t Ht. rewrite combine_nth by apply seq_length. rewrite seq_nth by (rewrite L; exact Ht). rewrite H by exact Ht. reflexivity.
Qed.
Print Assumptions C240_time_signal.

(** A picture that is too small for a neuron that fires is refused. *)
Theorem C240_too_small (n height width : nat) (dynamic : list (list nat)) t i :
  record_of n dynamic -> t < length dynamic -> height * width <= i < n -> spikes dynamic t i ->
  animate_spike_ensembles dynamic height width = Raise IndexError.
Proof.
  intros Hr Ht Hi Hs. unfold animate_spike_ensembles, pcnn_spike_ensembles. destruct dynamic as [|st0 d0] eqn:Ed; [cbn in Ht; lia|]. rewrite <- Ed in *.
  assert (L : length st0 = n) by (apply Hr; rewrite Ed; left; reflexivity). rewrite L. cbn [bind]. clear Ed L st0 d0.
  assert (Bad : forall pixels picture, length picture = height * width -> In i pixels -> blacken picture pixels = Raise IndexError).
  { induction pixels as [|k l IH]; intros picture Lp Hin; [destruct Hin|]. cbn [blacken]. destruct (Nat.ltb_spec k (length picture)); [|reflexivity].
    destruct Hin as [-> |Hin]; [lia|]. apply IH; [now rewrite upd_length|exact Hin]. }
  assert (Any : forall pixels picture, (exists p, blacken picture pixels = Ok p) \/ blacken picture pixels = Raise IndexError).
  { induction pixels as [|k l IH]; intro picture; cbn [blacken]; [eauto|]. destruct (k <? length picture); [apply IH|auto]. }
  set (firing := fun st => filter (fun i => nth i st 0 =? 1) (seq 0 n)). set (some := fun e : list nat => match e with [] => false | _ => true end).
  assert (G : forall d pre t, record_of n d -> t < length d -> spikes d t i -> frames height width (pcnn_time_signal d) (pre ++ filter some (map firing d)) (length pre) = Raise IndexError).
  { induction d as [|st d IH]; intros pre t' Hr' Ht' Hs'; [cbn in Ht'; lia|]. destruct (Hr' st (or_introl eq_refl)) as (L & V).
    pose proof (sum_positive st V) as Sp. rewrite L in Sp.
    assert (In_f : forall k, In k (firing st) <-> k < n /\ nth k st 0 = 1).
    { intro k. unfold firing. rewrite filter_In, in_seq, Nat.eqb_eq. intuition lia. }
    cbn [pcnn_time_signal map frames filter]. fold (pcnn_time_signal d). set (s := fold_left Nat.add st 0) in *.
    assert (Hr2 : record_of n d) by (intros x Hx; apply Hr'; right; exact Hx).
    assert (Nx : forall j, t' = S j -> frames height width (pcnn_time_signal d) ((pre ++ [firing st]) ++ filter some (map firing d)) (length (pre ++ [firing st])) = Raise IndexError /\
                  frames height width (pcnn_time_signal d) (pre ++ filter some (map firing d)) (length pre) = Raise IndexError).
    { intros j ->. cbn [length] in Ht'. unfold spikes in Hs'. cbn [nth] in Hs'. split; (apply (IH _ j); [exact Hr2|lia|exact Hs']). }
    destruct (Nat.ltb_spec 0 s) as [H|H].
    - apply Sp in H. assert (Es : some (firing st) = true).
      { destruct H as (k & Hk & Ek). assert (W : In k (firing st)) by (apply In_f; auto). destruct (firing st); [destruct W|reflexivity]. }
      rewrite Es. rewrite nth_error_app2, Nat.sub_diag by lia. cbn [nth_error].
      destruct (Any (firing st) (repeat false (height * width))) as [(p & E)|E]; rewrite E; cbn [bind fst snd]; [|reflexivity].
      destruct t' as [|j].
      + rewrite Bad in E; [discriminate|apply repeat_length|]. apply In_f. split; [lia|exact Hs'].
      + destruct (Nx j eq_refl) as (N & _). rewrite <- app_assoc, app_length in N. cbn [app length] in N. rewrite N. reflexivity.
    - assert (Es : firing st = []).
      { destruct (firing st) as [|k l] eqn:E; [reflexivity|]. assert (W : In k (k :: l)) by (left; reflexivity). apply In_f in W.
        assert (0 < s) by (apply Sp; exists k; exact W). lia. }
      rewrite Es. cbn [some bind fst snd]. destruct t' as [|j].
      + assert (0 < s) by (apply Sp; exists i; split; [lia|exact Hs']). lia.
      + destruct (Nx j eq_refl) as (_ & N). rewrite N. reflexivity. }
  apply (G dynamic [] t Hr Ht Hs).
Qed.
Print Assumptions C240_too_small.

Example C240_example : let d := [[1; 0; 0; 1]; [0; 0; 0; 0]; [0; 1; 0; 0]] in
  record_of 4 d /\ show_time_signal d = [(0, 2); (1, 0); (2, 1)] /\
  animate_spike_ensembles d 2 3 = Ok [[[true; false; false]; [true; false; false]]; [[false; false; false]; [false; false; false]]; [[false; true; false]; [false; false; false]]] /\
  animate_spike_ensembles d 1 3 = Raise IndexError.
Proof. split; [|split; [|split]; reflexivity]. intros s Hs. cbn in Hs. intuition (subst; cbn in *; intuition auto). Qed.
