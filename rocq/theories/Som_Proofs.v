(** Specification and proofs for Som_Model.v *)
From Verif Require Import Base Kmeans_Model Kmeans_Proofs Small_Model Small_Proofs Topology_Model Topology_Proofs Som_Model.

(** ** Specification *)

(** every index below [n] is captured exactly once, the indexes of a neuron in ascending order, and the award of a neuron
    is the number of objects it has captured *)
Definition captured_once (size n : nat) (award : list nat) (captured : list (list nat)) : Prop :=
  length captured = size /\ partitions n captured /\ Forall (StronglySorted lt) captured /\
  award = map (@length nat) captured.

(** coordinate [d] of [w] lies between the extreme coordinates of the data *)
Definition within (data : list point) (d : nat) (w : point) : Prop :=
  forall lo hi, (forall p, In p data -> (lo <= coord p d <= hi)%Q) -> (lo <= coord w d <= hi)%Q.

Definition in_unit (q : Q) : Prop := (0 <= q <= 1)%Q.

(** the way of initialisation puts the neurons on the surface of the data *)
Definition on_surface (dims size : nat) (init : som_init) : Prop :=
  match init with
  | UniformGrid => True
  | RandomSurface draws => forall i d, i < size -> d < dims -> in_unit (coord (nth i draws []) d)
  | _ => False
  end.

(** ** Proofs *)
Lemma upd_map_Forall (P : point -> Prop) (f : point -> point) l i :
  (forall w, P w -> P (f w)) -> Forall P l -> Forall P (upd l i (f (nth i l []))).
Proof.
  intros Hf. revert i. induction l as [|x t IH]; intros i H; simpl; auto.
  inversion_clear H. destruct i; constructor; auto.
Qed.

Lemma loc_distance_nonneg cols i j : (0 <= loc_distance cols i j)%Q.
Proof. apply sqdist_nonneg. Qed.

Lemma competition_ok weights x : weights <> [] ->
  exists i, competition weights x = Ok i /\ i < length weights /\
    forall j, j < length weights -> (sqdist (nth i weights []) x <= sqdist (nth j weights []) x)%Q.
Proof.
  intros H. destruct weights as [|w t]; [congruence|]. eexists. split; [reflexivity|].
  destruct (argmin_nearest (fun a b => sqdist b a) (w :: t) x) as [H1 H2]; auto.
Qed.

Section Adapt.
Variables (rows cols : nat) (conn : som_conn) (influence : Q -> Q -> Q).

Lemma fold_attract_length dimension radius rate index (x : point) l : forall ws : list point,
  length (fold_left (fun ws j => if Qltb (loc_distance cols index j) radius
      then upd ws j (move dimension (rate * influence (loc_distance cols index j) radius) (nth j ws []) x) else ws) l ws)
  = length ws.
Proof.
  induction l as [|j t IH]; intros ws; cbn [fold_left]; auto. rewrite IH.
  destruct (Qltb _ _); auto. apply upd_length.
Qed.

Lemma adaptation_length radius rate index x weights :
  length (adaptation rows cols conn influence radius rate index x weights) = length weights.
Proof. unfold adaptation. destruct conn; cbv zeta; rewrite fold_attract_length, ?upd_length; auto. Qed.

Lemma fold_attract_forall (P : point -> Prop) dimension radius rate index (x : point) l :
  (forall w k, P w -> k = 1%Q \/ (exists d, (0 <= d)%Q /\ (d < radius)%Q /\ k = influence d radius) -> P (move dimension (rate * k) w x)) ->
  forall ws : list point, Forall P ws ->
  Forall P (fold_left (fun ws j => if Qltb (loc_distance cols index j) radius
      then upd ws j (move dimension (rate * influence (loc_distance cols index j) radius) (nth j ws []) x) else ws) l ws).
Proof.
  intros HP. induction l as [|j t IH]; intros ws H; cbn [fold_left]; auto. apply IH.
  destruct (Qltb _ _) eqn:E; auto. apply Qltb_true in E.
  apply (upd_map_Forall P (fun w => move dimension (rate * influence (loc_distance cols index j) radius) w x)); auto.
  intros w Hw. apply HP; auto. right. exists (loc_distance cols index j). auto using loc_distance_nonneg.
Qed.

Lemma adaptation_forall (P : point -> Prop) dimension radius rate index x weights :
  length (hd [] weights) = dimension ->
  (forall w, P w -> P (move dimension rate w x)) ->
  (forall w k, P w -> k = 1%Q \/ (exists d, (0 <= d)%Q /\ (d < radius)%Q /\ k = influence d radius) -> P (move dimension (rate * k) w x)) ->
  Forall P weights -> Forall P (adaptation rows cols conn influence radius rate index x weights).
Proof.
  intros Hd H1 HP H. unfold adaptation. rewrite Hd.
  destruct conn; cbv zeta; apply fold_attract_forall; auto;
    apply (upd_map_Forall P (fun w => move dimension rate w x)); auto.
Qed.

(** *** Captured objects *)
Lemma push_perm caps k (i : nat) : k < length caps -> Permutation (concat (push caps k i)) (concat caps ++ [i]).
Proof.
  intros H. unfold push. destruct (upd_split caps k (nth k caps [] ++ [i]) [] H) as [E1 E2].
  rewrite E2. rewrite E1 at 4. rewrite !concat_app. simpl. rewrite <- !app_assoc.
  apply Permutation_app_head. apply Permutation_app_head. apply Permutation_app_comm.
Qed.

Lemma map_upd {A B} (f : A -> B) l i v : map f (upd l i v) = upd (map f l) i (f v).
Proof. revert i. induction l as [|x t IH]; intros [|i]; simpl; auto. now rewrite IH. Qed.

Lemma sorted_snoc l (i : nat) : StronglySorted lt l -> Forall (fun j => j < i) l -> StronglySorted lt (l ++ [i]).
Proof.
  induction l as [|x t IH]; intros H1 H2; simpl.
  - repeat constructor.
  - inversion_clear H1. inversion_clear H2. constructor; auto. apply Forall_app. auto.
Qed.

Definition stats (size i : nat) (s : som_state) : Prop :=
  length (s_weights s) = size /\ captured_once size i (s_award s) (s_captured s) /\
  Forall (Forall (fun j => j < i)) (s_captured s).

Lemma stats_push size i s weights index : index < size -> length weights = size -> stats size i s ->
  stats size (S i) (mk_som weights (upd (s_award s) index (S (nth index (s_award s) 0))) (push (s_captured s) index i)).
Proof.
  intros Hi Hw (_ & (Lc & Hp & Hs & Ha) & Hb). split; [exact Hw|]. cbn [s_award s_captured s_weights].
  assert (Hn : StronglySorted lt (nth index (s_captured s) []) /\ Forall (fun j => j < i) (nth index (s_captured s) [])).
  { rewrite Forall_forall in Hs, Hb. split; [apply Hs|apply Hb]; apply nth_In; lia. }
  split; [split|].
  - unfold push. rewrite upd_length. auto.
  - split; [|split].
    + unfold partitions. rewrite push_perm by lia. rewrite seq_S. apply Permutation_app; auto.
    + unfold push. clear - Hs Hn. revert index Hn. induction (s_captured s) as [|c t IH]; intros index Hn; simpl; auto.
      inversion_clear Hs. destruct index; simpl in *; constructor; auto. apply sorted_snoc; tauto.
    + rewrite Ha. unfold push. rewrite map_upd. f_equal. rewrite app_length. simpl.
      change 0 with (@length nat []) at 1. rewrite map_nth. lia.
  - unfold push. destruct Hn as [_ Hn]. clear - Hb Hn.
    assert (Hup : Forall (Forall (fun j => j < S i)) (s_captured s)).
    { eapply Forall_impl; [|exact Hb]. intros l Hl. eapply Forall_impl; [|exact Hl]. simpl. lia. }
    clear Hb. revert index Hn. induction (s_captured s) as [|c t IH]; intros index Hn; simpl; auto.
    inversion_clear Hup. destruct index; simpl in *; constructor; auto.
    apply Forall_app. split; auto.
Qed.

Lemma epoch_pass_record radius rate data : forall size i s, 0 < size -> stats size i s ->
  exists s', epoch_pass rows cols conn influence radius rate true data i s = Ok s' /\ stats size (i + length data) s'.
Proof.
  induction data as [|x t IH]; intros size i s Hs H; cbn [epoch_pass length].
  - exists s. rewrite Nat.add_0_r. auto.
  - destruct (competition_ok (s_weights s) x) as [k [E [Hk _]]].
    { destruct H as [H _]. destruct (s_weights s); simpl in *; [lia|congruence]. }
    rewrite E. cbn [bind].
    destruct (IH size (S i) (mk_som (adaptation rows cols conn influence radius rate k x (s_weights s))
      (upd (s_award s) k (S (nth k (s_award s) 0))) (push (s_captured s) k i)) Hs) as [s' [E' H']].
    + apply stats_push; auto; [|rewrite adaptation_length]; destruct H as [H _]; lia.
    + exists s'. split; [exact E'|]. replace (i + S (length t)) with (S i + length t) by lia. auto.
Qed.

Lemma epoch_pass_silent radius rate data : forall size i s, 0 < size -> length (s_weights s) = size ->
  exists w, epoch_pass rows cols conn influence radius rate false data i s = Ok (mk_som w (s_award s) (s_captured s)) /\
    length w = size.
Proof.
  induction data as [|x t IH]; intros size i s Hs H; cbn [epoch_pass].
  - exists (s_weights s). destruct s. auto.
  - destruct (competition_ok (s_weights s) x) as [k [E [Hk _]]].
    { destruct (s_weights s); simpl in *; [lia|congruence]. }
    rewrite E. cbn [bind].
    apply (IH size (S i) (mk_som (adaptation rows cols conn influence radius rate k x (s_weights s))
      (s_award s) (s_captured s)) Hs). cbn [s_weights]. now rewrite adaptation_length.
Qed.

Lemma repeat_map_const {A B} (l : list A) (v : B) : map (fun _ => v) l = repeat v (length l).
Proof. induction l; simpl; congruence. Qed.

Lemma concat_repeat_nil {A} n : concat (repeat (@nil A) n) = [].
Proof. induction n; simpl; auto. Qed.

Lemma stats_fresh size w : length w = size -> stats size 0 (mk_som w (repeat 0 size) (repeat [] size)).
Proof.
  intros H. split; [exact H|]. cbn [s_award s_captured]. split; [split; [apply repeat_length|split; [|split]]|].
  - unfold partitions. rewrite concat_repeat_nil. reflexivity.
  - apply Forall_forall. intros l Hl. apply repeat_spec in Hl. subst. constructor.
  - clear. induction size; simpl; congruence.
  - apply Forall_forall. intros l Hl. apply repeat_spec in Hl. subst. constructor.
Qed.

Variables (radius rate : nat -> Q) (threshold : Q).

Definition sized (size : nat) (s : som_state) : Prop :=
  length (s_weights s) = size /\ length (s_award s) = size /\ length (s_captured s) = size.

Lemma stats_sized size n s : stats size n s -> sized size s.
Proof. intros (H1 & (H2 & _ & _ & H3) & _). repeat split; auto. now rewrite H3, map_length. Qed.

Lemma clear_fresh size s : sized size s ->
  clear_statistics s = mk_som (s_weights s) (repeat 0 size) (repeat [] size).
Proof. intros (H1 & H2 & H3). unfold clear_statistics. rewrite !repeat_map_const. congruence. Qed.

Lemma train_loop_stats autostop data epochs size : 0 < size -> forall left epoch previous s,
  epoch + left = S epochs -> 0 < left -> sized size s ->
  (autostop = false -> s = mk_som (s_weights s) (repeat 0 size) (repeat [] size)) ->
  exists e s', train_loop rows cols conn influence radius rate threshold autostop data epochs epoch left previous s = Ok (e, s') /\
    epoch <= e <= epochs /\ (autostop = false -> e = epochs) /\ stats size (length data) s'.
Proof.
  intros Hsz. induction left as [|left IH]; intros epoch previous s He Hl Hs Hc; [lia|]. cbn [train_loop].
  destruct autostop.
  - rewrite (clear_fresh size s Hs). cbn [orb].
    destruct (epoch_pass_record (radius epoch) (rate epoch) data size 0
      (mk_som (s_weights s) (repeat 0 size) (repeat [] size)) Hsz) as [s1 [E1 H1]].
    { apply stats_fresh. apply Hs. }
    rewrite E1. cbn [bind]. cbn [Nat.add] in H1.
    assert (Hcont : exists e s', train_loop rows cols conn influence radius rate threshold true data epochs (S epoch) left
       (Some (s_weights s1)) s1 = Ok (e, s') /\ epoch <= e <= epochs /\ (true = false -> e = epochs) /\ stats size (length data) s').
    { destruct left as [|left].
      - cbn [train_loop]. exists epochs, s1. split; auto. split; [lia|auto].
      - destruct (IH (S epoch) (Some (s_weights s1)) s1) as [e [s' (E & B & F & G)]]; try lia; try discriminate.
        + eapply stats_sized; eauto.
        + exists e, s'. split; [exact E|]. split; [lia|auto]. }
    destruct previous as [w|]; auto. destruct (Qltb _ threshold); auto.
    exists epoch, s1. split; auto. split; [lia|]. split; [discriminate|auto].
  - cbn [orb]. specialize (Hc eq_refl).
    destruct (Nat.eqb_spec epoch epochs) as [->|Hne].
    + assert (left = 0) by lia. subst left.
      destruct (epoch_pass_record (radius epochs) (rate epochs) data size 0 s Hsz) as [s1 [E1 H1]].
      { rewrite Hc. apply stats_fresh. apply Hs. }
      rewrite E1. cbn [bind train_loop]. exists epochs, s1. split; auto.
    + destruct (epoch_pass_silent (radius epoch) (rate epoch) data size 0 s Hsz (proj1 Hs)) as [w [E1 H1]].
      rewrite E1. cbn [bind s_weights].
      destruct (IH (S epoch) (Some w) (mk_som w (s_award s) (s_captured s))) as [e [s' (E & B & F & G)]]; try lia.
      * rewrite Hc. repeat split; cbn; auto; apply repeat_length.
      * intros _. cbn [s_weights]. rewrite Hc. reflexivity.
      * exists e, s'. split; [exact E|]. split; [lia|auto].
Qed.

Lemma create_initial_ok init data : data <> [] ->
  exists w, create_initial_weights rows cols init data = Ok w /\ length w = rows * cols.
Proof.
  intros H. unfold create_initial_weights, dimension_width, dimension_center.
  destruct data as [|p t]; [congruence|]. unfold dimension_minmax. cbn [bind]. eexists. split; [reflexivity|].
  now rewrite map_length, seq_length.
Qed.

Theorem train_spec init data epochs autostop s : 0 < rows * cols -> data <> [] -> 1 <= epochs ->
  length (s_award s) = rows * cols -> length (s_captured s) = rows * cols ->
  exists e s', train rows cols conn influence radius rate threshold init data epochs autostop s = Ok (e, s') /\
    1 <= e <= epochs /\ (autostop = false -> e = epochs) /\ stats (rows * cols) (length data) s'.
Proof.
  intros Hs Hd He La Lc. unfold train. destruct (create_initial_ok init data Hd) as [w [E Lw]]. rewrite E. cbn [bind].
  unfold clear_statistics. cbn [s_award s_captured]. rewrite !repeat_map_const, La, Lc.
  apply train_loop_stats; auto; try lia.
  repeat split; cbn; auto; apply repeat_length.
Qed.

Lemma winners_count s size n : stats size n s ->
  get_winner_number s = length (filter nonempty (s_captured s)).
Proof.
  intros (_ & (_ & _ & _ & E) & _). unfold get_winner_number. rewrite E. clear E.
  assert (G : forall l k, fold_left (fun n a => if 0 <? a then S n else n) (map (@length nat) l) k =
                          k + length (filter nonempty l)).
  { induction l as [|c t IH]; intros k; simpl; [lia|]. rewrite IH. destruct c; simpl; lia. }
  now rewrite G.
Qed.

(** *** Weights stay in the box *)
Lemma within_move data D d k w x : d < D -> in_unit k -> In x data -> within data d w -> within data d (move D k w x).
Proof.
  intros Hd [K1 K2] Hx Hw lo hi H. pose proof (Hw lo hi H) as [W1 W2]. pose proof (H x Hx) as [X1 X2].
  unfold coord at 1 2, move. rewrite !nth_map_seq0 by auto.
  assert (A : (0 <= k * (coord x d - lo))%Q) by (apply Qmult_le_0_compat; lra).
  assert (B : (0 <= k * (hi - coord x d))%Q) by (apply Qmult_le_0_compat; lra).
  assert (C : (0 <= (1 - k) * (coord w d - lo))%Q) by (apply Qmult_le_0_compat; lra).
  assert (E : (0 <= (1 - k) * (hi - coord w d))%Q) by (apply Qmult_le_0_compat; lra).
  assert (F : (coord w d + k * (coord x d - coord w d) == k * (coord x d - lo) + (1 - k) * (coord w d - lo) + lo)%Q) by ring.
  assert (G : (coord w d + k * (coord x d - coord w d) == hi - k * (hi - coord x d) - (1 - k) * (hi - coord w d))%Q) by ring.
  split; [rewrite F|rewrite G]; lra.
Qed.

Definition inside (data : list point) (D : nat) (w : point) : Prop :=
  length w = D /\ forall d, d < D -> within data d w.

Hypothesis Hrate : forall e, in_unit (rate e).
Hypothesis Hinfl : forall d r, (0 <= d)%Q -> (d < r)%Q -> in_unit (influence d r).

Lemma unit_mult a b : in_unit a -> in_unit b -> in_unit (a * b).
Proof.
  intros [A1 A2] [B1 B2]. split; [apply Qmult_le_0_compat; auto|].
  assert (H : (0 <= a * (1 - b))%Q) by (apply Qmult_le_0_compat; lra).
  assert (E : (a * (1 - b) == a - a * b)%Q) by ring. rewrite E in H. lra.
Qed.

Lemma adaptation_inside data D e r index x weights : 0 < length weights -> In x data ->
  Forall (inside data D) weights ->
  Forall (inside data D) (adaptation rows cols conn influence r (rate e) index x weights).
Proof.
  intros Hl Hx H. apply (adaptation_forall (inside data D) D); auto.
  - destruct weights as [|w t]; simpl in *; [lia|]. inversion_clear H. apply H0.
  - intros w [L Hw]. split; [unfold move; now rewrite map_length, seq_length|]. intros d Hd. apply within_move; auto.
  - intros w k [L Hw] Hk. split; [unfold move; now rewrite map_length, seq_length|]. intros d Hd. apply within_move; auto.
    apply unit_mult; auto. destruct Hk as [->|[z (Z1 & Z2 & ->)]]; auto. split; lra.
Qed.

Lemma epoch_pass_inside all D e r rec data : forall i s s', 0 < length (s_weights s) ->
  (forall x, In x data -> In x all) -> Forall (inside all D) (s_weights s) ->
  epoch_pass rows cols conn influence r (rate e) rec data i s = Ok s' ->
  Forall (inside all D) (s_weights s') /\ 0 < length (s_weights s').
Proof.
  induction data as [|x t IH]; intros i s s' Hl Hx H E; cbn [epoch_pass] in E.
  - apply Ok_inj in E. subst. auto.
  - destruct (competition (s_weights s) x) as [k|] eqn:Ec; [|discriminate]. cbn [bind] in E.
    assert (Hf : Forall (inside all D) (adaptation rows cols conn influence r (rate e) k x (s_weights s)))
      by (apply adaptation_inside; auto; apply Hx; simpl; auto).
    assert (Hlen := adaptation_length r (rate e) k x (s_weights s)).
    eapply IH; [| |  |exact E].
    + destruct rec; cbn [s_weights]; lia.
    + intros y Hy. apply Hx. simpl. auto.
    + destruct rec; exact Hf.
Qed.

Lemma train_loop_inside autostop data D epochs : forall left epoch previous s e s', 0 < length (s_weights s) ->
  Forall (inside data D) (s_weights s) ->
  train_loop rows cols conn influence radius rate threshold autostop data epochs epoch left previous s = Ok (e, s') ->
  Forall (inside data D) (s_weights s').
Proof.
  induction left as [|left IH]; intros epoch previous s e s' Hl H E; cbn [train_loop] in E.
  - apply Ok_inj in E. injection E as _ <-. auto.
  - match type of E with context [epoch_pass _ _ _ _ ?r ?q ?b _ 0 ?st] =>
      set (s0 := st) in E; destruct (epoch_pass rows cols conn influence r q b data 0 s0) as [s1|] eqn:E1; [|discriminate] end.
    cbn [bind] in E.
    assert (H0 : 0 < length (s_weights s0) /\ Forall (inside data D) (s_weights s0))
      by (unfold s0; destruct autostop; auto).
    destruct H0 as [H0 H0'].
    destruct (epoch_pass_inside data D epoch (radius epoch) _ data 0 s0 s1 H0 (fun x h => h) H0' E1) as [H1 L1].
    destruct autostop; [destruct previous as [w|]|]; try (eapply IH; [exact L1|exact H1|exact E]).
    destruct (Qltb _ threshold); [|eapply IH; [exact L1|exact H1|exact E]].
    apply Ok_inj in E. injection E as _ <-. auto.
Qed.

Lemma location_0 index : coord (location cols index) 0 = inject_Z (Z.of_nat (index / cols)).
Proof. reflexivity. Qed.
Lemma location_1 index : coord (location cols index) 1 = inject_Z (Z.of_nat (index mod cols)).
Proof. reflexivity. Qed.

(** [lo + width / n * k] for [k <= n] lies between [lo] and [hi] *)
Lemma grid_between lo hi n k : (lo <= hi)%Q -> 0 < n -> k <= n ->
  (lo <= lo + (hi - lo) / inject_Z (Z.of_nat n) * inject_Z (Z.of_nat k) <= hi)%Q.
Proof.
  intros Hle Hn Hk.
  assert (Pn : (0 < inject_Z (Z.of_nat n))%Q) by (change 0%Q with (inject_Z 0); rewrite <- Zlt_Qlt; lia).
  assert (Pk : (0 <= inject_Z (Z.of_nat k))%Q) by (change 0%Q with (inject_Z 0); rewrite <- Zle_Qle; lia).
  assert (Pd : (inject_Z (Z.of_nat k) <= inject_Z (Z.of_nat n))%Q) by (rewrite <- Zle_Qle; lia).
  set (N := inject_Z (Z.of_nat n)) in *. set (K := inject_Z (Z.of_nat k)) in *.
  assert (Hi : (0 <= / N)%Q) by (apply Qlt_le_weak, Qinv_lt_0_compat; auto).
  assert (A : (0 <= (hi - lo) * (/ N * K))%Q) by (apply Qmult_le_0_compat; [lra|apply Qmult_le_0_compat; auto]).
  assert (B : (0 <= (hi - lo) * (/ N * (N - K)))%Q) by (apply Qmult_le_0_compat; [lra|apply Qmult_le_0_compat; auto; lra]).
  assert (E1 : (lo + (hi - lo) / N * K == lo + (hi - lo) * (/ N * K))%Q) by (unfold Qdiv; ring).
  assert (E2 : (lo + (hi - lo) / N * K == hi - (hi - lo) * (/ N * (N - K)))%Q) by (field; lra).
  split; [rewrite E1|rewrite E2]; lra.
Qed.

Lemma initial_inside init data D w : data <> [] -> (forall p, In p data -> length p = D) ->
  on_surface D (rows * cols) init ->
  create_initial_weights rows cols init data = Ok w -> Forall (inside data D) w.
Proof.
  intros Hne Hd Hs E. destruct (dimension_minmax_spec data D Hne Hd) as [[lo hi] [Em (L1 & L2 & Ht)]]. cbn [fst snd] in *.
  assert (Hh : length (hd [] data) = D) by (destruct data; [congruence|apply Hd; simpl; auto]).
  unfold create_initial_weights, dimension_width, dimension_center in E. rewrite Em, Hh in E. cbn [bind fst snd] in E.
  apply Ok_inj in E. subst w. apply Forall_forall. intros w Hw. apply in_map_iff in Hw as [i [<- Hi]]. apply in_seq in Hi.
  split; [now rewrite map_length, seq_length|]. intros d Hdd a b Hab.
  rewrite coord_map by auto.
  destruct (Ht d Hdd) as [[p [Pp Ep]] [[q [Pq Eq]] Hbox]].
  pose proof (Hab p Pp) as B1. pose proof (Hab q Pq) as B2. rewrite Ep in B1. rewrite Eq in B2.
  assert (Hlh : (coord lo d <= coord hi d)%Q) by (specialize (Hbox p Pp); lra).
  assert (G : (coord lo d <= match init with
     | UniformGrid => grid_coord rows cols lo (map (fun d => (coord hi d - coord lo d)%Q) (seq 0 D))
          (map (fun d => ((coord hi d + coord lo d) / 2)%Q) (seq 0 D)) i d
     | RandomSurface draws => coord lo d + (coord hi d - coord lo d) * coord (nth i draws []) d
     | RandomCentroid draws => coord (nth i draws []) d + coord (map (fun d => ((coord hi d + coord lo d) / 2)%Q) (seq 0 D)) d
     | Random draws => coord (nth i draws []) d end <= coord hi d)%Q).
  { destruct init as [|draws|draws|draws]; try contradiction.
    - assert (Hc : forall z, z < D -> (coord (map (fun d => ((coord hi d + coord lo d) / 2)%Q) (seq 0 D)) z == (coord hi z + coord lo z) * (1#2))%Q).
      { intros z Hz. unfold coord at 1. rewrite nth_map_seq0 by auto. field. }
      assert (Hcols : cols <> 0) by (intros ->; lia).
      unfold grid_coord. destruct d as [|[|d]].
      + destruct (Nat.ltb_spec 1 rows) as [Hr|Hr]; [|rewrite Hc by auto; lra].
        rewrite coord_map, location_0 by auto.
        apply grid_between; auto; try lia.
        assert (i / cols < rows) by (apply Nat.div_lt_upper_bound; lia). lia.
      + destruct (Nat.ltb_spec 1 cols) as [Hr|Hr]; [|rewrite Hc by auto; lra].
        rewrite coord_map, location_1 by auto.
        apply grid_between; auto; try lia.
        pose proof (Nat.mod_upper_bound i cols Hcols). lia.
      + rewrite Hc by auto. lra.
    - destruct (Hs i d) as [U1 U2]; [lia|auto|].
      set (u := coord (nth i draws []) d) in *.
      assert (A : (0 <= (coord hi d - coord lo d) * u)%Q) by (apply Qmult_le_0_compat; lra).
      assert (B : (0 <= (coord hi d - coord lo d) * (1 - u))%Q) by (apply Qmult_le_0_compat; lra).
      assert (C : ((coord hi d - coord lo d) * (1 - u) == (coord hi d - coord lo d) - (coord hi d - coord lo d) * u)%Q) by ring.
      rewrite C in B. lra. }
  destruct G as [G1 G2]. split; [eapply Qle_trans; [apply B1|exact G1]|eapply Qle_trans; [exact G2|apply B2]].
Qed.

Theorem train_inside init data D epochs autostop s e s' : 0 < rows * cols -> data <> [] ->
  (forall p, In p data -> length p = D) -> on_surface D (rows * cols) init ->
  train rows cols conn influence radius rate threshold init data epochs autostop s = Ok (e, s') ->
  Forall (inside data D) (s_weights s').
Proof.
  intros Hs Hne Hd Hi E. unfold train in E.
  destruct (create_initial_ok init data Hne) as [w [Ew Lw]]. rewrite Ew in E. cbn [bind] in E.
  eapply train_loop_inside; [| |exact E]; cbn [s_weights]; [lia|]. eapply initial_inside; eauto.
Qed.

End Adapt.

(** *** Distance matrix *)
Lemma collect_ok {A} (l : list (res A)) (d : A) : (forall r, In r l -> exists a, r = Ok a) ->
  exists v, collect l = Ok v /\ length v = length l /\ forall i, i < length l -> nth i l (Ok d) = Ok (nth i v d).
Proof.
  induction l as [|r t IH]; intros H; simpl.
  - exists []. repeat split; auto. intros i Hi. lia.
  - destruct (H r (or_introl eq_refl)) as [a ->]. destruct IH as [v (E & L & N)]; [intros r Hr; apply H; simpl; auto|].
    rewrite E. cbn [bind]. exists (a :: v). simpl. repeat split; auto. intros [|i] Hi; auto. apply N. lia.
Qed.

(** the connections the distance matrix looks at *)
Definition matrix_conn (conn : som_conn) : som_conn := match conn with SFuncNeighbor => SGridEight | _ => conn end.

Lemma has_neighbour conn rows cols i : 2 <= rows * cols -> i < rows * cols ->
  nth i (som_create_connections (matrix_conn conn) rows cols) [] <> [].
Proof.
  intros H2 Hi. unfold som_create_connections. rewrite nth_map_seq0 by auto.
  assert (Hc : (0 < Z.of_nat cols)%Z) by (destruct cols; lia).
  assert (W : exists j, (0 <= j < Z.of_nat rows * Z.of_nat cols)%Z /\ adjacent (matrix_conn conn) (Z.of_nat cols) (Z.of_nat i) j).
  { destruct (le_lt_dec cols 1) as [Hle|Hlt].
    - assert (cols = 1) by lia. subst cols. rewrite Nat.mul_1_r in *.
      assert (A : forall x, row (Z.of_nat 1) x = x) by (intros x; unfold row; apply Z.div_1_r).
      assert (B : forall x, col (Z.of_nat 1) x = 0%Z) by (intros x; unfold col; apply Z.mod_1_r).
      assert (M : forall x, ((x + 1) mod 2 = 1 - x mod 2)%Z) by (intros x; pose proof (Z.mod_pos_bound x 2); pose proof (Z.div_mod x 2); pose proof (Z.mod_pos_bound (x + 1) 2); pose proof (Z.div_mod (x + 1) 2); lia).
      destruct i as [|i].
      + exists 1%Z. split; [lia|]. destruct conn; cbn [matrix_conn adjacent]; unfold adjacent_four, adjacent_eight, adjacent_hex, hex_x; rewrite ?A, ?B; simpl; lia.
      + exists (Z.of_nat i). split; [lia|]. specialize (M (Z.of_nat i)).
        pose proof (Z.mod_pos_bound (Z.of_nat i) 2).
        destruct conn; cbn [matrix_conn adjacent]; unfold adjacent_four, adjacent_eight, adjacent_hex, hex_x; rewrite ?A, ?B; rewrite ?Nat2Z.inj_succ; unfold Z.succ; lia.
    - set (c := (Z.of_nat cols)) in *.
      assert (E := Z.div_mod (Z.of_nat i) c). assert (Bd := Z.mod_pos_bound (Z.of_nat i) c Hc).
      set (r := (Z.of_nat i / c)%Z) in *. set (q := (Z.of_nat i mod c)%Z) in *.
      assert (W : exists q', (0 <= q' < c)%Z /\ (Z.abs (q - q') = 1)%Z).
      { destruct (Z.eq_dec q 0) as [Hz|Hz]; [exists 1%Z|exists (q - 1)%Z]; lia. }
      destruct W as [q' [Bq Hq]]. exists (r * c + q')%Z.
      assert (Rr : row c (r * c + q') = r) by (unfold row; symmetry; apply (Z.div_unique_pos _ _ _ q'); lia).
      assert (Rc : col c (r * c + q') = q') by (unfold col; symmetry; apply (Z.mod_unique_pos _ _ r q'); lia).
      assert (Ir : row c (Z.of_nat i) = r) by reflexivity. assert (Ic : col c (Z.of_nat i) = q) by reflexivity.
      split.
      + assert (0 <= r < Z.of_nat rows)%Z.
        { split; [apply Z.div_pos; lia|]. apply Z.div_lt_upper_bound; [lia|]. unfold c. lia. }
        nia.
      + destruct conn; cbn [matrix_conn adjacent]; unfold adjacent_four, adjacent_eight, adjacent_hex, hex_x; rewrite ?Rr, ?Rc, ?Ir, ?Ic; lia. }
  destruct W as [j [Hj Ha]]. intros En.
  assert (Hin : In j []) by (rewrite <- En; apply som_spec; [exact Hc|lia|auto]). contradiction.
Qed.

Theorem distance_matrix_spec conn rows cols s : 2 <= rows * cols ->
  exists m, get_distance_matrix rows cols conn s = Ok m /\ length m = rows /\
    forall i j, i < rows -> j < cols -> exists N, NoDup N /\ N <> [] /\
      (forall k, In k N <-> k < rows * cols /\
         adjacent (matrix_conn conn) (Z.of_nat cols) (Z.of_nat (i * cols + j)) (Z.of_nat k)) /\
      (nth j (nth i m []) 0 * inject_Z (Z.of_nat (length N)) ==
       qsum (map (fun k => sqdist (nth (i * cols + j) (s_weights s) []) (nth k (s_weights s) [])) N))%Q.
Proof.
  intros H2. unfold get_distance_matrix. fold (matrix_conn conn).
  set (nb := fun index => map Z.to_nat (nth index (som_create_connections (matrix_conn conn) rows cols) [])).
  set (entry := fun i j => distance_entry (s_weights s) (nb (i * cols + j)) (i * cols + j)).
  assert (Hidx : forall i j, i < rows -> j < cols -> i * cols + j < rows * cols) by (intros i j Hi Hj; nia).
  assert (Hnb : forall i j, i < rows -> j < cols -> nb (i * cols + j) <> []).
  { intros i j Hi Hj. unfold nb. intros E. apply map_eq_nil in E. revert E. apply has_neighbour; auto. }
  assert (He : forall i j, i < rows -> j < cols -> exists v, entry i j = Ok v).
  { intros i j Hi Hj. unfold entry, distance_entry. destruct (nb (i * cols + j)) eqn:E; [exfalso; eapply Hnb; eauto|]. eexists. reflexivity. }
  assert (Hrow : forall i, i < rows -> exists v, collect (map (entry i) (seq 0 cols)) = Ok v /\ length v = cols /\
     forall j, j < cols -> entry i j = Ok (nth j v 0%Q)).
  { intros i Hi. destruct (collect_ok (map (entry i) (seq 0 cols)) 0%Q) as [v (E & L & N)].
    - intros r Hr. apply in_map_iff in Hr as [j [<- Hj]]. apply in_seq in Hj. apply He; lia.
    - rewrite map_length, seq_length in L, N. exists v. repeat split; auto. intros j Hj. specialize (N j Hj).
      rewrite nth_map_seq0 in N by auto. auto. }
  destruct (collect_ok (map (fun i => collect (map (entry i) (seq 0 cols))) (seq 0 rows)) []) as [m (E & L & N)].
  { intros r Hr. apply in_map_iff in Hr as [i [<- Hi]]. apply in_seq in Hi. destruct (Hrow i) as [v [Ev _]]; [lia|]. eauto. }
  rewrite map_length, seq_length in L, N. exists m. split; [exact E|]. split; [exact L|].
  intros i j Hi Hj. exists (nb (i * cols + j)).
  specialize (N i Hi). rewrite nth_map_seq0 in N by auto.
  destruct (Hrow i Hi) as [v (Ev & Lv & Nv)]. rewrite Ev in N. apply Ok_inj in N. rewrite <- N.
  specialize (Nv j Hj). specialize (Hidx i j Hi Hj). specialize (Hnb i j Hi Hj).
  assert (Hc : (0 < Z.of_nat cols)%Z) by lia.
  assert (Hspec : forall z, In z (nth (i * cols + j) (som_create_connections (matrix_conn conn) rows cols) []) <->
     (0 <= z < Z.of_nat rows * Z.of_nat cols)%Z /\ adjacent (matrix_conn conn) (Z.of_nat cols) (Z.of_nat (i * cols + j)) z).
  { intros z. unfold som_create_connections. rewrite nth_map_seq0 by auto. apply som_spec; [exact Hc|lia]. }
  split; [|split; [exact Hnb|split]].
  - unfold nb. assert (Hnd : NoDup (nth (i * cols + j) (som_create_connections (matrix_conn conn) rows cols) [])).
    { unfold som_create_connections. rewrite nth_map_seq0 by auto. apply som_nodup. exact Hc. }
    assert (Hpos : forall z, In z (nth (i * cols + j) (som_create_connections (matrix_conn conn) rows cols) []) -> (0 <= z)%Z).
    { intros z Hz. apply Hspec in Hz. lia. }
    revert Hnd Hpos. generalize (nth (i * cols + j) (som_create_connections (matrix_conn conn) rows cols) []). clear.
    intros l0 Hnd. induction Hnd as [|z l Hz Hnd IH]; intros Hpos; simpl; constructor.
    + intros Hin. apply in_map_iff in Hin as [y [Ey Hy]]. apply Hz. replace z with y; auto.
      apply Z2Nat.inj; auto; apply Hpos; simpl; auto.
    + apply IH. intros y Hy. apply Hpos. simpl. auto.
  - intros k. unfold nb. rewrite in_map_iff. split.
    + intros [z [<- Hz]]. apply Hspec in Hz as [Hz1 Hz2]. rewrite Z2Nat.id by lia. split; auto. lia.
    + intros [Hk Ha]. exists (Z.of_nat k). split; [apply Nat2Z.id|]. apply Hspec. split; [lia|auto].
  - unfold entry, distance_entry in Nv. destruct (nb (i * cols + j)) as [|n0 t] eqn:En; [congruence|].
    apply Ok_inj in Nv. rewrite <- Nv. rewrite <- sumQ_qsum.
    rewrite Qmult_comm. apply Qmult_div_r. intros Hz. change 0%Q with (inject_Z 0) in Hz. apply (proj1 (inject_Z_injective _ _)) in Hz. simpl in Hz. lia.
Qed.

(** *** Density matrix *)
Lemma fold_extreme_max l : forall m, let r := fold_left (fun m v => if Qltb m v then v else m) l m in
  (r = m \/ In r l) /\ (m <= r)%Q /\ forall v, In v l -> (v <= r)%Q.
Proof.
  induction l as [|v t IH]; intros m; cbn [fold_left].
  - split; auto. split; [apply Qle_refl|]. intros v [].
  - destruct (IH (if Qltb m v then v else m)) as (A & B & C). destruct (Qltb m v) eqn:E.
    + apply Qltb_true in E. split; [destruct A as [A|A]; [right; left; symmetry; exact A|right; right; exact A]|].
      split; [lra|]. intros w [<-|Hw]; auto.
    + apply Qltb_false in E. split; [destruct A as [A|A]; [left; exact A|right; right; exact A]|].
      split; [exact B|]. intros w [<-|Hw]; [lra|auto].
Qed.

Lemma fold_extreme_min l : forall m, let r := fold_left (fun m v => if Qltb v m then v else m) l m in
  (r = m \/ In r l) /\ (r <= m)%Q /\ forall v, In v l -> (r <= v)%Q.
Proof.
  induction l as [|v t IH]; intros m; cbn [fold_left].
  - split; auto. split; [apply Qle_refl|]. intros v [].
  - destruct (IH (if Qltb v m then v else m)) as (A & B & C). destruct (Qltb v m) eqn:E.
    + apply Qltb_true in E. split; [destruct A as [A|A]; [right; left; symmetry; exact A|right; right; exact A]|].
      split; [lra|]. intros w [<-|Hw]; auto.
    + apply Qltb_false in E. split; [destruct A as [A|A]; [left; exact A|right; right; exact A]|].
      split; [exact B|]. intros w [<-|Hw]; [lra|auto].
Qed.

Lemma weights_extent_tight weights d : weights <> [] ->
  tight weights d (fst (weights_extent weights d)) (snd (weights_extent weights d)).
Proof.
  intros H. destruct weights as [|w t]; [congruence|]. unfold weights_extent. cbn [fst snd].
  set (col := map (fun w => coord w d) (w :: t)).
  destruct (fold_extreme_min col (hd 0%Q col)) as (A1 & _ & C1). destruct (fold_extreme_max col (hd 0%Q col)) as (A2 & _ & C2).
  assert (Hh : In (hd 0%Q col) col) by (simpl; auto).
  assert (P : forall v, In v col -> exists p, In p (w :: t) /\ coord p d = v).
  { intros v Hv. apply in_map_iff in Hv as [p [E Hp]]. eauto. }
  split; [apply P; destruct A1 as [->|A1]; auto|]. split; [apply P; destruct A2 as [->|A2]; auto|].
  intros p Hp. assert (In (coord p d) col) by (apply in_map_iff; eauto). split; auto.
Qed.

Lemma point_covered_spec p : forall w radius, length p = length w -> length radius = length w ->
  (point_covered p w radius = true <-> forall d, d < length w -> (Qabs (coord p d - coord w d) <= coord radius d)%Q).
Proof.
  induction p as [|a p IH]; intros [|b w] [|r radius] H1 H2; simpl in H1, H2; try lia; cbn [point_covered].
  - split; auto. intros _ d Hd. simpl in Hd. lia.
  - destruct (Qltb r (Qabs (a - b))) eqn:E.
    + apply Qltb_true in E. split; [discriminate|]. intros H. specialize (H 0 ltac:(simpl; lia)). change (Qabs (a - b) <= r)%Q in H. lra.
    + apply Qltb_false in E. rewrite IH by lia. split.
      * intros H [|d] Hd; [exact E|]. apply (H d). simpl in Hd. lia.
      * intros H d Hd. apply (H (S d)). simpl. lia.
Qed.

Definition matrix_at (m : list (list nat)) (i j : nat) : nat := nth j (nth i m []) 0.

Definition shaped (rows cols : nat) (m : list (list nat)) : Prop :=
  length m = rows /\ forall i, i < rows -> length (nth i m []) = cols.

Lemma bump_shape rows cols m r c : shaped rows cols m ->
  shaped rows cols (upd m r (upd (nth r m []) c (S (nth c (nth r m []) 0)))).
Proof.
  intros [L H]. split; [now rewrite upd_length|]. intros i Hi. rewrite upd_nth.
  destruct ((r =? i) && (r <? length m)) eqn:E; auto.
  apply andb_prop in E as [E _]. apply Nat.eqb_eq in E. subst. rewrite upd_length. auto.
Qed.

Lemma bump_at rows cols m r c i j : shaped rows cols m -> r < rows -> c < cols ->
  matrix_at (upd m r (upd (nth r m []) c (S (nth c (nth r m []) 0)))) i j =
  matrix_at m i j + (if (r =? i) && (c =? j) then 1 else 0).
Proof.
  intros [L H] Hr Hc. unfold matrix_at. rewrite upd_nth. replace (r <? length m) with true by (symmetry; apply Nat.ltb_lt; lia).
  rewrite andb_true_r. destruct (Nat.eqb_spec r i) as [<-|Hne]; simpl; [|lia].
  rewrite upd_nth. replace (c <? length (nth r m [])) with true by (symmetry; apply Nat.ltb_lt; rewrite H; lia).
  rewrite andb_true_r. destruct (Nat.eqb_spec c j) as [<-|Hne]; lia.
Qed.

Lemma neurons_fold rows cols (cov : nat -> bool) : 0 < cols -> forall l m, shaped rows cols m ->
  (forall n, In n l -> n < rows * cols) ->
  let m' := fold_left (fun m index => if cov index
       then upd m (index / cols) (upd (nth (index / cols) m []) (index - index / cols * cols)
              (S (nth (index - index / cols * cols) (nth (index / cols) m []) 0))) else m) l m in
  shaped rows cols m' /\
  forall i j, i < rows -> j < cols -> matrix_at m' i j =
    matrix_at m i j + length (filter (fun n => cov n && (n =? i * cols + j)) l).
Proof.
  intros Hc. induction l as [|n t IH]; intros m Hm Hl; cbn [fold_left].
  - split; auto.
  - assert (Hn : n < rows * cols) by (apply Hl; simpl; auto).
    assert (Ht : forall n, In n t -> n < rows * cols) by (intros; apply Hl; simpl; auto).
    destruct (cov n) eqn:Ecov.
    + assert (Hr : n / cols < rows) by (apply Nat.div_lt_upper_bound; lia).
      pose proof (Nat.div_mod n cols ltac:(lia)) as Hdm. pose proof (Nat.mod_upper_bound n cols ltac:(lia)) as Hmb.
      assert (Hcc : n - n / cols * cols < cols) by nia.
      destruct (IH _ (bump_shape rows cols m (n / cols) (n - n / cols * cols) Hm) Ht) as [A B].
      split; [exact A|]. intros i j Hi Hj. rewrite (B i j Hi Hj). rewrite (bump_at rows cols) by auto.
      cbn [filter]. rewrite Ecov. cbn [andb].
      assert (Heq : ((n / cols =? i) && (n - n / cols * cols =? j)) = (n =? i * cols + j)).
      { destruct (Nat.eqb_spec n (i * cols + j)) as [->|Hne].
        - rewrite Nat.div_add_l by lia. rewrite (Nat.div_small j) by auto. rewrite Nat.add_0_r, Nat.eqb_refl. simpl.
          apply Nat.eqb_eq. lia.
        - apply andb_false_iff. destruct (Nat.eqb_spec (n / cols) i) as [<-|]; auto. right. apply Nat.eqb_neq. nia. }
      rewrite Heq. destruct (n =? i * cols + j); simpl; lia.
    + destruct (IH m Hm Ht) as [A B]. split; [exact A|]. intros i j Hi Hj. rewrite (B i j Hi Hj). cbn [filter]. rewrite Ecov. reflexivity.
Qed.

Lemma filter_single (cov : nat -> bool) k n : k < n ->
  length (filter (fun x => cov x && (x =? k)) (seq 0 n)) = if cov k then 1 else 0.
Proof.
  intros H. replace n with (k + S (n - S k)) by lia. rewrite seq_app, filter_app, app_length. cbn [seq filter Nat.add].
  rewrite Nat.eqb_refl, andb_true_r.
  assert (Z : forall a b, (forall x, In x (seq a b) -> x <> k) -> filter (fun x => cov x && (x =? k)) (seq a b) = []).
  { intros a b Hx. assert (Hs : forall l, (forall x, In x l -> x <> k) -> filter (fun x => cov x && (x =? k)) l = []).
    { induction l as [|y t IH]; intros Hl; simpl; auto. replace (y =? k) with false by (symmetry; apply Nat.eqb_neq, Hl; simpl; auto).
      rewrite andb_false_r. apply IH. intros; apply Hl; simpl; auto. }
    apply Hs; auto. }
  rewrite (Z 0 k) by (intros x Hx; apply in_seq in Hx; lia).
  destruct (cov k); cbn [length]; rewrite Z by (intros x Hx; apply in_seq in Hx; lia); reflexivity.
Qed.

Lemma points_fold rows cols (cov : point -> nat -> bool) : 0 < cols -> forall data m, shaped rows cols m ->
  let m' := fold_left (fun m p => fold_left (fun m index => if cov p index
       then upd m (index / cols) (upd (nth (index / cols) m []) (index - index / cols * cols)
              (S (nth (index - index / cols * cols) (nth (index / cols) m []) 0))) else m) (seq 0 (rows * cols)) m) data m in
  shaped rows cols m' /\
  forall i j, i < rows -> j < cols -> matrix_at m' i j =
    matrix_at m i j + length (filter (fun p => cov p (i * cols + j)) data).
Proof.
  intros Hc. induction data as [|p t IH]; intros m Hm; cbn [fold_left].
  - split; [auto|]. intros i j _ _. simpl. lia.
  - destruct (neurons_fold rows cols (cov p) Hc (seq 0 (rows * cols)) m Hm) as [A B]; [intros n Hn; apply in_seq in Hn; lia|].
    destruct (IH _ A) as [A2 B2]. split; [exact A2|]. intros i j Hi Hj. rewrite (B2 i j Hi Hj), (B i j Hi Hj).
    rewrite filter_single by nia. cbn [filter]. destruct (cov p (i * cols + j)); simpl; lia.
Qed.

Lemma repeat_shaped rows cols : shaped rows cols (repeat (repeat 0 cols) rows).
Proof.
  split; [apply repeat_length|]. intros i Hi.
  assert (Hin : In (nth i (repeat (repeat 0 cols) rows) []) (repeat (repeat 0 cols) rows)) by (apply nth_In; rewrite repeat_length; auto).
  apply repeat_spec in Hin. rewrite Hin. apply repeat_length.
Qed.

Lemma repeat_at rows cols i j : matrix_at (repeat (repeat 0 cols) rows) i j = 0.
Proof.
  unfold matrix_at. destruct (le_lt_dec rows i) as [H|H].
  - rewrite (nth_overflow (repeat (repeat 0 cols) rows)) by (rewrite repeat_length; auto). destruct j; auto.
  - assert (Hin : In (nth i (repeat (repeat 0 cols) rows) []) (repeat (repeat 0 cols) rows)) by (apply nth_In; rewrite repeat_length; auto).
    apply repeat_spec in Hin. rewrite Hin. apply nth_repeat.
Qed.

Theorem density_matrix_spec rows cols divider data s D : 0 < cols -> s_weights s <> [] -> length (s_weights s) = rows * cols ->
  (forall w, In w (s_weights s) -> length w = D) -> (forall p, In p data -> length p = D) ->
  exists m, get_density_matrix rows cols divider data s = Ok m /\ length m = rows /\ (forall i, i < rows -> length (nth i m []) = cols) /\
    exists lo hi, (forall d, d < D -> tight (s_weights s) d (lo d) (hi d)) /\
    forall i j, i < rows -> j < cols -> exists covered, nth j (nth i m []) 0 = length (filter covered data) /\
      forall p, In p data -> (covered p = true <->
        forall d, d < D -> (Qabs (coord p d - coord (nth (i * cols + j) (s_weights s) []) d) <= (hi d - lo d) / divider)%Q).
Proof.
  intros Hc Hne Lw Hw Hp. unfold get_density_matrix. destruct (s_weights s) as [|w0 ws] eqn:Es; [congruence|]. rewrite <- Es in *.
  set (radius := map (fun d => let e := weights_extent (s_weights s) d in ((snd e - fst e) / divider)%Q) (seq 0 (length w0))).
  assert (L0 : length w0 = D) by (apply Hw; rewrite Es; simpl; auto).
  destruct (points_fold rows cols (fun p index => point_covered p (nth index (s_weights s) []) radius) Hc data _ (repeat_shaped rows cols)) as [[A1 A2] B].
  eexists. split; [reflexivity|]. split; [exact A1|]. split; [exact A2|].
  exists (fun d => fst (weights_extent (s_weights s) d)), (fun d => snd (weights_extent (s_weights s) d)). split.
  - intros d _. apply weights_extent_tight; auto.
  - intros i j Hi Hj. exists (fun p => point_covered p (nth (i * cols + j) (s_weights s) []) radius). split.
    + specialize (B i j Hi Hj). unfold matrix_at in B at 1. rewrite repeat_at in B. exact B.
    + intros p Hpp.
      assert (Lwn : length (nth (i * cols + j) (s_weights s) []) = D) by (apply Hw, nth_In; rewrite Lw; nia).
      rewrite point_covered_spec by (unfold radius; rewrite ?map_length, ?seq_length; rewrite ?(Hp p Hpp); congruence).
      rewrite Lwn. split; intros H d Hd; specialize (H d Hd); unfold radius in *; rewrite coord_map in *; try lia; exact H.
Qed.
