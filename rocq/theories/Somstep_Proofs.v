(** What one adaptation of the self-organised map does, and when the training with autostop ends. *)
From Verif Require Import Base Kmeans_Model Kmeans_Proofs Small_Model Topology_Model Topology_Proofs Som_Model Som_Proofs.

(** * Specification *)
(** [w'] is [w] moved towards [x] by the share [k] *)
Definition moved (D : nat) (k : Q) (w x w' : point) : Prop :=
  length w' = D /\ forall i, i < D -> (coord w' i == coord w i + k * (coord x i - coord w i))%Q.

(** no coordinate of a weight differs by the threshold or more *)
Definition small_change (size D : nat) (threshold : Q) (w w' : list point) : Prop :=
  forall n d, n < size -> d < D -> (Qabs (coord (nth n w []) d - coord (nth n w' []) d) < threshold)%Q.

(** all weights after neuron [index] of the [rows] x [cols] map has been adapted to [x]: the winner takes the share [rate], a neuron
    beside it and within the radius a share that depends on the distance, the others nothing; without fixed neighbours
    every neuron within the radius takes part.  Distances are squared distances in the grid. *)
Definition grid_distance (cols i j : nat) : Q :=
  inject_Z ((Z.of_nat (i / cols) - Z.of_nat (j / cols)) ^ 2 + (Z.of_nat (i mod cols) - Z.of_nat (j mod cols)) ^ 2).
Definition share_of (cols : nat) (conn : som_conn) (influence : Q -> Q -> Q) (radius rate : Q) (index j : nat) (k : Q) : Prop :=
  let near := (grid_distance cols index j < radius)%Q in
  let distance := grid_distance cols index j in
  match conn with
  | SFuncNeighbor => near /\ (k == rate * influence distance radius)%Q
  | _ => (j = index /\ (k == rate)%Q) \/
         (adjacent conn (Z.of_nat cols) (Z.of_nat index) (Z.of_nat j) /\ near /\ (k == rate * influence distance radius)%Q)
  end.
Definition adapted (rows cols : nat) (conn : som_conn) (influence : Q -> Q -> Q) (D : nat) (radius rate : Q) (index : nat) (x : point)
    (w w' : list point) : Prop :=
  length w' = rows * cols /\
  forall j, j < rows * cols ->
    (forall k, share_of cols conn influence radius rate index j k -> moved D k (nth j w []) x (nth j w' [])) /\
    ((forall k, ~ share_of cols conn influence radius rate index j k) -> nth j w' [] = nth j w []).

(** the points are presented one after the other, each to a neuron whose weights are nearest at that time *)
Inductive presented (rows cols : nat) (conn : som_conn) (influence : Q -> Q -> Q) (D : nat) (radius rate : Q) :
    list point -> list point -> list point -> Prop :=
| presented_none w : presented rows cols conn influence D radius rate [] w w
| presented_next x data index w w1 w' : index < rows * cols ->
    (forall j, j < rows * cols -> (sqdist (nth index w []) x <= sqdist (nth j w []) x)%Q) ->
    adapted rows cols conn influence D radius rate index x w w1 ->
    presented rows cols conn influence D radius rate data w1 w' ->
    presented rows cols conn influence D radius rate (x :: data) w w'.

(** * Adaptation *)
Section Step.
Variables (rows cols : nat) (conn : som_conn) (influence : Q -> Q -> Q).

Lemma attract_nth D radius rate index (x : point) : forall l (ws : list point) j, NoDup l -> (forall k, In k l -> k < length ws) ->
  nth j (fold_left (fun ws j => if Qltb (loc_distance cols index j) radius
      then upd ws j (move D (rate * influence (loc_distance cols index j) radius) (nth j ws []) x) else ws) l ws) [] =
  if existsb (Nat.eqb j) l && Qltb (loc_distance cols index j) radius
  then move D (rate * influence (loc_distance cols index j) radius) (nth j ws []) x else nth j ws [].
Proof.
  induction l as [|k l IH]; intros ws j N Hl; [reflexivity|]. cbn [fold_left existsb]. inversion_clear N as [|? ? Nk Nl].
  assert (Hk : k < length ws) by (apply Hl; now left).
  rewrite IH; auto; [|intros i Hi; destruct (Qltb _ _); rewrite ?upd_length; apply Hl; now right].
  destruct (Nat.eqb_spec j k) as [->|Hn]; cbn [orb].
  - assert (existsb (Nat.eqb k) l = false) as ->.
    { apply Bool.not_true_is_false. intros H. apply existsb_exists in H as (i & Hi & E). apply Nat.eqb_eq in E. subst. contradiction. }
    cbn [andb]. destruct (Qltb _ _); auto. now rewrite upd_nth_eq.
  - destruct (Qltb (loc_distance cols index k) radius); [rewrite upd_nth_neq by auto|]; reflexivity.
Qed.

Lemma move_moved D k w x : moved D k w x (move D k w x).
Proof.
  unfold move. split; [now rewrite map_length, seq_length|]. intros i Hi. unfold coord at 1. rewrite nth_map_seq0 by auto. reflexivity.
Qed.

Lemma to_nat_nodup l : NoDup l -> (forall z, In z l -> (0 <= z)%Z) -> NoDup (map Z.to_nat l).
Proof.
  induction 1 as [|z l Hz Hnd IH]; intros Hpos; simpl; constructor.
  - intros Hin. apply in_map_iff in Hin as [y [Ey Hy]]. apply Hz. replace z with y; auto. apply Z2Nat.inj; auto; apply Hpos; simpl; auto.
  - apply IH. intros y Hy. apply Hpos. simpl. auto.
Qed.

Lemma neighbors_spec index : index < rows * cols ->
  let l := map Z.to_nat (nth index (som_create_connections conn rows cols) []) in
  NoDup l /\ forall k, In k l <-> k < rows * cols /\ adjacent conn (Z.of_nat cols) (Z.of_nat index) (Z.of_nat k).
Proof.
  intros Hi. cbv zeta. assert (Hc : (0 < Z.of_nat cols)%Z) by (destruct cols; lia).
  assert (Hspec : forall z, In z (nth index (som_create_connections conn rows cols) []) <->
     (0 <= z < Z.of_nat rows * Z.of_nat cols)%Z /\ adjacent conn (Z.of_nat cols) (Z.of_nat index) z).
  { intros z. unfold som_create_connections. rewrite nth_map_seq0 by auto. apply som_spec; [exact Hc|lia]. }
  split.
  - apply to_nat_nodup; [unfold som_create_connections; rewrite nth_map_seq0 by auto; apply som_nodup; exact Hc|].
    intros z Hz. apply Hspec in Hz. lia.
  - intros k. rewrite in_map_iff. split.
    + intros [z [<- Hz]]. apply Hspec in Hz as [Hz1 Hz2]. rewrite Z2Nat.id by lia. split; auto. lia.
    + intros [Hk Ha]. exists (Z.of_nat k). split; [apply Nat2Z.id|]. apply Hspec. split; [lia|auto].
Qed.

Lemma not_adjacent_self i : ~ adjacent conn (Z.of_nat cols) (Z.of_nat i) (Z.of_nat i).
Proof. unfold adjacent, adjacent_four, adjacent_eight, adjacent_hex. destruct conn; lia. Qed.

Lemma classic_adjacent c a i j : adjacent c a i j \/ ~ adjacent c a i j.
Proof. unfold adjacent, adjacent_four, adjacent_eight, adjacent_hex. destruct c; lia. Qed.

Lemma existsb_eqb j l : existsb (Nat.eqb j) l = true <-> In j l.
Proof.
  rewrite existsb_exists. split; [intros (i & Hi & E); apply Nat.eqb_eq in E; now subst|]. intros H. exists j. split; auto. apply Nat.eqb_refl.
Qed.

Theorem adaptation_spec D radius rate index x weights j : index < rows * cols -> j < rows * cols -> length weights = rows * cols -> length (hd [] weights) = D ->
  let w := nth j weights [] in let w' := nth j (adaptation rows cols conn influence radius rate index x weights) [] in let d := loc_distance cols index j in
  match conn with
  | SFuncNeighbor => ((d < radius)%Q -> moved D (rate * influence d radius)%Q w x w') /\ (~ (d < radius)%Q -> w' = w)
  | _ => (j = index -> moved D rate w x w') /\
         (adjacent conn (Z.of_nat cols) (Z.of_nat index) (Z.of_nat j) -> (d < radius)%Q -> moved D (rate * influence d radius)%Q w x w') /\
         (j <> index -> ~ (adjacent conn (Z.of_nat cols) (Z.of_nat index) (Z.of_nat j) /\ (d < radius)%Q) -> w' = w)
  end.
Proof.
  intros Hi Hj L HD. cbv zeta.
  assert (G : conn <> SFuncNeighbor ->
         let w := nth j weights [] in let w' := nth j (adaptation rows cols conn influence radius rate index x weights) [] in let d := loc_distance cols index j in
         (j = index -> moved D rate w x w') /\
         (adjacent conn (Z.of_nat cols) (Z.of_nat index) (Z.of_nat j) -> (d < radius)%Q -> moved D (rate * influence d radius)%Q w x w') /\
         (j <> index -> ~ (adjacent conn (Z.of_nat cols) (Z.of_nat index) (Z.of_nat j) /\ (d < radius)%Q) -> w' = w)).
  { intros Hc. cbv zeta. destruct (neighbors_spec index Hi) as [N S].
    assert (E : nth j (adaptation rows cols conn influence radius rate index x weights) [] =
       if existsb (Nat.eqb j) (map Z.to_nat (nth index (som_create_connections conn rows cols) [])) && Qltb (loc_distance cols index j) radius
       then move D (rate * influence (loc_distance cols index j) radius) (nth j (upd weights index (move D rate (nth index weights []) x)) []) x
       else nth j (upd weights index (move D rate (nth index weights []) x)) []).
    { rewrite <- attract_nth; auto; [|intros k Hk; rewrite upd_length; eapply Nat.lt_le_trans; [apply (proj1 (S k) Hk)|apply Nat.eq_le_incl; symmetry; exact L]]. unfold adaptation. rewrite HD. destruct conn; try reflexivity. contradiction Hc; reflexivity. }
    rewrite E. split; [|split].
    - intros ->. assert (existsb (Nat.eqb index) (map Z.to_nat (nth index (som_create_connections conn rows cols) [])) = false) as ->.
      { apply Bool.not_true_is_false. rewrite existsb_eqb, S. intros [_ H]. apply (not_adjacent_self index H). }
      cbn [andb]. rewrite upd_nth_eq by lia. apply move_moved.
    - intros Ha Hd. assert (Hn : j <> index) by (intros ->; apply (not_adjacent_self index Ha)).
      rewrite (proj2 (existsb_eqb j _) (proj2 (S j) (conj Hj Ha))), (proj2 (Qltb_true _ _) Hd). cbn [andb]. rewrite upd_nth_neq by auto. apply move_moved.
    - intros Hn H. rewrite upd_nth_neq by auto. destruct (existsb _ _ && _) eqn:B; auto. exfalso. apply H. apply andb_true_iff in B as [B1 B2].
      apply existsb_eqb, S in B1 as [_ B1]. apply Qltb_true in B2. auto. }
  destruct conn eqn:Ec; try (apply G; discriminate).
  unfold adaptation. rewrite HD, attract_nth; [|apply seq_NoDup|intros k Hk; apply in_seq in Hk; eapply Nat.lt_le_trans; [apply Hk|apply Nat.eq_le_incl; symmetry; exact L]].
  rewrite (proj2 (existsb_eqb j _)) by (apply in_seq; lia). cbn [andb]. split; intros H.
  - rewrite (proj2 (Qltb_true _ _) H). apply move_moved.
  - destruct (Qltb _ _) eqn:B; auto. apply Qltb_true in B. contradiction.
Qed.

Lemma loc_distance_spec i j : (loc_distance cols i j == grid_distance cols i j)%Q.
Proof.
  unfold grid_distance, loc_distance, location. cbn [sqdist]. rewrite inject_Z_plus, !Z.pow_2_r, !inject_Z_mult. unfold Zminus. rewrite !inject_Z_plus, !inject_Z_opp. ring.
Qed.

Hypothesis influence_ext : forall a b r, (a == b)%Q -> (influence a r == influence b r)%Q.

Lemma moved_eq D k k' w x w' : (k == k')%Q -> moved D k w x w' -> moved D k' w x w'.
Proof. intros E [H1 H2]. split; auto. intros i Hi. rewrite H2, E by auto. reflexivity. Qed.

Theorem adaptation_adapted D radius rate index x weights : index < rows * cols -> length weights = rows * cols -> length (hd [] weights) = D ->
  adapted rows cols conn influence D radius rate index x weights (adaptation rows cols conn influence radius rate index x weights).
Proof.
  intros Hi L HD. split; [rewrite <- L; apply adaptation_length|]. intros j Hj.
  pose proof (adaptation_spec D radius rate index x weights j Hi Hj L HD) as H. cbv zeta in H. unfold share_of. cbv zeta.
  pose proof (loc_distance_spec index j) as Hd.
  assert (Hs : forall k, (k == rate * influence (grid_distance cols index j) radius)%Q -> (rate * influence (loc_distance cols index j) radius == k)%Q).
  { intros k ->. rewrite (influence_ext _ _ radius Hd). reflexivity. }
  destruct conn.
  1,2,3: (destruct H as (H1 & H2 & H3); split;
    [intros k [[E1 E2]|(E1 & E2 & E3)];
      [eapply moved_eq; [symmetry; exact E2|auto]|eapply moved_eq; [apply Hs; exact E3|apply H2; auto; rewrite Hd; auto]]
    |intros H; apply H3; [intros ->; apply (H rate); left; split; auto; reflexivity|
       intros [A B]; rewrite Hd in B; eapply H; right; split; [exact A|split; [exact B|reflexivity]]]]).
  destruct H as (H1 & H2). split.
  - intros k [E2 E3]. eapply moved_eq; [apply Hs; exact E3|]. apply H1. rewrite Hd. auto.
  - intros H. apply H2. intros B. rewrite Hd in B. eapply H. split; [exact B|reflexivity].
Qed.

Lemma adapted_length D radius rate index x w w' : adapted rows cols conn influence D radius rate index x w w' ->
  length w = rows * cols -> (forall v, In v w -> length v = D) -> forall v, In v w' -> length v = D.
Proof.
  intros [L H] Lw HD v Hv. apply (In_nth (A:=point) _ _ []) in Hv as (j & Hj & <-). rewrite L in Hj. destruct (H j Hj) as [H1 H2]. clear H.
  assert (Hn : length (nth j w []) = D) by (apply HD, (nth_In (A:=point)); rewrite Lw; exact Hj).
  unfold share_of in *. cbv zeta in *.
  destruct (Qlt_le_dec (grid_distance cols index j) radius) as [Hr|Hr].
  - assert (C : {j = index} + {j <> index}) by apply Nat.eq_dec.
    pose proof (classic_adjacent conn (Z.of_nat cols) (Z.of_nat index) (Z.of_nat j)) as CA.
    destruct conn.
    1,2,3: (destruct C as [C|C]; [apply (H1 rate); left; split; auto; reflexivity|];
      destruct CA as [A|A];
      [eapply H1; right; split; [exact A|split; [exact Hr|reflexivity]]|
       rewrite H2; [exact Hn|intros k [[E _]|(E & _)]; contradiction]]).
    eapply H1. split; [exact Hr|reflexivity].
  - assert (C : {j = index} + {j <> index}) by apply Nat.eq_dec.
    destruct conn.
    1,2,3: (destruct C as [C|C]; [apply (H1 rate); left; split; auto; reflexivity|];
      rewrite H2; [exact Hn|intros k [[E _]|(_ & E & _)]; [contradiction|apply (Qle_not_lt _ _ Hr E)]]).
    rewrite H2; [exact Hn|]. intros k [E _]. apply (Qle_not_lt _ _ Hr E).
Qed.

Lemma epoch_presented D radius rate record data : forall i s s', 0 < rows * cols -> length (s_weights s) = rows * cols ->
  (forall v, In v (s_weights s) -> length v = D) ->
  epoch_pass rows cols conn influence radius rate record data i s = Ok s' ->
  presented rows cols conn influence D radius rate data (s_weights s) (s_weights s') /\
  length (s_weights s') = rows * cols /\ (forall v, In v (s_weights s') -> length v = D).
Proof.
  induction data as [|x data IH]; intros i s s' Hp L HD E; cbn [epoch_pass] in E.
  - apply Ok_inj in E. subst s'. split; [constructor|]. auto.
  - destruct (competition_ok (s_weights s) x) as (index & Ei & Hi & Hm); [intros H; rewrite H in L; cbn in L; lia|].
    rewrite L in Hi, Hm. rewrite Ei in E. cbn [bind] in E.
    assert (Hh : length (hd [] (s_weights s)) = D) by (destruct (s_weights s) as [|v t]; [cbn in L; lia|apply HD; now left]).
    pose proof (adaptation_adapted D radius rate index x _ Hi L Hh) as Ha.
    assert (G : forall s1, s_weights s1 = adaptation rows cols conn influence radius rate index x (s_weights s) ->
      epoch_pass rows cols conn influence radius rate record data (S i) s1 = Ok s' ->
      presented rows cols conn influence D radius rate (x :: data) (s_weights s) (s_weights s') /\
      length (s_weights s') = rows * cols /\ (forall v, In v (s_weights s') -> length v = D)).
    { intros s1 E1 E2. destruct (IH (S i) s1 s') as (P & L' & D'); auto.
      - rewrite E1. apply Ha.
      - rewrite E1. eapply adapted_length; eauto.
      - split; [|auto]. rewrite E1 in P. econstructor; eauto. }
    destruct record; eapply G; try exact E; reflexivity.
Qed.

(** * Autostop *)
Variables (radius rate : nat -> Q) (threshold : Q) (data : list point).

(** one pass over the data in epoch [k] turns the weights [w] into [w'] *)
Definition epoch_step (k : nat) (w w' : list point) : Prop :=
  exists award captured s, epoch_pass rows cols conn influence (radius k) (rate k) true data 0 (mk_som w award captured) = Ok s /\ s_weights s = w'.

Lemma max_adaptation_lt D w w' : (0 < threshold)%Q -> (Qltb (maximal_adaptation rows cols D w w') threshold = true <-> small_change (rows * cols) D threshold w w').
Proof.
  intros Ht. rewrite Qltb_true. unfold maximal_adaptation. set (l := flat_map _ _).
  destruct (fold_extreme_max l 0%Q) as (H1 & H2 & H3). cbv zeta in *. set (r := fold_left _ l 0%Q) in *.
  assert (Hin : forall v, In v l <-> exists n d, n < rows * cols /\ d < D /\ v = Qabs (coord (nth n w []) d - coord (nth n w' []) d)).
  { intros v. unfold l. rewrite in_flat_map. split.
    - intros (n & Hn & Hv). apply in_seq in Hn. apply in_map_iff in Hv as (d & <- & Hd). apply in_seq in Hd. exists n, d. repeat split; lia.
    - intros (n & d & Hn & Hd & ->). exists n. split; [apply in_seq; lia|]. apply (in_map (fun d => Qabs (coord (nth n w []) d - coord (nth n w' []) d))). apply in_seq. lia. }
  split.
  - intros H n d Hn Hd. eapply Qle_lt_trans; [apply H3, Hin; exists n, d; auto|exact H].
  - intros H. destruct H1 as [->|H1]; auto. apply Hin in H1 as (n & d & Hn & Hd & ->). auto.
Qed.

Notation loop := (train_loop rows cols conn influence radius rate threshold true data).
Notation D := (length (hd [] data)).

Theorem autostop_loop epochs : (0 < threshold)%Q -> forall left epoch previous s e s', 1 <= epoch -> epoch + left = S epochs ->
  loop epochs epoch left previous s = Ok (e, s') ->
  exists ws, length ws = e - (epoch - 1) /\ (left <> 0 -> epoch <= e) /\ e <= epochs /\ last (s_weights s :: ws) [] = s_weights s' /\
    (forall k, k < length ws -> epoch_step (epoch + k) (nth k (s_weights s :: ws) []) (nth (S k) (s_weights s :: ws) [])) /\
    (forall w, previous = Some w -> 2 <= length ws -> ~ small_change (rows * cols) D threshold w (nth 0 ws [])) /\
    (forall k, k + 2 < length ws -> ~ small_change (rows * cols) D threshold (nth k ws []) (nth (S k) ws [])) /\
    (e < epochs -> (exists w, previous = Some w /\ length ws = 1 /\ small_change (rows * cols) D threshold w (nth 0 ws [])) \/
       (2 <= length ws /\ small_change (rows * cols) D threshold (nth (length ws - 2) ws []) (nth (length ws - 1) ws []))).
Proof.
  intros Ht. induction left as [|left IH]; intros epoch previous s e s' H1 He E; cbn [train_loop] in E.
  - apply Ok_inj in E. injection E as <- <-. exists []. cbn [length last nth]. repeat split; auto; intros; try lia.
  - destruct (epoch_pass rows cols conn influence (radius epoch) (rate epoch) (true || (epoch =? epochs)) data 0 (clear_statistics s)) as [s1|ex] eqn:E1; cbn [bind] in E; [|discriminate].
    cbn [orb] in E1.
    assert (Step : epoch_step epoch (s_weights s) (s_weights s1)) by (unfold epoch_step, clear_statistics in *; eauto).
    assert (Cont : loop epochs (S epoch) left (Some (s_weights s1)) s1 = Ok (e, s') ->
      (forall w, previous = Some w -> ~ small_change (rows * cols) D threshold w (s_weights s1)) ->
      exists ws, length ws = e - (epoch - 1) /\ (S left <> 0 -> epoch <= e) /\ e <= epochs /\ last (s_weights s :: ws) [] = s_weights s' /\
        (forall k, k < length ws -> epoch_step (epoch + k) (nth k (s_weights s :: ws) []) (nth (S k) (s_weights s :: ws) [])) /\
        (forall w, previous = Some w -> 2 <= length ws -> ~ small_change (rows * cols) D threshold w (nth 0 ws [])) /\
        (forall k, k + 2 < length ws -> ~ small_change (rows * cols) D threshold (nth k ws []) (nth (S k) ws [])) /\
        (e < epochs -> (exists w, previous = Some w /\ length ws = 1 /\ small_change (rows * cols) D threshold w (nth 0 ws [])) \/
           (2 <= length ws /\ small_change (rows * cols) D threshold (nth (length ws - 2) ws []) (nth (length ws - 1) ws [])))).
    { intros Ec Hp. destruct (IH (S epoch) (Some (s_weights s1)) s1 e s' ltac:(lia) ltac:(lia) Ec) as (ws & L & B1 & B2 & La & St & P & C & F).
      exists (s_weights s1 :: ws). assert (Hle : epoch <= e). { destruct left; [|specialize (B1 ltac:(lia)); lia]. cbn [train_loop] in Ec. apply Ok_inj in Ec. injection Ec as <- _. lia. }
      cbn [length]. split; [lia|]. split; [auto|]. split; [auto|]. split; [exact La|]. split.
      { intros [|k] Hk; [rewrite Nat.add_0_r; exact Step|]. replace (epoch + S k) with (S epoch + k) by lia. apply St. lia. }
      split; [intros w Ew _; cbn [nth]; apply Hp; auto|]. split.
      { intros [|k] Hk; cbn [nth]; [apply (P _ eq_refl); lia|]. apply C. lia. }
      intros Hlt. right. destruct (F Hlt) as [(w & Ew & Lw & Sw)|(L2 & Sw)].
      - injection Ew as <-. split; [lia|]. rewrite Lw. cbn [Nat.sub nth]. exact Sw.
      - split; [lia|]. replace (S (length ws) - 2) with (S (length ws - 2)) by lia. replace (S (length ws) - 1) with (S (length ws - 1)) by lia. exact Sw. }
    destruct previous as [w|]; [|apply Cont; auto; discriminate].
    destruct (Qltb _ threshold) eqn:Eb.
    + apply max_adaptation_lt in Eb; auto. apply Ok_inj in E. injection E as <- <-. exists [s_weights s1]. cbn [length last nth].
      split; [lia|]. split; [auto|]. split; [lia|]. split; [auto|]. split; [intros k Hk; assert (k = 0) by lia; subst k; rewrite Nat.add_0_r; exact Step|].
      split; [intros; lia|]. split; [intros; lia|]. intros _. left. eauto.
    + apply Cont; auto. intros w0 Ew Hs. injection Ew as <-. apply max_adaptation_lt in Hs; auto. congruence.
Qed.
End Step.
