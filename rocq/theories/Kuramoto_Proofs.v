(** Specification and proofs for Kuramoto_Model.v *)
From Verif Require Import Base Topology_Model Topology_Proofs Kuramoto_Model.
From Coq Require Import Reals Lra.
Open Scope R_scope.

(** ** Specification *)
(** the oscillators selected by [S] have phases in [lo, hi] *)
Definition within_arc (S : nat -> Prop) (lo hi : R) (phases : list R) : Prop :=
  forall i, (i < length phases)%nat -> S i -> lo <= nth i phases 0 <= hi.

(** no connection leaves [S] *)
Definition closed_group (net : network) (S : nat -> Prop) : Prop :=
  forall i k, S i -> In k (get_neighbors net i) -> S k.

(** the states of a run: each the successor of the one before *)
Inductive chain (next : list R -> res (list R)) : list R -> list (list R) -> Prop :=
| chain_nil : forall s, chain next s []
| chain_cons : forall s s' l, next s = Ok s' -> chain next s' l -> chain next s (s' :: l).

(** ** Proofs *)
Lemma pull w x : 0 <= w <= 1 -> - PI < x < PI -> (0 <= x -> 0 <= w * sin x <= x) /\ (x <= 0 -> x <= w * sin x <= 0).
Proof.
  intros Hw Hx. split; intros H.
  - assert (S0 : 0 <= sin x) by (apply sin_ge_0; lra).
    assert (S1 : sin x <= x). { destruct (Req_dec x 0) as [->|Hn]; [rewrite sin_0; lra|]. apply Rlt_le, sin_lt_x. lra. }
    split; [apply Rmult_le_pos; lra|]. apply Rle_trans with (1 * sin x); [apply Rmult_le_compat_r; lra|lra].
  - assert (S0 : 0 <= sin (- x)) by (apply sin_ge_0; lra).
    assert (S1 : sin (- x) <= - x). { destruct (Req_dec x 0) as [->|Hn]; [rewrite Ropp_0, sin_0; lra|]. apply Rlt_le, sin_lt_x. lra. }
    rewrite sin_neg in S0, S1.
    split.
    + apply Rle_trans with (1 * sin x); [lra|]. assert (w * - sin x <= 1 * - sin x) by (apply Rmult_le_compat_r; lra). lra.
    + assert (0 <= w * - sin x) by (apply Rmult_le_pos; lra). lra.
Qed.

Lemma pull_arc w lo hi a b : 0 <= w <= 1 -> hi - lo < PI -> lo <= a <= hi -> lo <= b <= hi -> lo - a <= w * sin (b - a) <= hi - a.
Proof.
  intros Hw Hd Ha Hb. assert (Hx : - PI < b - a < PI) by lra. destruct (pull w (b - a) Hw Hx) as [P1 P2].
  destruct (Rle_dec 0 (b - a)) as [H|H]; [specialize (P1 H); lra|]. specialize (P2 ltac:(lra)). lra.
Qed.

Lemma sum_bounds (f : nat -> R) lo hi : forall l acc, (forall k, In k l -> lo <= f k <= hi) ->
  acc + INR (length l) * lo <= fold_left (fun acc k => acc + f k) l acc <= acc + INR (length l) * hi.
Proof.
  induction l as [|k t IH]; intros acc H; cbn [fold_left length].
  - simpl INR. lra.
  - specialize (IH (acc + f k) ltac:(intros; apply H; simpl; auto)). pose proof (H k ltac:(simpl; auto)). rewrite S_INR. lra.
Qed.

Lemma fold_filter (p : nat -> bool) (f : nat -> R) l : forall acc,
  fold_left (fun acc k => if p k then acc + f k else acc) l acc = fold_left (fun acc k => acc + f k) (filter p l) acc.
Proof. induction l as [|k t IH]; intros acc; simpl; auto. destruct (p k); simpl; apply IH. Qed.

Lemma filter_length_le {A} (p : A -> bool) l : (length (filter p l) <= length l)%nat.
Proof. induction l as [|x t IH]; simpl; auto. destruct (p x); simpl; lia. Qed.

(** the mean pull *)
Lemma mean_pull s m lo hi a : lo <= a <= hi -> (0 < m)%nat -> INR m * (lo - a) <= s <= INR m * (hi - a) ->
  lo <= a + s / INR m <= hi.
Proof.
  intros Ha Hm Hs. assert (P : 0 < INR m) by (apply lt_0_INR; auto).
  assert (E : s = INR m * (s / INR m)) by (field; lra). rewrite E in Hs. destruct Hs as [H1 H2].
  apply Rmult_le_reg_l in H1; auto. apply Rmult_le_reg_l in H2; auto. lra.
Qed.

Lemma kuramoto_syncnet_arc net weight cw freq phases (S : nat -> Prop) lo hi i :
  closed_group net S -> S i -> (forall k, S k -> lo <= rnth phases k <= hi) -> hi - lo < PI ->
  0 <= weight <= 1 -> (forall m a b, cw = Some m -> 0 <= m a b <= 1) -> rnth freq i = 0 ->
  lo <= rnth phases i + phase_kuramoto_syncnet net weight cw freq phases i (rnth phases i) <= hi.
Proof.
  intros Hc Hi Hp Hd Hw Hcw Hf. unfold phase_kuramoto_syncnet. rewrite Hf.
  pose proof (Hp i Hi) as Ha.
  set (f := fun k => match cw with None => 1 | Some m => m i k end * weight * sin (rnth phases k - rnth phases i)).
  assert (Hb : forall k, In k (get_neighbors net i) -> lo - rnth phases i <= f k <= hi - rnth phases i).
  { intros k Hk. unfold f. apply pull_arc; auto; [|apply Hp; eapply Hc; eauto].
    assert (0 <= match cw with None => 1 | Some m => m i k end <= 1) by (destruct cw as [m|]; [apply (Hcw m); auto|lra]).
    split; [apply Rmult_le_pos; lra|]. apply Rle_trans with (1 * 1); [apply Rmult_le_compat; lra|lra]. }
  pose proof (sum_bounds f _ _ (get_neighbors net i) 0 Hb) as Hs. rewrite !Rplus_0_l in Hs. rewrite Rplus_0_l.
  fold f. change (fold_left (fun (acc : R) (k : nat) => acc + match cw with Some m => m i k | None => 1 end * weight * sin (rnth phases k - rnth phases i)) (get_neighbors net i) 0)
    with (fold_left (fun acc k => acc + f k) (get_neighbors net i) 0).
  set (s := fold_left (fun acc k => acc + f k) (get_neighbors net i) 0) in *.
  destruct (get_neighbors net i) as [|k t] eqn:En.
  - unfold s. cbn [fold_left]. simpl INR in Hs. lra.
  - rewrite <- En in *. apply mean_pull; auto. rewrite En. simpl. lia.
Qed.

Lemma kuramoto_arc net weight freq phases (S : nat -> Prop) lo hi i :
  (forall a k, S a -> (k < n_osc net)%nat -> has_connection net a k = true -> S k) -> S i -> (i < n_osc net)%nat ->
  (forall k, S k -> lo <= rnth phases k <= hi) -> hi - lo < PI -> 0 <= weight <= 1 -> rnth freq i = 0 ->
  lo <= rnth phases i + phase_kuramoto net weight freq phases i (rnth phases i) <= hi.
Proof.
  intros Hc Hi Hin Hp Hd Hw Hf. unfold phase_kuramoto. rewrite Hf. rewrite fold_filter. pose proof (Hp i Hi) as Ha.
  set (nb := filter (has_connection net i) (seq 0 (n_osc net))). set (f := fun k => sin (rnth phases k - rnth phases i)).
  assert (Hb : forall k, In k nb -> lo - rnth phases i <= f k <= hi - rnth phases i).
  { intros k Hk. apply filter_In in Hk as [Hk1 Hk2]. apply in_seq in Hk1. unfold f.
    pose proof (pull_arc 1 lo hi (rnth phases i) (rnth phases k) ltac:(lra) Hd Ha) as H. rewrite Rmult_1_l in H. apply H, Hp. eapply Hc; eauto. lia. }
  pose proof (sum_bounds f _ _ nb 0 Hb) as Hs. rewrite !Rplus_0_l in Hs. rewrite Rplus_0_l. fold f.
  change (fold_left (fun (acc : R) (k : nat) => acc + sin (rnth phases k - rnth phases i)) nb 0) with (fold_left (fun acc k => acc + f k) nb 0).
  set (s := fold_left (fun acc k => acc + f k) nb 0) in *.
  assert (Hm : (length nb <= n_osc net)%nat) by (unfold nb; eapply Nat.le_trans; [apply filter_length_le|rewrite seq_length; auto]).
  apply le_INR in Hm. pose proof (pos_INR (length nb)) as P0.
  assert (B1 : INR (n_osc net) * (lo - rnth phases i) <= s).
  { eapply Rle_trans; [|apply Hs]. assert (INR (length nb) * (rnth phases i - lo) <= INR (n_osc net) * (rnth phases i - lo)) by (apply Rmult_le_compat_r; lra). lra. }
  assert (B2 : s <= INR (n_osc net) * (hi - rnth phases i)).
  { eapply Rle_trans; [apply Hs|]. apply Rmult_le_compat_r; lra. }
  assert (Pn : 0 < INR (n_osc net)) by (apply lt_0_INR; lia).
  apply mean_pull; auto; [lia|]. split.
  - destruct (Rle_dec 0 s) as [H|H].
    + apply Rle_trans with 0; [assert (0 <= INR (n_osc net) * (rnth phases i - lo)) by (apply Rmult_le_pos; lra); lra|apply Rmult_le_pos; lra].
    + apply Rle_trans with s; auto. assert (- s * weight <= - s * 1) by (apply Rmult_le_compat_l; lra). lra.
  - destruct (Rle_dec 0 s) as [H|H].
    + apply Rle_trans with s; auto. apply Rle_trans with (s * 1); [apply Rmult_le_compat_l; lra|lra].
    + apply Rle_trans with 0; [assert (0 <= - s * weight) by (apply Rmult_le_pos; lra); lra|apply Rmult_le_pos; lra].
Qed.

Lemma normalization_id fuel t : 0 <= t <= 2 * PI -> phase_normalization fuel t = Ok t.
Proof. intros H. destruct fuel; simpl; destruct (Rlt_dec (2 * PI) t); try lra; destruct (Rlt_dec t 0); try lra; reflexivity. Qed.

Lemma normalization_range fuel : forall t t', phase_normalization fuel t = Ok t' -> 0 <= t' <= 2 * PI.
Proof.
  induction fuel as [|fuel IH]; intros t t'; simpl; destruct (Rlt_dec (2 * PI) t); try discriminate; try apply IH;
    destruct (Rlt_dec t 0); try discriminate; try apply IH; intros E; apply Ok_inj in E; subst; lra.
Qed.

Lemma normalization_same_angle fuel : forall t t', phase_normalization fuel t = Ok t' -> exists k : Z, t' = t + IZR k * (2 * PI).
Proof.
  induction fuel as [|fuel IH]; intros t t'; simpl; destruct (Rlt_dec (2 * PI) t); try discriminate; intros E.
  - destruct (Rlt_dec t 0); [discriminate|]. apply Ok_inj in E. subst. exists 0%Z. simpl. lra.
  - apply IH in E as (k & ->). exists (k - 1)%Z. rewrite minus_IZR. simpl. lra.
  - destruct (Rlt_dec t 0).
    + apply IH in E as (k & ->). exists (k + 1)%Z. rewrite plus_IZR. simpl. lra.
    + apply Ok_inj in E. subst. exists 0%Z. simpl. lra.
Qed.

Lemma normalization_ends_above m : forall t, t <= 2 * PI * (INR m + 1) -> 0 <= t ->
  forall fuel, (m <= fuel)%nat -> exists t', phase_normalization fuel t = Ok t'.
Proof.
  pose proof PI_RGT_0 as HP. induction m as [|m IH]; intros t Ht H0 fuel Hf.
  - exists t. apply normalization_id. simpl in Ht. lra.
  - destruct (Rlt_dec (2 * PI) t) as [H|H]; [|exists t; apply normalization_id; lra].
    destruct fuel as [|fuel]; [lia|]. cbn [phase_normalization]. destruct (Rlt_dec (2 * PI) t); [|contradiction].
    apply IH; [|lra|lia]. rewrite S_INR in Ht. lra.
Qed.

Lemma normalization_ends_below m : forall t, - (2 * PI * INR m) <= t -> t < 0 ->
  forall fuel, (m <= fuel)%nat -> exists t', phase_normalization fuel t = Ok t'.
Proof.
  pose proof PI_RGT_0 as HP. induction m as [|m IH]; intros t Ht H0 fuel Hf; [simpl in Ht; lra|].
  destruct fuel as [|fuel]; [lia|]. cbn [phase_normalization]. destruct (Rlt_dec (2 * PI) t); [lra|]. destruct (Rlt_dec t 0); [|contradiction].
  destruct (Rlt_dec (t + 2 * PI) 0) as [Hn|Hn]; [|exists (t + 2 * PI); apply normalization_id; lra].
  apply IH; auto; [|lia]. rewrite S_INR in Ht. lra.
Qed.

Lemma normalization_ends t : exists m, forall fuel, (m <= fuel)%nat -> exists t', phase_normalization fuel t = Ok t'.
Proof.
  pose proof PI_RGT_0 as HP. destruct (archimed (Rabs t / (2 * PI))) as [Hu _]. set (m := Z.to_nat (up (Rabs t / (2 * PI)))).
  assert (Hm : Rabs t / (2 * PI) < INR m).
  { eapply Rlt_le_trans; [exact Hu|]. unfold m. rewrite INR_IZR_INZ. apply IZR_le. lia. }
  exists m.
  assert (A : Rabs t <= 2 * PI * INR m).
  { apply (Rmult_le_reg_r (/ (2 * PI))); [apply Rinv_0_lt_compat; lra|]. apply Rle_trans with (INR m); [left; exact Hm|]. right. field. lra. }
  intros fuel Hf. destruct (Rlt_dec t 0) as [H|H].
  - apply (normalization_ends_below m); auto. rewrite Rabs_left in A by auto. lra.
  - apply (normalization_ends_above m); auto; [|lra]. rewrite Rabs_right in A by lra. pose proof PI_RGT_0. nra.
Qed.

(** sum of a real function over indexes *)
Definition rsum (f : nat -> R) (l : list nat) : R := fold_right (fun k acc => f k + acc) 0 l.

Lemma fold_sum (f : nat -> R) : forall l a, fold_left (fun acc k => acc + f k) l a = a + rsum f l.
Proof. induction l as [|x l IH]; intros a; cbn [fold_left rsum fold_right]; [lra|]. rewrite IH. unfold rsum. lra. Qed.

Lemma fold_sum_if (p : nat -> bool) (f : nat -> R) : forall l a,
  fold_left (fun acc k => if p k then acc + f k else acc) l a = a + rsum f (filter p l).
Proof.
  induction l as [|x l IH]; intros a; cbn [fold_left filter]; [simpl; lra|]. rewrite IH. destruct (p x); [cbn [rsum fold_right]; unfold rsum|]; lra.
Qed.

Lemma rsum_ext (f g : nat -> R) l : (forall k, f k = g k) -> rsum f l = rsum g l.
Proof. intros H. induction l as [|x l IH]; auto. cbn [rsum fold_right]. unfold rsum in IH. now rewrite H, IH. Qed.

Lemma rsum_scale c (f : nat -> R) l : rsum (fun k => c * f k) l = c * rsum f l.
Proof. induction l as [|x l IH]; cbn [rsum fold_right]; [lra|]. unfold rsum in IH. rewrite IH. lra. Qed.

Lemma calculate_nth fuel kur phases : forall l ps, calculate_phases fuel kur phases l = Ok ps ->
  length ps = length l /\ forall k, (k < length l)%nat ->
    phase_normalization fuel (rnth phases (nth k l 0%nat) + kur (nth k l 0%nat) (rnth phases (nth k l 0%nat))) = Ok (rnth ps k).
Proof.
  induction l as [|x t IH]; intros ps E; cbn [calculate_phases] in E.
  - apply Ok_inj in E. subst. split; auto. simpl. intros; lia.
  - destruct (phase_normalization fuel _) as [p|e] eqn:Ep; cbn [bind] in E; [|discriminate].
    destruct (calculate_phases fuel kur phases t) as [qs|e] eqn:Eq; cbn [bind] in E; [|discriminate]. apply Ok_inj in E. subst ps.
    destruct (IH qs eq_refl) as [H1 H2]. split; [simpl; lia|]. intros [|k] Hk; cbn [nth]; auto. apply H2. simpl in Hk. lia.
Qed.

Lemma calculate_total fuel kur phases : forall l,
  (forall i, In i l -> exists p, phase_normalization fuel (rnth phases i + kur i (rnth phases i)) = Ok p) ->
  exists ps, calculate_phases fuel kur phases l = Ok ps.
Proof.
  induction l as [|x t IH]; intros H; cbn [calculate_phases]; [eauto|]. destruct (H x ltac:(simpl; auto)) as [p Ep]. rewrite Ep. cbn [bind].
  destruct IH as [ps Eps]; [intros; apply H; simpl; auto|]. rewrite Eps. cbn [bind]. eauto.
Qed.

Lemma seq_nth0 k m : (k < m)%nat -> nth k (seq 0 m) 0%nat = k.
Proof. intros H. rewrite seq_nth; auto. Qed.

Lemma calculate_ends kur phases : forall l, exists m, forall fuel, (m <= fuel)%nat -> exists ps, calculate_phases fuel kur phases l = Ok ps.
Proof.
  intros l. assert (H : exists m, forall i, In i l -> forall fuel, (m <= fuel)%nat -> exists p, phase_normalization fuel (rnth phases i + kur i (rnth phases i)) = Ok p).
  { induction l as [|x t (m & IH)]; [exists 0%nat; intros i []|]. destruct (normalization_ends (rnth phases x + kur x (rnth phases x))) as (m' & Hm').
    exists (Nat.max m m'). intros i [<-|Hi] fuel Hf; [apply Hm'; lia|]. apply IH; auto. lia. }
  destruct H as (m & H). exists m. intros fuel Hf. apply calculate_total. intros i Hi. apply H; auto.
Qed.

(** *** simulate_dynamic *)
Section Simulation.
Variable next_phases : list R -> res (list R).
Variable local_order : list R -> R.

Lemma chain_app : forall l s t, chain next_phases s l -> chain next_phases (last l s) t -> chain next_phases s (l ++ t).
Proof.
  induction l as [|x l IH]; intros s t H1 H2; simpl; auto. inversion_clear H1. constructor; auto. apply IH; auto.
  destruct l; auto.
  assert (G : forall (l : list (list R)) a b, l <> [] -> last l a = last l b) by (clear; induction l as [|x [|y l] IH]; intros a b H; [congruence|reflexivity|apply IH; discriminate]).
  rewrite (G (l :: l0) x s) by discriminate. exact H2.
Qed.

(** the run from a state: the further states with the conditions that led on and the one that ended it *)
Lemma dynamic_loop_spec order step threshold : forall fuel collect phases time dyn r,
  dynamic_loop next_phases local_order fuel collect order step threshold phases (local_order phases) time dyn = Ok r ->
  exists l, chain next_phases phases l /\
    let '(final, tend, d) := r in
    final = last l phases /\
    fst d = (if collect then fst dyn ++ l else fst dyn) /\
    (collect = true -> snd d = snd dyn ++ map (fun k => time + INR (S k) * step) (seq 0 (length l))) /\
    (collect = false -> snd d = snd dyn) /\ tend = time + INR (length l) * step /\
    (forall k, (k < length l)%nat -> local_order (nth k (phases :: l) []) < order) /\
    (forall k, (S k < length l)%nat -> threshold <= Rabs (local_order (nth (S k) (phases :: l) []) - local_order (nth k (phases :: l) []))) /\
    (order <= local_order final \/ (l <> [] /\ Rabs (local_order final - local_order (nth (length l - 1) (phases :: l) [])) < threshold)).
Proof.
  induction fuel as [|fuel IH]; intros collect phases time dyn r E; cbn [dynamic_loop] in E.
  - destruct (Rlt_dec (local_order phases) order) as [H|H]; [discriminate|]. apply Ok_inj in E. subst r. exists []. split; [constructor|].
    cbn [last length app]. split; [reflexivity|]. split; [destruct collect; auto; now rewrite app_nil_r|]. split; [intros _; simpl; now rewrite app_nil_r|]. split; [auto|].
    split; [simpl; lra|]. split; [intros; lia|]. split; [intros; lia|]. left. lra.
  - destruct (Rlt_dec (local_order phases) order) as [H|H].
    + destruct (next_phases phases) as [ph|e] eqn:En; cbn [bind] in E; [|discriminate].
      destruct (Rlt_dec (Rabs (local_order ph - local_order phases)) threshold) as [Ht|Ht].
      * apply Ok_inj in E. subst r. exists [ph]. split; [constructor; [exact En|constructor]|]. cbn [last length app].
        split; [reflexivity|]. split; [destruct collect; reflexivity|]. split; [intros ->; simpl; repeat f_equal; lra|]. split; [intros ->; reflexivity|].
        split; [simpl; lra|]. split; [intros k Hk; assert (k = 0)%nat by lia; subst k; exact H|]. split; [intros; lia|]. right. split; [discriminate|exact Ht].
      * apply IH in E as (l & Hc & Hr). exists (ph :: l). split; [constructor; auto|]. destruct r as [[final tend] d].
        destruct Hr as (R1 & R2 & R3 & R4 & R5 & R6 & R7 & R8).
        assert (Gl : last (ph :: l) phases = last l ph).
        { clear. revert ph. induction l as [|x t IHl]; intros ph; [reflexivity|]. change (last (ph :: x :: t) phases) with (last (x :: t) phases). rewrite IHl. destruct t; [reflexivity|].
          assert (G : forall (l : list (list R)) a b, l <> [] -> last l a = last l b) by (clear; induction l as [|x [|y l] IH]; intros a b H; [congruence|reflexivity|apply IH; discriminate]).
          change (last (x :: l :: t) ph) with (last (l :: t) ph). apply G. discriminate. }
        split; [rewrite Gl; exact R1|]. split; [destruct collect; cbn [fst] in R2; auto; rewrite R2, <- app_assoc; reflexivity|].
        split; [intros ->; rewrite R3 by auto; cbn [snd]; rewrite <- app_assoc; f_equal; cbn [length seq map app]; f_equal; [simpl; lra|]; rewrite <- seq_shift, map_map; apply map_ext; intros k; rewrite (S_INR (S k)); lra|].
        split; [intros ->; rewrite R4 by auto; reflexivity|]. split; [rewrite R5; cbn [length]; rewrite S_INR; lra|].
        split; [intros [|k] Hk; [exact H|]; cbn [nth]; apply R6; simpl in Hk; lia|].
        split; [intros [|k] Hk; [cbn [nth]; lra|]; apply R7; simpl in Hk; lia|].
        destruct R8 as [R8|[R8 R9]]; [left; exact R8|right]. split; [discriminate|]. cbn [length]. destruct l as [|x t]; [congruence|].
        replace (S (length (x :: t)) - 1)%nat with (S (length (x :: t) - 1)) by (simpl; lia). exact R9.
    + apply Ok_inj in E. subst r. exists []. split; [constructor|].
      cbn [last length app]. split; [reflexivity|]. split; [destruct collect; auto; now rewrite app_nil_r|]. split; [intros _; simpl; now rewrite app_nil_r|]. split; [auto|].
      split; [simpl; lra|]. split; [intros; lia|]. split; [intros; lia|]. left. lra.
Qed.
End Simulation.
