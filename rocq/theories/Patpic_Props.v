(** C241: the pictures of pattern recognition. *)
From Verif Require Import Base Patpic_Model Spikepic_Props.
From Coq Require Import Reals Lra.
Open Scope nat_scope.

(** ** specification *)
(** the grey of a phase: the number of whole 255ths of the circle *)
Definition grey_of (phase : R) (g : Z) : Prop := (IZR g * (2 * PI) <= phase * 255 < (IZR g + 1) * (2 * PI))%R.
Definition on_circle (phase : R) : Prop := (0 <= phase <= 2 * PI)%R.
Definition shows_state (height width : nat) (phases : list R) (picture : list (list Z)) : Prop :=
  length picture = height /\ (forall row, In row picture -> length row = width) /\
  forall r c, r < height -> c < width ->
    let v := nth c (nth r picture []) 0%Z in (0 <= v <= 255)%Z /\
    match nth_error phases (r * width + c) with Some p => grey_of p v | None => v = 255%Z end.

(** ** one picture *)
Lemma pixel_grey p : grey_of p (pixel_color p).
Proof.
  unfold grey_of, pixel_color. destruct (base_Int_part (p * (255 / (2 * PI)))) as (H1 & H2). pose proof PI_RGT_0 as Hpi.
  set (k := IZR (Int_part (p * (255 / (2 * PI))))) in *.
  assert (E : (p * 255 = p * (255 / (2 * PI)) * (2 * PI))%R) by (field; lra). rewrite E. split.
  - apply Rmult_le_compat_r; lra.
  - apply Rmult_lt_compat_r; lra.
Qed.

Lemma pixel_range p : on_circle p -> (0 <= pixel_color p <= 255)%Z.
Proof.
  intros (H1 & H2). destruct (pixel_grey p) as (G1 & G2). pose proof PI_RGT_0 as Hpi. split.
  - apply Z.lt_succ_r. unfold Z.succ. apply lt_IZR. rewrite plus_IZR. change (IZR 0) with 0%R.
    apply Rmult_lt_reg_r with (2 * PI)%R; [lra|]. change (IZR 1) with 1%R. nra.
  - apply le_IZR. apply Rmult_le_reg_r with (2 * PI)%R; [lra|]. nra.
Qed.

Lemma paint_ok : forall phases stage index, index + length phases <= length stage ->
  exists out, paint stage index phases = Ok out /\ length out = length stage /\
    forall k, nth k out 0%Z = if (index <=? k) && (k <? index + length phases) then pixel_color (nth (k - index) phases 0%R) else nth k stage 0%Z.
Proof.
  induction phases as [|p t IH]; intros stage index H; cbn [paint length] in *.
  - exists stage. split; [reflexivity|]. split; [reflexivity|]. intro k. destruct (Nat.leb_spec index k), (Nat.ltb_spec k (index + 0)); cbn [andb]; auto; lia.
  - destruct (Nat.ltb_spec index (length stage)); [|lia].
    destruct (IH (upd stage index (pixel_color p)) (S index)) as (out & E & L & N); [rewrite upd_length; lia|].
    exists out. split; [exact E|]. split; [rewrite L; apply upd_length|]. intro k. rewrite N, upd_nth.
    destruct (Nat.leb_spec (S index) k), (Nat.ltb_spec k (S index + length t)), (Nat.leb_spec index k), (Nat.ltb_spec k (index + S (length t))), (Nat.eqb_spec index k); cbn [andb]; try lia; auto.
    + replace (k - index) with (S (k - S index)) by lia. reflexivity.
    + subst k. rewrite Nat.sub_diag. cbn [nth]. destruct (Nat.ltb_spec index (length stage)); [reflexivity|lia].
Qed.

Lemma stage_ok height width phases : length phases <= height * width -> (forall p, In p phases -> on_circle p) ->
  exists picture, show_stage height width phases = Ok picture /\ shows_state height width phases picture.
Proof.
  intros Hl Hp. unfold show_stage. destruct (paint_ok phases (repeat 255%Z (height * width)) 0) as (out & E & L & N); [now rewrite repeat_length|].
  rewrite E. cbn [bind]. rewrite repeat_length in L. eexists. split; [reflexivity|]. split; [|split].
  - now rewrite map_length, seq_length.
  - intros row H. apply in_map_iff in H as (r & <- & Hr). apply in_seq in Hr. rewrite map_length, firstn_length, skipn_length, L. apply Nat.min_l. nia.
  - intros r c Hr Hc. cbv zeta.
    assert (V : nth c (nth r (map (fun r => map uint8 (firstn width (skipn (r * width) out))) (seq 0 height)) []) 0%Z = uint8 (nth (r * width + c) out 0%Z)).
    { rewrite (nth_indep _ [] (map uint8 (firstn width (skipn (0 * width) out)))) by now rewrite map_length, seq_length.
      rewrite (map_nth (fun r => map uint8 (firstn width (skipn (r * width) out)))), seq_nth by exact Hr. cbn [plus].
      change 0%Z with (uint8 0) at 1. rewrite map_nth, nth_firstn_lt by exact Hc. now rewrite nth_skipn_add. }
    rewrite V, N. cbn [Nat.leb andb plus]. rewrite Nat.sub_0_r. destruct (Nat.ltb_spec (r * width + c) (length phases)) as [H|H].
    + rewrite (nth_error_nth' phases 0%R) by exact H.
      assert (Ho : on_circle (nth (r * width + c) phases 0%R)) by (apply Hp, nth_In; exact H).
      pose proof (pixel_range _ Ho) as Hg. unfold uint8. rewrite Z.mod_small by lia. split; [exact Hg|]. apply pixel_grey.
    + rewrite (proj2 (nth_error_None phases _)) by exact H. rewrite (nth_indep _ 0%Z 255%Z) by (rewrite repeat_length; nia). rewrite nth_repeat. cbn. split; [lia|reflexivity].
Qed.

(** ** the places and the iterations *)
(** picture number k of n states: the first iteration that is not before k steps of n/50 *)
Definition moment (n k : nat) : nat := if 50 <? n then (k * n + 49) / 50 else k.
Definition cell_at (rows cols k : nat) : nat * nat := if (cols =? 1) || (rows =? 1) then (0, k) else (k / cols, k mod cols).

Lemma moment_spec n k i : k <= 50 -> (moment n k <= i <-> Qle_bool (inject_Z (Z.of_nat k) * step_of n) (inject_Z (Z.of_nat i)) = true).
Proof.
  intros _. rewrite Qle_bool_iff. unfold moment, step_of. destruct (Nat.ltb_spec 50 n) as [H|H].
  - assert (E : (inject_Z (Z.of_nat k) * (inject_Z (Z.of_nat n) / 50) <= inject_Z (Z.of_nat i))%Q <-> k * n <= 50 * i).
    { unfold Qle, Qdiv, Qmult, Qinv, inject_Z. cbn [Qnum Qden]. rewrite ?Pos.mul_1_l, ?Z.mul_1_r. lia. }
    rewrite E. split; intro W.
    + assert ((k * n + 49) / 50 * 50 <= i * 50) by nia. pose proof (Nat.div_mod (k * n + 49) 50 ltac:(lia)). pose proof (Nat.mod_upper_bound (k * n + 49) 50 ltac:(lia)). lia.
    + apply Nat.lt_succ_r. apply Nat.div_lt_upper_bound; lia.
  - unfold Qle, Qmult, inject_Z. cbn [Qnum Qden]. rewrite ?Z.mul_1_r. lia.
Qed.

Lemma moment_grows n j k : j < k -> moment n j < moment n k.
Proof.
  intro H. unfold moment. destruct (Nat.ltb_spec 50 n) as [Hn|Hn]; [|exact H].
  assert (W : (j * n + 49) / 50 + 1 <= (k * n + 49) / 50); [|lia]. rewrite <- Nat.div_add by lia. apply Nat.div_le_mono; [lia|]. nia.
Qed.

Lemma moment_inside n k : moment n k < n <-> k < pictures_of n.
Proof.
  unfold moment, pictures_of. destruct (Nat.ltb_spec 50 n) as [Hn|Hn]; [|tauto]. split; intro H.
  - destruct (Nat.lt_ge_cases k 50) as [|G]; [assumption|]. exfalso. assert (n <= (k * n + 49) / 50); [|lia]. apply Nat.div_le_lower_bound; [lia|]. nia.
  - apply Nat.div_lt_upper_bound; [lia|]. nia.
Qed.

Lemma moment_zero n : moment n 0 = 0.
Proof. unfold moment. destruct (50 <? n); reflexivity. Qed.

Lemma cell_next rows cols k : 0 < cols ->
  next_cell (negb ((cols =? 1) || (rows =? 1))) cols (cell_at rows cols k) = cell_at rows cols (S k).
Proof.
  intro Hc. unfold next_cell, cell_at. destruct ((cols =? 1) || (rows =? 1)) eqn:E; cbn [negb fst snd]; [f_equal; lia|].
  pose proof (Nat.div_mod k cols ltac:(lia)) as D. pose proof (Nat.mod_upper_bound k cols ltac:(lia)) as M.
  destruct (Nat.leb_spec cols (k mod cols + 1)).
  - assert (W : S k = (k / cols + 1) * cols + 0) by nia. f_equal.
    + apply (Nat.div_unique _ _ _ 0); lia.
    + apply (Nat.mod_unique _ _ (k / cols + 1)); lia.
  - f_equal.
    + apply (Nat.div_unique _ _ _ (k mod cols + 1)); lia.
    + apply (Nat.mod_unique _ _ (k / cols)); lia.
Qed.

Lemma cell_inside rows cols k : 0 < cols -> k < rows * cols ->
  (if negb ((cols =? 1) || (rows =? 1)) then (fst (cell_at rows cols k) <? rows) && (snd (cell_at rows cols k) <? cols) else snd (cell_at rows cols k) <? rows * cols) = true.
Proof.
  intros Hc Hk. unfold cell_at. destruct ((cols =? 1) || (rows =? 1)); cbn [negb fst snd].
  - apply Nat.ltb_lt. exact Hk.
  - apply andb_true_iff. split; apply Nat.ltb_lt; [apply Nat.div_lt_upper_bound; lia|apply Nat.mod_upper_bound; lia].
Qed.

Section Loop.
Variables (height width rows cols n : nat).
Hypothesis Hcols : 0 < cols.
Hypothesis Hfit : pictures_of n <= rows * cols.
Let double := negb ((cols =? 1) || (rows =? 1)).

Lemma loop_ok : forall states iteration k display,
  (forall s, In s states -> length s <= height * width /\ forall p, In p s -> on_circle p) ->
  iteration + length states = n -> iteration <= moment n k -> k <= pictures_of n -> (display == inject_Z (Z.of_nat k) * step_of n)%Q ->
  exists out, show_loop height width rows cols double (step_of n) states iteration display (cell_at rows cols k) = Ok out /\
    map fst out = map (fun j => (cell_at rows cols j, moment n j)) (seq k (pictures_of n - k)) /\
    forall x, In x out -> iteration <= snd (fst x) /\ shows_state height width (nth (snd (fst x) - iteration) states []) (snd x).
Proof.
  induction states as [|s t IH]; intros iteration k display Hs Hl Hi Hk Hd; cbn [show_loop length] in *.
  - exists []. split; [reflexivity|]. split; [|intros x []]. assert (W : ~ k < pictures_of n) by (rewrite <- moment_inside; lia).
    replace (pictures_of n - k) with 0 by lia. reflexivity.
  - assert (Hk50 : k <= 50) by (unfold pictures_of in Hk; destruct (Nat.ltb_spec 50 n); lia).
    assert (B : Qle_bool display (inject_Z (Z.of_nat iteration)) = true <-> moment n k <= iteration).
    { rewrite moment_spec by exact Hk50. rewrite !Qle_bool_iff. rewrite Hd. tauto. }
    destruct (Qle_bool display (inject_Z (Z.of_nat iteration))) eqn:E.
    + assert (Em : moment n k = iteration) by (pose proof (proj1 B eq_refl); lia).
      assert (Hp : k < pictures_of n) by (rewrite <- moment_inside; lia).
      unfold double. rewrite cell_inside by lia. fold double.
      destruct (Hs s (or_introl eq_refl)) as (S1 & S2). destruct (stage_ok height width s S1 S2) as (picture & P1 & P2). rewrite P1. cbn [bind].
      unfold double at 2. rewrite cell_next by exact Hcols.
      destruct (IH (S iteration) (S k) (display + step_of n)%Q) as (out & O1 & O2 & O3).
      * intros x Hx. apply Hs. right. exact Hx.
      * lia.
      * pose proof (moment_grows n k (S k) ltac:(lia)). lia.
      * lia.
      * rewrite Hd. rewrite Nat2Z.inj_succ. unfold Z.succ. rewrite inject_Z_plus. ring.
      * fold double. rewrite O1. cbn [bind]. eexists. split; [reflexivity|]. split.
        { cbn [map fst]. rewrite O2. replace (pictures_of n - k) with (S (pictures_of n - S k)) by lia. cbn [seq map]. now rewrite Em. }
        intros x [<- |Hx]; cbn [fst snd].
        { split; [lia|]. rewrite Nat.sub_diag. exact P2. }
        destruct (O3 x Hx) as (X1 & X2). split; [lia|]. replace (snd (fst x) - iteration) with (S (snd (fst x) - S iteration)) by lia. exact X2.
    + assert (Em : iteration < moment n k).
      { destruct (Nat.lt_ge_cases iteration (moment n k)) as [|G]; [assumption|]. apply B in G. discriminate. }
      destruct (IH (S iteration) k display) as (out & O1 & O2 & O3); auto; [intros x Hx; apply Hs; right; exact Hx|lia|].
      exists out. split; [exact O1|]. split; [exact O2|]. intros x Hx. destruct (O3 x Hx) as (X1 & X2). split; [lia|].
      replace (snd (fst x) - iteration) with (S (snd (fst x) - S iteration)) by lia. exact X2.
Qed.
End Loop.

Lemma grid_ok m : 0 < m -> exists rows cols, grid_of m = Some (rows, cols) /\ 0 < cols /\ m <= rows * cols.
Proof.
  intro Hm. unfold grid_of. assert (Hc : 0 < Nat.sqrt_up m) by (apply Nat.sqrt_up_pos; exact Hm). destruct (Nat.eqb_spec (Nat.sqrt_up m) 0); [lia|].
  do 2 eexists. split; [reflexivity|]. split; [exact Hc|]. set (c := Nat.sqrt_up m) in *.
  pose proof (Nat.div_mod (m + c - 1) c ltac:(lia)). pose proof (Nat.mod_upper_bound (m + c - 1) c ltac:(lia)). nia.
Qed.

(** A recorded recognition is shown in at most fifty pictures: all states if
    there are at most fifty, else every (n/50)-th one, beginning with the first,
    in the order of time, each at a place of its own, row by row; every picture
    has in the pixel of each oscillator the grey of its phase. *)
Theorem C241_pictures (dynamic : list (list R)) (height width : nat) :
  dynamic <> [] -> (forall s, In s dynamic -> length s <= height * width /\ forall p, In p s -> on_circle p) ->
  let n := length dynamic in
  exists out rows cols, show_pattern dynamic height width = Ok out /\ length out = Nat.min 50 n /\
    (forall k, k < length out -> let '(cell, iteration, picture) := nth k out (0, 0, 0, []) in
       (50 <? n = false -> iteration = k) /\
       (50 < n -> k * n <= 50 * iteration < k * n + 50) /\
       shows_state height width (nth iteration dynamic []) picture /\
       cell = (if (cols =? 1) || (rows =? 1) then (0, k) else (k / cols, k mod cols))) /\
    length out <= rows * cols /\ 0 < cols.
Proof.
  intros Hne Hs n. assert (Hn : 0 < n) by (subst n; destruct dynamic; [contradiction Hne; reflexivity|cbn; lia]).
  assert (Hp : 0 < pictures_of n) by (unfold pictures_of; destruct (50 <? n); lia).
  destruct (grid_ok _ Hp) as (rows & cols & G & Hc & Hf). unfold show_pattern. fold n. rewrite G.
  destruct (loop_ok height width rows cols n Hc Hf dynamic 0 0 0%Q Hs) as (out & O1 & O2 & O3).
  - reflexivity.
  - rewrite moment_zero. lia.
  - lia.
  - change (inject_Z (Z.of_nat 0)) with 0%Q. ring.
  - assert (C0 : cell_at rows cols 0 = (0, 0)).
    { unfold cell_at. destruct ((cols =? 1) || (rows =? 1)); [reflexivity|]. f_equal; [apply Nat.div_0_l|apply Nat.mod_0_l]; lia. }
    rewrite C0 in O1. exists out, rows, cols. split; [exact O1|].
    assert (Lo : length out = pictures_of n).
    { rewrite <- (map_length fst out), O2, map_length, seq_length. lia. }
    split; [rewrite Lo; unfold pictures_of; destruct (Nat.ltb_spec 50 n); lia|]. split; [|split; [lia|exact Hc]].
    intros k Hk. destruct (nth k out (0, 0, 0, [])) as [[cell it] picture] eqn:Ek.
    assert (Hin : In (cell, it, picture) out) by (rewrite <- Ek; apply nth_In; exact Hk).
    destruct (O3 _ Hin) as (_ & X). cbn [fst snd] in X. rewrite Nat.sub_0_r in X.
    assert (F : (cell, it) = (cell_at rows cols k, moment n k)).
    { change (cell, it) with (fst (cell, it, picture)). rewrite <- Ek. rewrite <- (map_nth fst). rewrite O2, Nat.sub_0_r.
      rewrite (nth_indep _ _ ((fun j => (cell_at rows cols j, moment n j)) 0)) by (rewrite map_length, seq_length; lia).
      rewrite (map_nth (fun j => (cell_at rows cols j, moment n j))). rewrite seq_nth by lia. reflexivity. }
    injection F as -> ->. split; [|split; [|split]].
    + intro H. unfold moment. now rewrite H.
    + intro H. unfold moment. destruct (Nat.ltb_spec 50 n); [|lia].
      pose proof (Nat.div_mod (k * n + 49) 50 ltac:(lia)). pose proof (Nat.mod_upper_bound (k * n + 49) 50 ltac:(lia)). lia.
    + exact X.
    + reflexivity.
Qed.
Print Assumptions C241_pictures.

(** more oscillators than pixels cannot be shown; nothing recorded cannot be shown either *)
Lemma paint_small : forall phases stage index, index <= length stage -> length stage < index + length phases -> paint stage index phases = Raise IndexError.
Proof.
  induction phases as [|p t IH]; intros stage index H1 H2; cbn [paint length] in *; [lia|].
  destruct (Nat.ltb_spec index (length stage)); [|reflexivity]. apply IH; rewrite upd_length; lia.
Qed.

Theorem C241_not_shown (dynamic : list (list R)) (height width : nat) :
  show_pattern [] height width = Raise ZeroDivisionError /\
  (forall s rest, dynamic = s :: rest -> height * width < length s ->
     show_pattern dynamic height width = Raise IndexError /\ animate_pattern_recognition dynamic height width = Raise IndexError).
Proof.
  split; [reflexivity|]. intros s rest -> H.
  assert (E : show_stage height width s = Raise IndexError) by (unfold show_stage; rewrite paint_small; [reflexivity|lia|rewrite repeat_length; lia]). split.
  - unfold show_pattern. set (n := length (s :: rest)).
    assert (Hp : 0 < pictures_of n) by (unfold pictures_of; destruct (Nat.ltb_spec 50 n); [lia|subst n; cbn; lia]).
    destruct (grid_ok _ Hp) as (rows & cols & -> & Hc & Hf). cbn [show_loop]. change (Qle_bool 0 (inject_Z (Z.of_nat 0))) with true. cbn [fst snd]. cbv iota.
    destruct (if negb ((cols =? 1) || (rows =? 1)) then _ else _); [|reflexivity]. rewrite E. reflexivity.
  - unfold animate_pattern_recognition. cbn [length seq pattern_frames]. unfold pattern_frame. cbn [nth_error]. rewrite E. reflexivity.
Qed.
Print Assumptions C241_not_shown.

(** The animation has a frame for every recorded state, with the phases of that
    state on the circle beside its picture. *)
Theorem C241_animation (dynamic : list (list R)) (height width : nat) :
  (forall s, In s dynamic -> length s <= height * width /\ forall p, In p s -> on_circle p) ->
  exists out, animate_pattern_recognition dynamic height width = Ok out /\ length out = length dynamic /\
    forall k, k < length dynamic -> let s := nth k dynamic [] in let '(circle, picture) := nth k out ([], []) in
      map fst circle = s /\ (forall x, In x circle -> snd x = 1%R) /\ shows_state height width s picture.
Proof.
  intro Hs. unfold animate_pattern_recognition.
  assert (G : forall indexes, (forall i, In i indexes -> i < length dynamic) -> exists out, pattern_frames dynamic height width indexes = Ok out /\ length out = length indexes /\
    forall k, k < length indexes -> let s := nth (nth k indexes 0) dynamic [] in let '(circle, picture) := nth k out ([], []) in
      map fst circle = s /\ (forall x, In x circle -> snd x = 1%R) /\ shows_state height width s picture).
  { induction indexes as [|i t IH]; intro Hi; cbn [pattern_frames length].
    - exists []. split; [reflexivity|]. split; [reflexivity|]. intros k Hk. lia.
    - destruct IH as (out & O1 & O2 & O3); [intros j Hj; apply Hi; right; exact Hj|]. unfold pattern_frame.
      rewrite (nth_error_nth' dynamic []) by (apply Hi; left; reflexivity).
      destruct (Hs (nth i dynamic [])) as (S1 & S2); [apply nth_In, Hi; left; reflexivity|].
      destruct (stage_ok height width _ S1 S2) as (picture & P1 & P2). rewrite P1. cbn [bind]. rewrite O1. cbn [bind].
      eexists. split; [reflexivity|]. split; [cbn [length]; lia|]. intros [|k] Hk; cbn [nth].
      + split; [|split; [|exact P2]].
        * rewrite map_map. cbn [fst]. apply map_id.
        * intros x Hx. apply in_map_iff in Hx as (p & <- & _). reflexivity.
      + apply O3. lia. }
  destruct (G (seq 0 (length dynamic))) as (out & O1 & O2 & O3); [intros i Hi; apply in_seq in Hi; lia|]. rewrite seq_length in *.
  exists out. split; [exact O1|]. split; [exact O2|]. intros k Hk. specialize (O3 k Hk). rewrite seq_nth in O3 by exact Hk. exact O3.
Qed.
Print Assumptions C241_animation.

Lemma last_at {A} (l : list A) m d : length l = S m -> last l d = nth m l d.
Proof.
  revert m. induction l as [|x t IH]; intros m H; [discriminate|]. destruct t as [|y t']; destruct m as [|m]; try discriminate; [reflexivity|].
  apply (IH m). cbn [length] in *. lia.
Qed.
Lemma int_part_of (r : R) (z : Z) : (IZR z <= r < IZR z + 1)%R -> Int_part r = z.
Proof.
  intro H. destruct (base_Int_part r) as (H1 & H2). assert (A : (IZR (Int_part r) < IZR (z + 1))%R) by (rewrite plus_IZR; lra).
  assert (B : (IZR z < IZR (Int_part r + 1))%R) by (rewrite plus_IZR; lra). apply lt_IZR in A, B. lia.
Qed.
Lemma zero_grey : pixel_color 0 = 0%Z.
Proof.
  unfold pixel_color. rewrite Rmult_0_l. apply int_part_of. lra.
Qed.
Lemma full_grey : pixel_color (2 * PI) = 255%Z.
Proof.
  pose proof PI_RGT_0. unfold pixel_color. replace (2 * PI * (255 / (2 * PI)))%R with 255%R by (field; lra).
  apply int_part_of. lra.
Qed.

(** The documented "the last one means final result of recognition" fails for
    long recordings: of a hundred states, the ninety-ninth is shown last, and
    the final state (here the only one that differs) is in no picture. *)
Theorem C241_final_refuted : exists (dynamic : list (list R)) out,
  (forall s, In s dynamic -> length s <= 1 * 1 /\ forall p, In p s -> on_circle p) /\
  show_pattern dynamic 1 1 = Ok out /\ length dynamic = 100 /\ last (map (fun x => snd (fst x)) out) 0 = 98 /\
  (forall x, In x out -> snd (fst x) <> 99) /\
  (forall x, In x out -> snd x = [[0%Z]]) /\ show_stage 1 1 (last dynamic []) = Ok [[255%Z]].
Proof.
  set (dynamic := repeat [0%R] 99 ++ [[(2 * PI)%R]]). pose proof PI_RGT_0 as Hpi.
  assert (Hs : forall s, In s dynamic -> length s <= 1 * 1 /\ forall p, In p s -> on_circle p).
  { intros s H. apply in_app_or in H as [H | [<- |[]]].
    - apply repeat_spec in H as ->. split; [cbn; lia|]. intros p [<- |[]]. unfold on_circle. lra.
    - split; [cbn; lia|]. intros p [<- |[]]. unfold on_circle. lra. }
  assert (Ln : length dynamic = 100) by reflexivity.
  destruct (C241_pictures dynamic 1 1) as (out & rows & cols & O1 & O2 & O3 & _); [discriminate|exact Hs|].
  assert (L50 : length out = 50) by (rewrite O2, Ln; reflexivity).
  assert (It : forall k, k < 50 -> snd (fst (nth k out (0, 0, 0, []))) = 2 * k).
  { intros k Hk. specialize (O3 k ltac:(lia)). destruct (nth k out (0, 0, 0, [])) as [[cell it] picture]. cbn [fst snd].
    destruct O3 as (_ & W & _). rewrite Ln in W. specialize (W ltac:(lia)). lia. }
  exists dynamic, out. split; [exact Hs|]. split; [exact O1|]. split; [exact Ln|]. split; [|split; [|split]].
  - rewrite (last_at _ 49) by (rewrite map_length; exact L50).
    refine (eq_trans (map_nth (fun x : nat * nat * nat * list (list Z) => snd (fst x)) out (0, 0, 0, []) 49) _). apply (It 49). lia.
  - intros x Hx. apply (In_nth _ _ (0, 0, 0, [])) in Hx as (k & Hk & <-). rewrite It by lia. lia.
  - intros x Hx. apply (In_nth _ _ (0, 0, 0, [])) in Hx as (k & Hk & <-). specialize (It k ltac:(lia)). specialize (O3 k Hk).
    destruct (nth k out (0, 0, 0, [])) as [[cell it] picture]. cbn [fst snd] in *. subst it. destruct O3 as (_ & _ & (P1 & P2 & P3) & _).
    assert (E : nth (2 * k) dynamic [] = [0%R]).
    { unfold dynamic. rewrite app_nth1 by (rewrite repeat_length; lia). rewrite (nth_indep _ [] [0%R]) by (rewrite repeat_length; lia). apply nth_repeat. }
    rewrite E in P3. clear O1 Hs. destruct picture as [|row [|]]; try (cbn [length] in P1; lia). specialize (P2 row (or_introl eq_refl)). destruct row as [|v [|]]; try (cbn [length] in P2; lia).
    destruct (P3 0 0 ltac:(lia) ltac:(lia)) as (V1 & V2). cbn in V1, V2. unfold grey_of in V2. do 2 f_equal.
    destruct V2 as (V2 & _). apply Z.le_antisymm; [|lia]. apply le_IZR. change (IZR 0) with 0%R. nra.
  - change (last dynamic []) with [(2 * PI)%R]. unfold show_stage. cbn [paint repeat Nat.mul plus length Nat.ltb Nat.leb bind upd]. rewrite full_grey. reflexivity.
Qed.
Print Assumptions C241_final_refuted.

(** One phase can have two greys: an oscillator at 0 is black, at the same place
    of the circle but written 2 pi it is white, like a pixel without oscillator. *)
Theorem C241_one_grey_refuted : exists p q, on_circle p /\ on_circle q /\ (cos p = cos q)%R /\ (sin p = sin q)%R /\
  show_stage 1 1 [p] = Ok [[0%Z]] /\ show_stage 1 1 [q] = Ok [[255%Z]] /\ show_stage 1 1 [] = Ok [[255%Z]].
Proof.
  exists 0%R, (2 * PI)%R. pose proof PI_RGT_0. unfold on_circle. split; [lra|]. split; [lra|]. split; [now rewrite cos_0, cos_2PI|]. split; [now rewrite sin_0, sin_2PI|].
  unfold show_stage. cbn [paint repeat Nat.mul plus length Nat.ltb Nat.leb bind upd]. rewrite zero_grey, full_grey. repeat split; reflexivity.
Qed.
Print Assumptions C241_one_grey_refuted.

(** three states of two oscillators: a figure of two rows and two columns *)
Example C241_example : let d := [[0%R; (2 * PI)%R]; [0%R; 0%R]; [(2 * PI)%R; 0%R]] in
  show_pattern d 1 2 = Ok [(0, 0, 0, [[0%Z; 255%Z]]); (0, 1, 1, [[0%Z; 0%Z]]); (1, 0, 2, [[255%Z; 0%Z]])] /\
  (forall s, In s d -> length s <= 1 * 2 /\ forall p, In p s -> on_circle p).
Proof.
  pose proof PI_RGT_0. cbv zeta. split.
  - unfold show_pattern. cbn [length pictures_of Nat.ltb Nat.leb step_of]. change (grid_of (pictures_of 3)) with (Some (2, 2)). cbv iota beta. unfold show_stage.
    cbn [show_loop negb orb Nat.eqb step_of length]. unfold show_stage. cbn. rewrite zero_grey, full_grey. reflexivity.
  - intros s Hs. cbn in Hs. destruct Hs as [<- |[<- |[<- |[]]]]; (split; [cbn; lia|]); intros p [<- |[<- |[]]]; unfold on_circle; lra.
Qed.
