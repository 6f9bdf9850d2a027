(** Specification and proofs for the network topologies (C38, C39, C58). *)
From Verif Require Import Base Topology_Model.
Open Scope Z_scope.

(** ** Specification: cells of a grid *)
Definition row (cols i : Z) : Z := i / cols.
Definition col (cols i : Z) : Z := i mod cols.

Definition adjacent_four (cols i j : Z) : Prop :=
  Z.abs (row cols i - row cols j) + Z.abs (col cols i - col cols j) = 1.
Definition adjacent_eight (cols i j : Z) : Prop :=
  i <> j /\ Z.abs (row cols i - row cols j) <= 1 /\ Z.abs (col cols i - col cols j) <= 1.
(** hexagonal cells: every odd row is shifted left by half a cell; [hex_x] counts half cells *)
Definition hex_x (cols i : Z) : Z := 2 * col cols i - (row cols i) mod 2.
Definition adjacent_hex (cols i j : Z) : Prop :=
  (row cols i = row cols j /\ Z.abs (hex_x cols i - hex_x cols j) = 2) \/
  (Z.abs (row cols i - row cols j) = 1 /\ Z.abs (hex_x cols i - hex_x cols j) = 1).

Definition adjacent (c : som_conn) (cols i j : Z) : Prop :=
  match c with
  | SGridFour => adjacent_four cols i j
  | SGridEight => adjacent_eight cols i j
  | SHoneycomb => adjacent_hex cols i j
  | SFuncNeighbor => False
  end.

(** ** Proofs *)
Lemma guarded_In l j : In j (guarded l) <-> exists b, In (b, j) l /\ b = true.
Proof.
  unfold guarded. rewrite in_map_iff. split.
  - intros [[b x] [E H]]. simpl in E. subst x. apply filter_In in H as [H E]. exists b. auto.
  - intros [b [H E]]. exists (b, j). split; auto. apply filter_In. auto.
Qed.

Section Som.
Variables rows cols : Z.
Hypothesis Hc : 0 < cols.

Lemma div_iff x q : x / cols = q <-> q * cols <= x < q * cols + cols.
Proof.
  split.
  - intros <-. pose proof (Z.div_mod x cols). pose proof (Z.mod_pos_bound x cols Hc). nia.
  - intros H. symmetry. apply Z.div_unique with (x - q * cols); lia.
Qed.

Lemma decompose i : i = row cols i * cols + col cols i /\ 0 <= col cols i < cols.
Proof.
  unfold row, col. pose proof (Z.mod_pos_bound i cols Hc). pose proof (Z.div_mod i cols). split; lia.
Qed.

Lemma decompose_unique i r c : i = r * cols + c -> 0 <= c < cols -> row cols i = r /\ col cols i = c.
Proof.
  intros E H. assert (Hr : row cols i = r) by (apply div_iff; lia). split; auto.
  destruct (decompose i) as [E' _]. rewrite Hr in E'. lia.
Qed.

Lemma in_range i : 0 <= i < rows * cols <-> 0 <= row cols i < rows.
Proof.
  destruct (decompose i) as [E H]. split; intros H'.
  - split; [nia|]. assert (row cols i * cols < rows * cols) by lia. nia.
  - split; nia.
Qed.

Lemma mod2 r : r mod 2 = 0 \/ r mod 2 = 1.
Proof. pose proof (Z.mod_pos_bound r 2 ltac:(lia)). lia. Qed.
Lemma mod2_succ r : r mod 2 + (r + 1) mod 2 = 1.
Proof. pose proof (Z.div_mod r 2). pose proof (Z.div_mod (r + 1) 2). destruct (mod2 r), (mod2 (r + 1)); lia. Qed.
Lemma mod2_pred r : r mod 2 + (r - 1) mod 2 = 1.
Proof. pose proof (Z.div_mod r 2). pose proof (Z.div_mod (r - 1) 2). destruct (mod2 r), (mod2 (r - 1)); lia. Qed.

(** the element at offset (dr, dc) *)
Lemma offset i j dr dc : 
  (j = i + dr * cols + dc /\ row cols j = row cols i + dr) <->
  (row cols j = row cols i + dr /\ col cols j = col cols i + dc).
Proof.
  destruct (decompose i) as [Ei Hi]. destruct (decompose j) as [Ej Hj]. split.
  - intros [E Hr]. split; auto. rewrite Hr in Ej. lia.
  - intros [Hr Hcl]. split; auto. rewrite Hr, Hcl in Ej. lia.
Qed.

Lemma offset_v i j dr : j = i + dr * cols <-> (row cols j = row cols i + dr /\ col cols j = col cols i).
Proof.
  split.
  - intros E. apply decompose_unique; destruct (decompose i); lia.
  - intros [Hr Hcl]. destruct (decompose i) as [Ei _]. destruct (decompose j) as [Ej _].
    rewrite Hr, Hcl in Ej. lia.
Qed.

Lemma som_spec conn i j : 0 <= i < rows * cols ->
  (In j (som_neighbors conn rows cols i) <-> 0 <= j < rows * cols /\ adjacent conn cols i j).
Proof.
  intros Hi. pose proof (proj1 (in_range i) Hi) as Hri. rewrite in_range.
  assert (Hd : forall x dr dc, x = i + dr * cols + dc -> (x / cols =? i / cols + dr) = true ->
            row cols x = row cols i + dr /\ col cols x = col cols i + dc).
  { intros x dr dc E H. apply Z.eqb_eq in H. apply offset. split; auto. }
  assert (Hd' : forall x dr dc, row cols x = row cols i + dr -> col cols x = col cols i + dc ->
            x = i + dr * cols + dc /\ (x / cols =? i / cols + dr) = true).
  { intros x dr dc H1 H2. destruct (proj2 (offset i x dr dc) (conj H1 H2)) as [E1 E2]. split; auto.
    apply Z.eqb_eq. auto. }
  assert (Hpos : forall x, 0 <= row cols x -> (0 <=? x) = true).
  { intros x H. apply Z.leb_le. destruct (decompose x). nia. }
  assert (Hneg : forall x, (0 <=? x) = true -> 0 <= row cols x).
  { intros x H. apply Z.leb_le in H. apply Z.div_pos; lia. }
  assert (Hup : forall x, row cols x < rows -> (x <? rows * cols) = true).
  { intros x H. apply Z.ltb_lt. destruct (decompose x). nia. }
  assert (Hdn : forall x, (x <? rows * cols) = true -> row cols x < rows).
  { intros x H. apply Z.ltb_lt in H. apply Z.div_lt_upper_bound; lia. }
  destruct (decompose i) as [Ei Hci]. destruct (decompose j) as [Ej Hcj].
  (* membership of the groups *)
  assert (Vert : forall l, In j (guarded ([((0 <=? i - cols), i - cols); ((i + cols <? rows * cols), i + cols)] ++ l)) <->
     (0 <= row cols j < rows /\ Z.abs (row cols i - row cols j) = 1 /\ col cols i = col cols j) \/ In j (guarded l)).
  { intros l. rewrite !guarded_In. split.
    - intros [b [[H|[H|H]] Hb]]; [injection H as <- <-|injection H as <- <-|right; eauto]; left.
      + destruct (proj1 (offset_v i (i - cols) (-1)) ltac:(lia)) as [R C]. rewrite R, C in *.
        apply Hneg in Hb. rewrite R in Hb. lia.
      + destruct (proj1 (offset_v i (i + cols) 1) ltac:(lia)) as [R C]. rewrite R, C in *.
        apply Hdn in Hb. rewrite R in Hb. lia.
    - intros [[H1 [H2 H3]]|[b [H Hb]]]; [|exists b; split; auto; simpl; auto].
      assert (Hcase : row cols j = row cols i + -1 \/ row cols j = row cols i + 1) by lia.
      destruct Hcase as [Hr|Hr]; pose proof (proj2 (offset_v i j _) (conj Hr (eq_sym H3))) as E.
      + exists true. split; auto. left. f_equal; [apply Hpos|]; [|lia]. replace (i - cols) with j by lia. lia.
      + exists true. split; auto. right. left. f_equal; [apply Hup|]; [|lia]. replace (i + cols) with j by lia. lia. }
  assert (Horz : forall l, In j (guarded ([((0 <=? i - 1) && ((i - 1) / cols =? i / cols), i - 1);
        ((i + 1 <? rows * cols) && ((i + 1) / cols =? i / cols), i + 1)] ++ l)) <->
     (row cols i = row cols j /\ Z.abs (col cols i - col cols j) = 1) \/ In j (guarded l)).
  { intros l. rewrite !guarded_In. split.
    - intros [b [[H|[H|H]] Hb]]; [injection H as <- <-|injection H as <- <-|right; eauto]; left;
        apply andb_true_iff in Hb as [_ Hb].
      + destruct (Hd (i - 1) 0 (-1)) as [R C]; [lia|rewrite Z.add_0_r; auto|]. lia.
      + destruct (Hd (i + 1) 0 1) as [R C]; [lia|rewrite Z.add_0_r; auto|]. lia.
    - intros [[H1 H2]|[b [H Hb]]]; [|exists b; split; auto; simpl; auto].
      assert (Hcase : col cols j = col cols i + -1 \/ col cols j = col cols i + 1) by lia.
      destruct Hcase as [Hcl|Hcl]; destruct (Hd' j 0 _ ltac:(lia) Hcl) as [E1 E2]; rewrite Z.add_0_r in E2; exists true; split; auto.
      + left. replace (i - 1) with j by lia. f_equal. rewrite E2, Hpos; auto. lia.
      + right. left. replace (i + 1) with j by lia. f_equal. rewrite E2, Hup; auto. lia. }
  assert (Diag : forall ul ur ll lr a b, ul = i - cols + a -> ur = i - cols + b -> ll = i + cols + a -> lr = i + cols + b ->
      In j (guarded [((0 <=? ul) && (ul / cols =? i / cols - 1), ul); ((0 <=? ur) && (ur / cols =? i / cols - 1), ur);
                     ((ll <? rows * cols) && (ll / cols =? i / cols + 1), ll);
                     ((lr <? rows * cols) && (lr / cols =? i / cols + 1), lr)]) <->
      (0 <= row cols j < rows /\ Z.abs (row cols i - row cols j) = 1 /\
       (col cols j = col cols i + a \/ col cols j = col cols i + b))).
  { intros ul ur ll lr a b E1 E2 E3 E4. rewrite guarded_In. split.
    - intros [g [[H|[H|[H|[H|[]]]]] Hg]]; injection H as <- <-; apply andb_true_iff in Hg as [G1 G2].
      + destruct (Hd ul (-1) a ltac:(lia) G2) as [R C]. apply Hneg in G1. lia.
      + destruct (Hd ur (-1) b ltac:(lia) G2) as [R C]. apply Hneg in G1. lia.
      + destruct (Hd ll 1 a ltac:(lia) G2) as [R C]. apply Hdn in G1. lia.
      + destruct (Hd lr 1 b ltac:(lia) G2) as [R C]. apply Hdn in G1. lia.
    - intros [H1 [H2 H3]]. assert (Hcase : row cols j = row cols i + -1 \/ row cols j = row cols i + 1) by lia.
      exists true. split; auto.
      destruct Hcase as [Hr|Hr], H3 as [Hcl|Hcl]; destruct (Hd' j _ _ Hr Hcl) as [F1 F2].
      + left. replace ul with j by lia. f_equal. change (i / cols - 1) with (i / cols + -1). rewrite F2, Hpos; auto. lia.
      + right; left. replace ur with j by lia. f_equal. change (i / cols - 1) with (i / cols + -1). rewrite F2, Hpos; auto. lia.
      + right; right; left. replace ll with j by lia. f_equal. rewrite F2, Hup; auto. lia.
      + right; right; right; left. replace lr with j by lia. f_equal. rewrite F2, Hup; auto. lia. }
  assert (Hij : i = j <-> row cols i = row cols j /\ col cols i = col cols j).
  { split; [intros ->; auto|]. intros [R C]. rewrite Ei, Ej, R, C. auto. }
  assert (Nil : In j (guarded []) <-> False) by (simpl; tauto).
  unfold som_neighbors, adjacent. destruct conn; cbv zeta.
  - rewrite (Vert ([_; _])). rewrite <- (app_nil_r [_; _]). rewrite Horz, Nil. unfold adjacent_four. lia.
  - rewrite Vert, Horz. rewrite (Diag _ _ _ _ (-1) 1) by lia. unfold adjacent_eight. rewrite Hij. lia.
  - pose proof (mod2_succ (row cols i)) as M1. pose proof (mod2_pred (row cols i)) as M2.
    unfold adjacent_hex, hex_x.
    destruct (mod2 (row cols i)) as [M|M]; unfold row in M at 1; rewrite M; cbn [Z.eqb].
    + change (if true then ?a else ?b) with a. rewrite Horz. rewrite (Diag _ _ _ _ 0 1) by lia.
      fold (row cols i) in M. split.
      * intros [[H1 H2]|[H1 [H2 H3]]].
        -- split; [lia|]. left. rewrite <- H1. lia.
        -- split; [lia|]. right. split; [lia|].
           assert (Hcase : row cols j = row cols i - 1 \/ row cols j = row cols i + 1) by lia.
           destruct Hcase as [Hr|Hr]; rewrite Hr; lia.
      * intros [H0 [[H1 H2]|[H1 H2]]].
        -- left. rewrite <- H1 in H2. lia.
        -- right. split; [lia|]. split; [lia|].
           assert (Hcase : row cols j = row cols i - 1 \/ row cols j = row cols i + 1) by lia.
           destruct Hcase as [Hr|Hr]; rewrite Hr in H2; lia.
    + change (if false then ?a else ?b) with b. rewrite Horz. rewrite (Diag _ _ _ _ (-1) 0) by lia.
      fold (row cols i) in M. split.
      * intros [[H1 H2]|[H1 [H2 H3]]].
        -- split; [lia|]. left. rewrite <- H1. lia.
        -- split; [lia|]. right. split; [lia|].
           assert (Hcase : row cols j = row cols i - 1 \/ row cols j = row cols i + 1) by lia.
           destruct Hcase as [Hr|Hr]; rewrite Hr; lia.
      * intros [H0 [[H1 H2]|[H1 H2]]].
        -- left. rewrite <- H1 in H2. lia.
        -- right. split; [lia|]. split; [lia|].
           assert (Hcase : row cols j = row cols i - 1 \/ row cols j = row cols i + 1) by lia.
           destruct Hcase as [Hr|Hr]; rewrite Hr in H2; lia.
  - simpl. tauto.
Qed.
End Som.

Lemma guarded_NoDup l : ForallOrdPairs (fun a b => fst a = true -> fst b = true -> snd a <> snd b) l -> NoDup (guarded l).
Proof.
  unfold guarded. induction 1 as [|a l Hf Hp IH]; simpl; [constructor|].
  destruct (fst a) eqn:E; simpl; auto. constructor; auto. intro Hin.
  apply in_map_iff in Hin as [b [Eb Hb]]. apply filter_In in Hb as [Hb Tb]. rewrite Forall_forall in Hf.
  apply (Hf b Hb); auto.
Qed.

Lemma som_nodup conn rows cols i : 0 < cols -> NoDup (som_neighbors conn rows cols i).
Proof.
  intros Hc. destruct (decompose cols Hc i) as [Ei Hci]. unfold row in Ei.
  pose proof (fun x => div_iff cols Hc x (i / cols)) as D0.
  pose proof (fun x => div_iff cols Hc x (i / cols - 1)) as D1.
  pose proof (fun x => div_iff cols Hc x (i / cols + 1)) as D2.
  assert (H : forall a b c d, a <= b -> c <= d -> b < c -> True) by auto. clear H.
  unfold som_neighbors; cbv zeta. destruct conn; [| |destruct ((i / cols) mod 2 =? 0)|constructor];
    apply guarded_NoDup; repeat (constructor; cbn [fst snd app]);
    rewrite ?andb_true_iff, ?Z.eqb_eq, ?D0, ?D1, ?D2; intros; lia.
Qed.

(** ** nnet/__init__.py *)
Close Scope Z_scope.

(** specification *)
Definition line_neighbours (i j : nat) : Prop := j = i + 1 \/ i = j + 1.
Definition grid_four (w i j : nat) : Prop := adjacent_four (Z.of_nat w) (Z.of_nat i) (Z.of_nat j).
Definition grid_eight (w i j : nat) : Prop := adjacent_eight (Z.of_nat w) (Z.of_nat i) (Z.of_nat j).

(** what the code builds instead of [grid_four]: horizontal neighbours are taken within the groups
    {0}, {1..w}, {w+1..2w}, ... instead of the rows {0..w-1}, {w..2w-1}, ... *)
Definition shifted_four (w i j : nat) : Prop :=
  j = i + w \/ i = j + w \/ (line_neighbours i j /\ (i + w - 1) / w = (j + w - 1) / w).
Definition diagonal (w i j : nat) : Prop :=
  let r x := Z.div (Z.of_nat x) (Z.of_nat w) in let c x := Z.modulo (Z.of_nat x) (Z.of_nat w) in
  (Z.abs (r i - r j) = 1 /\ Z.abs (c i - c j) = 1)%Z.

Definition hasc (c : conns) (i j : nat) : bool :=
  match c with
  | CMatrix m => nth j (nth i m []) false
  | CList l => existsb (fun k => k =? j) (nth i l [])
  end.

Definition wf (n : nat) (c : conns) : Prop :=
  match c with
  | CMatrix m => length m = n /\ (forall r, In r m -> length r = n)
  | CList l => length l = n
  end.

Lemma create_wf n c a b : a < n -> wf n c -> wf n (create_connection c a b).
Proof.
  intros Ha. destruct c as [m|l]; simpl.
  - intros [H1 H2]. split; [rewrite upd_length; auto|]. intros r Hr.
    apply In_nth with (d := []) in Hr as [k [Hk E]]. rewrite upd_length in Hk.
    destruct (Nat.eq_dec a k) as [->|Hne].
    + rewrite upd_nth_eq in E by lia. subst r. rewrite upd_length. apply H2, nth_In; lia.
    + rewrite upd_nth_neq in E by auto. subst r. apply H2, nth_In; auto.
  - rewrite upd_length; auto.
Qed.

Lemma create_hasc n c a b i j : wf n c -> a < n -> b < n ->
  hasc (create_connection c a b) i j = hasc c i j || ((a =? i) && (b =? j)).
Proof.
  intros Hw Ha Hb. destruct c as [m|l]; simpl in *.
  - destruct Hw as [H1 H2]. destruct (Nat.eqb_spec a i) as [E|Hne].
    + subst i. rewrite upd_nth_eq by lia. destruct (Nat.eqb_spec b j) as [E|Hne].
      * subst j. rewrite upd_nth_eq; [rewrite orb_true_r; auto|]. rewrite H2; auto. apply nth_In; lia.
      * rewrite upd_nth_neq by auto. rewrite orb_false_r. auto.
    + rewrite upd_nth_neq by auto. rewrite orb_false_r. auto.
  - destruct (Nat.eqb_spec a i) as [E|Hne].
    + subst i. rewrite upd_nth_eq by lia. rewrite existsb_app. simpl. rewrite orb_false_r. auto.
    + rewrite upd_nth_neq by auto. rewrite orb_false_r. auto.
Qed.

Lemma connect_row n a : a < n -> forall ts c, wf n c -> (forall t, In t ts -> t < n) ->
  wf n (fold_left (fun c j => create_connection c a j) ts c) /\
  forall i j, hasc (fold_left (fun c j => create_connection c a j) ts c) i j =
              hasc c i j || ((a =? i) && existsb (fun k => k =? j) ts).
Proof.
  intros Ha. induction ts as [|t ts IH]; intros c Hw Ht; simpl.
  - split; auto. intros. rewrite andb_false_r, orb_false_r. auto.
  - destruct (IH (create_connection c a t)) as [H1 H2]; [apply create_wf; auto|intros; apply Ht; simpl; auto|].
    split; auto. intros i j. rewrite H2, (create_hasc n) by (auto; apply Ht; simpl; auto).
    destruct (a =? i), (t =? j), (hasc c i j); simpl; auto.
Qed.

Lemma connect_all_hasc n targets c : wf n c -> (forall i t, i < n -> In t (targets i) -> t < n) ->
  wf n (connect_all n targets c) /\
  forall i j, i < n -> hasc (connect_all n targets c) i j = hasc c i j || existsb (fun k => k =? j) (targets i).
Proof.
  intros Hw Ht. unfold connect_all.
  assert (H : forall l c, wf n c -> NoDup l -> (forall a, In a l -> a < n) ->
     wf n (fold_left (fun c i => fold_left (fun c j => create_connection c i j) (targets i) c) l c) /\
     forall i j, hasc (fold_left (fun c i => fold_left (fun c j => create_connection c i j) (targets i) c) l c) i j =
       hasc c i j || (existsb (fun a => a =? i) l && existsb (fun k => k =? j) (targets i))).
  { clear c Hw. induction l as [|a l IH]; intros c Hw Hnd Hl; simpl.
    - split; auto. intros. rewrite orb_false_r. auto.
    - inversion Hnd; subst. assert (Ha : a < n) by (apply Hl; simpl; auto).
      destruct (connect_row n a Ha (targets a) c Hw) as [W1 E1]; [intros; eapply Ht; eauto|].
      destruct (IH _ W1) as [W2 E2]; auto; [intros; apply Hl; simpl; auto|]. split; auto.
      intros i j. rewrite E2, E1. destruct (Nat.eqb_spec a i) as [->|]; simpl; auto.
      + destruct (hasc c i j), (existsb (fun k => k =? j) (targets i)); simpl; rewrite ?andb_true_r, ?andb_false_r; auto.
      + rewrite orb_false_r; auto. }
  destruct (H (seq 0 n) c Hw (seq_NoDup _ _)) as [W E]; [intros a Ha; apply in_seq in Ha; lia|].
  split; auto. intros i j Hi. rewrite E. replace (existsb (fun a => a =? i) (seq 0 n)) with true; auto.
  symmetry. apply existsb_exists. exists i. split; [apply in_seq; lia|apply Nat.eqb_refl].
Qed.

Lemma no_conn_wf r n : wf n (no_connections r n).
Proof.
  destruct r; simpl; [apply repeat_length|]. split; [apply repeat_length|]. intros x Hx.
  apply repeat_spec in Hx. subst. apply repeat_length.
Qed.

Lemma no_conn_hasc r n i j : hasc (no_connections r n) i j = false.
Proof.
  destruct r; simpl.
  - revert i. induction n; intros [|i]; simpl; auto.
  - assert (H : forall k a (d : bool), nth a (repeat false k) false = false).
    { induction k; intros [|a] d; simpl; auto. }
    destruct (Nat.lt_ge_cases i n) as [Hi|Hi].
    + rewrite nth_repeat with (a := repeat false n) || idtac.
      assert (E : nth i (repeat (repeat false n) n) [] = repeat false n).
      { apply (repeat_spec n). apply nth_In. rewrite repeat_length; auto. }
      rewrite E. apply (H n j true).
    + rewrite (nth_overflow (repeat _ _)) by (rewrite repeat_length; auto). destruct j; auto.
Qed.

Lemma to_nats_In l j : (forall z, In z l -> (0 <= z)%Z) -> (In j (to_nats l) <-> In (Z.of_nat j) l).
Proof.
  intros H. unfold to_nats. rewrite in_map_iff. split.
  - intros [z [<- Hz]]. rewrite Z2Nat.id; auto.
  - intros Hj. exists (Z.of_nat j). split; auto. apply Nat2Z.id.
Qed.

Lemma existsb_nat l j : existsb (fun k => k =? j) l = true <-> In j l.
Proof.
  rewrite existsb_exists. split.
  - intros [k [Hk E]]. apply Nat.eqb_eq in E. subst; auto.
  - intros H. exists j. split; auto. apply Nat.eqb_refl.
Qed.

Section Grid.
Variables n w h : nat.
Hypothesis Hw : 0 < w.
Hypothesis Hn : h * w = n.
Open Scope Z_scope.
Let W := Z.of_nat w.
Let N := Z.of_nat n.
Lemma HW : 0 < W. Proof. unfold W. lia. Qed.

Lemma ceil_eq a b : (ceil_div a W =? ceil_div b W) = true <-> (a + W - 1) / W = (b + W - 1) / W.
Proof.
  pose proof HW. assert (H0 : forall x, ceil_div x W = (x + W - 1) / W).
  { intros x. unfold ceil_div. pose proof (Z.div_mod (- x) W ltac:(lia)). pose proof (Z.mod_pos_bound (-x) W H).
    apply Z.div_unique with (W - 1 - (- x) mod W); lia. }
  rewrite !H0. apply Z.eqb_eq.
Qed.

Lemma four_In i j : 0 <= i < N -> (In j (grid_four_targets N W i) <->
  0 <= j < N /\ (j = i - W \/ j = i + W \/ ((j = i - 1 \/ j = i + 1) /\ (i + W - 1) / W = (j + W - 1) / W))).
Proof.
  intros Hi. pose proof HW. unfold grid_four_targets; cbv zeta. rewrite guarded_In. split.
  - intros [b [[E|[E|[E|[E|[]]]]] Hb]]; injection E as <- <-; rewrite ?andb_true_iff, ?Z.leb_le, ?Z.ltb_lt, ?ceil_eq in Hb.
    + split; [lia|auto].
    + split; [lia|auto].
    + split; [lia|]. right; right. destruct Hb as [_ ->]. auto.
    + split; [lia|]. right; right. destruct Hb as [_ ->]. auto.
  - intros [Hj [->|[->|[[->| ->] E]]]]; exists true; (split; [|auto]).
    + left. f_equal. apply Z.leb_le. lia.
    + right; left. f_equal. apply Z.ltb_lt. lia.
    + right; right; left. f_equal. apply andb_true_iff. split; [apply Z.leb_le; lia|]. apply ceil_eq. auto.
    + right; right; right; left. f_equal. apply andb_true_iff. split; [apply Z.ltb_lt; lia|]. apply ceil_eq. auto.
Qed.

Lemma eight_In i j : 0 <= i < N -> (In j (grid_eight_targets N W i) <->
  0 <= j < N /\ Z.abs (i / W - j / W) = 1 /\ Z.abs (i mod W - j mod W) = 1).
Proof.
  intros Hi. pose proof HW as Hp.
  assert (EN : N = Z.of_nat h * W) by (unfold N, W; lia).
  pose proof (som_spec (Z.of_nat h) W Hp SGridEight i j ltac:(lia)) as H8.
  unfold grid_eight_targets; cbv zeta. 
  destruct (decompose W Hp i) as [Ei Hci]. destruct (decompose W Hp j) as [Ej Hcj].
  rewrite guarded_In. unfold row, col in *. split.
  - intros [b [[E|[E|[E|[E|[]]]]] Hb]]; injection E as <- <-; rewrite ?andb_true_iff, ?Z.leb_le, ?Z.ltb_lt, ?Z.eqb_eq in Hb;
      destruct Hb as [B1 B2]; rewrite B2 in *; (split; [|lia]); split; auto; try lia.
  - intros [Hj [Hr Hcl]].
    assert (Hcase : j / W = i / W - 1 \/ j / W = i / W + 1) by lia.
    assert (Hcase2 : j mod W = i mod W - 1 \/ j mod W = i mod W + 1) by lia.
    exists true. split; auto. destruct Hcase as [R|R], Hcase2 as [C|C]; rewrite R, C in Ej.
    + left. replace (i - W - 1) with j by lia. f_equal. rewrite andb_true_iff, Z.leb_le, Z.eqb_eq. lia.
    + right; left. replace (i - W + 1) with j by lia. f_equal. rewrite andb_true_iff, Z.leb_le, Z.eqb_eq. lia.
    + right; right; left. replace (i + W - 1) with j by lia. f_equal. rewrite andb_true_iff, Z.ltb_lt, Z.eqb_eq. lia.
    + right; right; right; left. replace (i + W + 1) with j by lia. f_equal. rewrite andb_true_iff, Z.ltb_lt, Z.eqb_eq. lia.
Qed.
Close Scope Z_scope.

Lemma ceil_nat i j : ((Z.of_nat i + W - 1) / W = (Z.of_nat j + W - 1) / W)%Z <-> (i + w - 1) / w = (j + w - 1) / w.
Proof.
  assert (E : forall x, ((Z.of_nat x + W - 1) / W = Z.of_nat ((x + w - 1) / w))%Z).
  { intros x. rewrite Nat2Z.inj_div. unfold W. f_equal. lia. }
  rewrite !E. split; [apply Nat2Z.inj|intros ->; auto].
Qed.

Lemma four_hasc r i j : i < n -> j < n ->
  (hasc (create_structure CGridFour r n w) i j = true <-> shifted_four w i j).
Proof.
  intros Hi Hj. unfold create_structure.
  assert (Hv : forall i t, i < n -> In t (to_nats (grid_four_targets N W (Z.of_nat i))) -> t < n).
  { intros a t Ha Ht. apply in_map_iff in Ht as [z [<- Hz]]. apply four_In in Hz; unfold N in *; lia. }
  destruct (connect_all_hasc n (fun i => to_nats (grid_four_targets N W (Z.of_nat i))) (no_connections r n) (no_conn_wf r n) Hv) as [_ H].
  rewrite H by auto. rewrite no_conn_hasc. cbn [orb]. rewrite existsb_nat, to_nats_In.
  - rewrite four_In by (unfold N; lia). unfold shifted_four, line_neighbours.
    split.
    + intros [_ [E|[E|[E E']]]]; [right; left; unfold W in *; lia|left; unfold W in *; lia|]. right; right.
      split; [lia|]. apply ceil_nat; auto.
    + intros [E|[E|[E E']]]; (split; [unfold N; lia|]); [right; left; unfold W; lia|left; unfold W; lia|].
      right; right. split; [lia|]. apply ceil_nat; auto.
  - intros z Hz. apply four_In in Hz; unfold N in *; lia.
Qed.

Lemma eight_hasc r i j : i < n -> j < n ->
  (hasc (create_structure CGridEight r n w) i j = true <-> shifted_four w i j \/ diagonal w i j).
Proof.
  intros Hi Hj. unfold create_structure.
  assert (Hv : forall i t, i < n -> In t (to_nats (grid_four_targets N W (Z.of_nat i))) -> t < n).
  { intros a t Ha Ht. apply in_map_iff in Ht as [z [<- Hz]]. apply four_In in Hz; unfold N in *; lia. }
  destruct (connect_all_hasc n (fun i => to_nats (grid_four_targets N W (Z.of_nat i))) (no_connections r n) (no_conn_wf r n) Hv) as [Wf _].
  assert (Hv8 : forall i t, i < n -> In t (to_nats (grid_eight_targets N W (Z.of_nat i))) -> t < n).
  { intros a t Ha Ht. apply in_map_iff in Ht as [z [<- Hz]]. apply eight_In in Hz; unfold N in *; lia. }
  destruct (connect_all_hasc n (fun i => to_nats (grid_eight_targets N W (Z.of_nat i))) _ Wf Hv8) as [_ H].
  rewrite H by auto. rewrite orb_true_iff.
  assert (H4 : hasc (connect_all n (fun i => to_nats (grid_four_targets N W (Z.of_nat i))) (no_connections r n)) i j = true
               <-> shifted_four w i j) by exact (four_hasc r i j Hi Hj).
  rewrite H4.
  rewrite existsb_nat, to_nats_In.
  - rewrite eight_In by (unfold N; lia). unfold diagonal; cbv zeta. unfold N, W. intuition lia.
  - intros z Hz. apply eight_In in Hz; unfold N in *; lia.
Qed.
End Grid.

Lemma nth_map_seq {A} (f : nat -> A) n i d : i < n -> nth i (map f (seq 0 n)) d = f i.
Proof.
  intros H. rewrite nth_indep with (d' := f 0) by (rewrite map_length, seq_length; auto).
  rewrite map_nth. rewrite seq_nth; auto.
Qed.

Lemma nth_repeat_lt {A} (x d : A) n i : i < n -> nth i (repeat x n) d = x.
Proof. intros H. apply (repeat_spec n). apply nth_In. rewrite repeat_length; auto. Qed.

Lemma all_hasc r n w i j : i < n -> j < n -> (hasc (create_structure CAllToAll r n w) i j = true <-> i <> j).
Proof.
  intros Hi Hj. destruct r; simpl.
  - rewrite nth_map_seq by auto. rewrite existsb_exists. split.
    + intros [k [Hk E]]. apply Nat.eqb_eq in E. subst k. apply filter_In in Hk as [_ Hk].
      apply negb_true_iff, Nat.eqb_neq in Hk. auto.
    + intros H. exists j. split; [|apply Nat.eqb_refl]. apply filter_In. split; [apply in_seq; lia|].
      apply negb_true_iff, Nat.eqb_neq. auto.
  - rewrite nth_map_seq by auto. destruct (Nat.eq_dec i j) as [->|Hne].
    + rewrite upd_nth_eq by (rewrite repeat_length; auto). split; congruence.
    + rewrite upd_nth_neq by auto. rewrite nth_repeat_lt by auto. tauto.
Qed.

Lemma line_hasc r n w i j : i < n -> j < n -> (hasc (create_structure CListBidir r n w) i j = true <-> line_neighbours i j).
Proof.
  intros Hi Hj. unfold line_neighbours. destruct r; cbn [create_structure hasc]; cbv zeta.
  - rewrite nth_map_seq by auto. rewrite existsb_app.
    destruct (Nat.ltb_spec 0 i), (Nat.ltb_spec i (n - 1)); simpl;
      rewrite ?orb_false_r, ?orb_true_iff, ?Nat.eqb_eq; try lia; split; try discriminate; lia.
  - rewrite nth_map_seq by auto.
    assert (Hu : forall l a b, length l = n -> a < n -> nth b (upd l a true) false = (a =? b) || nth b l false).
    { intros l a b Hl Ha. destruct (Nat.eqb_spec a b) as [->|Hne]; [rewrite upd_nth_eq by lia; auto|rewrite upd_nth_neq; auto]. }
    assert (H0 : nth j (upd (repeat false n) i false) false = false).
    { destruct (Nat.eq_dec i j) as [->|Hne]; [rewrite upd_nth_eq by (rewrite repeat_length; auto); auto|].
      rewrite upd_nth_neq by auto. apply nth_repeat_lt; auto. }
    assert (Hl : length (upd (repeat false n) i false) = n) by (rewrite upd_length, repeat_length; auto).
    destruct (Nat.ltb_spec 0 i), (Nat.ltb_spec i (n - 1));
      rewrite ?Hu by (rewrite ?upd_length, ?repeat_length; auto; lia); rewrite H0, ?orb_false_r, ?orb_true_iff, ?Nat.eqb_eq; try lia; split; try discriminate; lia.
Qed.

Lemma none_hasc t r n w i j : t = CNone \/ t = CDynamic -> hasc (create_structure t r n w) i j = false.
Proof. intros [->| ->]; apply no_conn_hasc. Qed.

Lemma set_connections_spec n : forall l net, n_type net = CDynamic -> n_osc net = n -> wf n (n_conn net) ->
  (forall i j, In (i, j) l -> i < n /\ j < n) ->
  exists net', set_connections net l = Ok net' /\
    (n_osc net' = n /\ wf n (n_conn net')) /\
    forall i j, has_connection net' i j = true <-> has_connection net i j = true \/ In (i, j) l \/ In (j, i) l.
Proof.
  induction l as [|[a b] l IH]; intros net Ht Hn Hwf Hl; simpl.
  - exists net. split; auto. split; auto. intros. tauto.
  - unfold set_connection. rewrite Ht. cbn [bind].
    destruct (Hl a b) as [Ha Hb]; [simpl; auto|].
    assert (W1 : wf n (create_connection (n_conn net) a b)) by (apply create_wf; auto).
    assert (W2 : wf n (create_connection (create_connection (n_conn net) a b) b a)) by (apply create_wf; auto).
    destruct (IH (mkNet (n_osc net) CDynamic (create_connection (create_connection (n_conn net) a b) b a) (n_height net) (n_width net)))
      as [net' [E [W H]]]; auto.
    { intros i j Hij. apply Hl; simpl; auto. }
    exists net'. split; auto. split; auto. intros i j. rewrite H. unfold has_connection. simpl n_conn.
    fold (hasc (create_connection (create_connection (n_conn net) a b) b a) i j). fold (hasc (n_conn net) i j).
    rewrite (create_hasc n) by auto. rewrite (create_hasc n) by auto.
    rewrite !orb_true_iff, !andb_true_iff, !Nat.eqb_eq. split.
    + intros [[[H1|[-> ->]]|[-> ->]]|[H1|H1]]; auto.
    + intros [H1|[[H1|H1]|[H1|H1]]]; auto; injection H1 as -> ->; auto.
Qed.

Lemma neighbors_has net i j : wf (n_osc net) (n_conn net) -> i < n_osc net -> j < n_osc net ->
  (In j (get_neighbors net i) <-> has_connection net i j = true).
Proof.
  intros Hw Hi Hj. unfold get_neighbors, has_connection. destruct (n_conn net) as [m|l].
  - rewrite filter_In, in_seq. split; [tauto|]. intros H. split; auto. lia.
  - symmetry. apply existsb_nat.
Qed.

Lemma init_wf n t r size net : network_init n t r size = Ok net -> (is_grid t = true -> 0 < n_width net) ->
  n_osc net = n /\ n_type net = t /\ wf n (n_conn net).
Proof.
  assert (Hs : forall w h, (is_grid t = true -> h * w = n /\ 0 < w) -> wf n (create_structure t r n w)).
  { intros w h Hg. destruct t; simpl in *.
    - apply no_conn_wf.
    - destruct r; simpl; [rewrite map_length, seq_length; auto|]. split; [rewrite map_length, seq_length; auto|].
      intros x Hx. apply in_map_iff in Hx as [i [<- _]]. rewrite upd_length, repeat_length. auto.
    - destruct (Hg eq_refl) as [H1 H2]. apply connect_all_hasc; [apply no_conn_wf|].
      intros a x Ha Hx. apply in_map_iff in Hx as [z [<- Hz]]. apply (four_In n w h H2 H1) in Hz; lia.
    - destruct (Hg eq_refl) as [H1 H2]. apply connect_all_hasc; [apply connect_all_hasc; [apply no_conn_wf|]|].
      + intros a x Ha Hx. apply in_map_iff in Hx as [z [<- Hz]]. apply (four_In n w h H2 H1) in Hz; lia.
      + intros a x Ha Hx. apply in_map_iff in Hx as [z [<- Hz]]. apply (eight_In n w h H2 H1) in Hz; lia.
    - destruct r; simpl; [rewrite map_length, seq_length; auto|]. split; [rewrite map_length, seq_length; auto|].
      intros x Hx. apply in_map_iff in Hx as [i [<- _]]. destruct (0 <? i), (i <? n - 1); rewrite ?upd_length, repeat_length; auto.
    - apply no_conn_wf. }
  unfold network_init. destruct (is_grid t) eqn:Eg.
  - destruct size as [[h w]|].
    + destruct (Nat.eqb_spec (h * w) n) as [E|]; [|discriminate]. intros H Hp. apply Ok_inj in H. subst net. simpl in *.
      split; auto. split; auto. apply (Hs w h). auto.
    + destruct (Nat.eqb_spec (Nat.sqrt n * Nat.sqrt n) n) as [E|]; [|discriminate]. intros H Hp. apply Ok_inj in H. subst net. simpl in *.
      split; auto. split; auto. apply (Hs (Nat.sqrt n) (Nat.sqrt n)). auto.
  - intros H _. apply Ok_inj in H. subst net. simpl. split; auto. split; auto. apply (Hs 0 0). discriminate.
Qed.
