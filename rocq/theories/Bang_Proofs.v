(** BANG: specification and proofs. *)
From Coq Require Import Relations.
From Verif Require Import Base Small_Model Small_Proofs Bang_Model.

(** * Specification *)
(** the point lies in the closed block *)
Definition inside (p : point) (b : block) : Prop :=
  forall d, d < length p -> (coord (bmin b) d <= coord p d)%Q /\ (coord p d <= coord (bmax b) d)%Q.
(** the point lies on a face the two blocks have in common *)
Definition on_common_face (D : nat) (p : point) (b1 b2 : block) : Prop :=
  exists d, d < D /\
    (((coord p d == coord (bmax b1) d)%Q /\ (coord p d == coord (bmin b2) d)%Q) \/
     ((coord p d == coord (bmin b1) d)%Q /\ (coord p d == coord (bmax b2) d)%Q)).

(** [k] is reached from [r] by steps of [R] that stay inside [P] *)
Inductive chain {A} (P : A -> Prop) (R : A -> A -> Prop) (r : A) : A -> Prop :=
| chain_root : chain P R r r
| chain_step a k : chain P R r a -> R a k -> P k -> chain P R r k.
Lemma chain_mono {A} (P P' : A -> Prop) (R R' : A -> A -> Prop) r k : (forall x, P x -> P' x) -> (forall x y, P y -> R x y -> R' x y) -> chain P R r k -> chain P' R' r k.
Proof. intros H1 H2. induction 1 as [|a k Ha IH Hr Hp]; [constructor|econstructor; eauto]. Qed.

(** * Lists *)
Lemma FOP_perm {A} (R : A -> A -> Prop) (Hs : forall x y, R x y -> R y x) l l' : Permutation l l' -> ForallOrdPairs R l -> ForallOrdPairs R l'.
Proof.
  induction 1 as [|x l l' Hp IH|x y l|l l' l'' H1 IH1 H2 IH2]; intros F; auto.
  - inversion F as [|? ? Hx Hl]; subst. constructor; auto. eapply Permutation_Forall; eauto.
  - inversion F as [|? ? Hy Hl]; subst. inversion Hl as [|? ? Hx Hl']; subst. inversion Hy as [|? ? Hyx Hyl]; subst. constructor; [constructor; auto|]. constructor; auto.
Qed.
Lemma FOP_nth {A} (R : A -> A -> Prop) (Hs : forall x y, R x y -> R y x) d l : ForallOrdPairs R l -> forall i j, i < length l -> j < length l -> i <> j -> R (nth i l d) (nth j l d).
Proof.
  induction 1 as [|x l Hx Hl IH]; intros i j Hi Hj Hne; simpl in *; [lia|]. rewrite Forall_forall in Hx.
  destruct i as [|i], j as [|j]; [lia|apply Hx, nth_In; lia|apply Hs, Hx, nth_In; lia|apply IH; lia].
Qed.

Lemma coord_upd p d v i : d < length p -> coord (upd p d v) i = if d =? i then v else coord p i.
Proof. intros H. unfold coord. rewrite upd_nth. apply Nat.ltb_lt in H. rewrite H, andb_true_r. reflexivity. Qed.

Lemma contains_spec b p : contains b p = true <-> inside p b.
Proof.
  unfold contains, inside. rewrite forallb_forall. split.
  - intros H d Hd. specialize (H d ltac:(apply in_seq; lia)). apply negb_true_iff, orb_false_iff in H as [H1 H2]. apply Qltb_false in H1. apply Qltb_false in H2. auto.
  - intros H d Hd. apply in_seq in Hd. destruct (H d ltac:(lia)) as [H1 H2]. apply negb_true_iff, orb_false_iff. split; apply Qltb_false; auto.
Qed.

(** * Volume *)
Definition volume_of (s : list Q) : Q := fold_left (fun v x => if Qeq_bool x 0 then v else if Qeq_bool v 0 then x else (v * x)%Q) s 0%Q.
Lemma volume_sides b : volume b = volume_of (map (side b) (seq 0 (length (bmax b)))).
Proof.
  unfold volume, volume_of. set (f := fun (v x : Q) => if Qeq_bool x 0 then v else if Qeq_bool v 0 then x else (v * x)%Q).
  assert (G : forall l v, fold_left (fun v i => if Qeq_bool (side b i) 0 then v else if Qeq_bool v 0 then side b i else (v * side b i)%Q) l v = fold_left f (map (side b) l) v); [|apply G].
  induction l as [|i l IH]; intros v; cbn [map fold_left]; auto.
Qed.

(** sides [a] are not shorter than sides [b], and both have the same zero sides *)
Definition covers (a b : list Q) : Prop := Forall2 (fun x y => (0 <= y)%Q /\ (y <= x)%Q /\ ((y == 0)%Q -> (x == 0)%Q)) a b.

Lemma volume_covers a b : covers a b -> (0 <= volume_of b)%Q /\ (volume_of b <= volume_of a)%Q /\ ((volume_of b == 0)%Q -> (volume_of a == 0)%Q).
Proof.
  intros H. unfold volume_of.
  assert (G : forall v w, (0 <= w)%Q -> (w <= v)%Q -> ((w == 0)%Q -> (v == 0)%Q) ->
    let f := fun (v x : Q) => if Qeq_bool x 0 then v else if Qeq_bool v 0 then x else (v * x)%Q in
    (0 <= fold_left f b w)%Q /\ (fold_left f b w <= fold_left f a v)%Q /\ ((fold_left f b w == 0)%Q -> (fold_left f a v == 0)%Q)).
  { induction H as [|x y a b (H1 & H2 & H3) F IH]; intros v w Hw Hv Hz f; cbn [fold_left]; auto. subst f. cbv beta. apply IH.
    - destruct (Qeq_bool y 0) eqn:Ey; auto. destruct (Qeq_bool w 0); auto. apply Qmult_le_0_compat; auto.
    - destruct (Qeq_bool y 0) eqn:Ey.
      + apply Qeq_bool_eq in Ey. rewrite (Qeq_eq_bool _ _ (H3 Ey)). auto.
      + apply Qeq_bool_false in Ey. assert (Ex : Qeq_bool x 0 = false) by (apply Qeq_bool_false; intros E; apply Ey; lra). rewrite Ex.
        destruct (Qeq_bool w 0) eqn:Ew.
        * apply Qeq_bool_eq in Ew. rewrite (Qeq_eq_bool _ _ (Hz Ew)). auto.
        * apply Qeq_bool_false in Ew. assert (Ev : Qeq_bool v 0 = false) by (apply Qeq_bool_false; intros E; apply Ew; lra). rewrite Ev.
          apply Qle_trans with (w * x)%Q; [rewrite !(Qmult_comm w); apply Qmult_le_compat_r; auto|apply Qmult_le_compat_r; lra].
    - destruct (Qeq_bool y 0) eqn:Ey.
      + apply Qeq_bool_eq in Ey. rewrite (Qeq_eq_bool _ _ (H3 Ey)). auto.
      + apply Qeq_bool_false in Ey. assert (Ex : Qeq_bool x 0 = false) by (apply Qeq_bool_false; intros E; apply Ey; lra). rewrite Ex.
        destruct (Qeq_bool w 0) eqn:Ew; [intros E; contradiction|]. apply Qeq_bool_false in Ew. intros E. apply Qmult_integral in E. tauto. }
  apply (G 0%Q 0%Q); lra.
Qed.

(** * Splitting of blocks *)
Section Blocks.
Variable D : nat.
Definition wf (b : block) : Prop := length (bmax b) = D /\ length (bmin b) = D /\ forall d, d < D -> (coord (bmin b) d <= coord (bmax b) d)%Q.
Definition sub (h b : block) : Prop := forall d, d < D -> (coord (bmin b) d <= coord (bmin h) d)%Q /\ (coord (bmax h) d <= coord (bmax b) d)%Q.
Definition meet (b1 b2 : block) : Prop := forall p, length p = D -> inside p b1 -> inside p b2 -> on_common_face D p b1 b2.

Lemma meet_sym b1 b2 : meet b1 b2 -> meet b2 b1.
Proof. intros H p Hp H1 H2. destruct (H p Hp H2 H1) as (d & Hd & [[A B]|[A B]]); exists d; split; auto. Qed.
Lemma inside_sub p h b : length p = D -> sub h b -> inside p h -> inside p b.
Proof. intros Hp Hs H d Hd. destruct (H d Hd). destruct (Hs d ltac:(lia)). split; lra. Qed.
Lemma meet_sub h b1 b2 : sub h b1 -> meet b1 b2 -> meet h b2.
Proof.
  intros Hs H p Hp H1 H2. destruct (H p Hp (inside_sub p h b1 Hp Hs H1) H2) as (d & Hd & Hor). exists d. split; auto. destruct (H1 d ltac:(lia)) as [A B]. destruct (Hs d Hd) as [A' B'].
  destruct Hor as [[E1 E2]|[E1 E2]]; [left|right]; split; auto; lra.
Qed.

Variable d : nat.
Hypothesis Hd : d < D.
Lemma split_wf b : wf b -> wf (fst (split b d)) /\ wf (snd (split b d)).
Proof.
  intros (L1 & L2 & H). unfold split. cbn [fst snd]. unfold wf. cbn [bmax bmin]. rewrite !upd_length. split; (split; [auto|split; [auto|]]); intros i Hi; rewrite coord_upd by lia; pose proof (H i Hi) as Hi'; destruct (Nat.eqb_spec d i) as [->|]; auto.
  - apply Qle_shift_div_l; lra.
  - apply Qle_shift_div_r; lra.
Qed.
Lemma split_sub b : wf b -> sub (fst (split b d)) b /\ sub (snd (split b d)) b.
Proof.
  intros (L1 & L2 & H). unfold split. cbn [fst snd]. unfold sub. cbn [bmax bmin]. split; intros i Hi; rewrite coord_upd by lia; pose proof (H i Hi) as Hi'; destruct (Nat.eqb_spec d i) as [->|]; split; try lra.
  - apply Qle_shift_div_r; lra.
  - apply Qle_shift_div_l; lra.
Qed.
Lemma split_meet b : wf b -> meet (fst (split b d)) (snd (split b d)).
Proof.
  intros (L1 & L2 & H) p Hp H1 H2. exists d. split; auto. left. unfold split in *. cbn [fst snd] in *. specialize (H1 d ltac:(lia)). specialize (H2 d ltac:(lia)). cbn [bmax bmin] in *.
  rewrite coord_upd in H1, H2 |- * by lia. rewrite coord_upd by lia. rewrite Nat.eqb_refl in *. split; lra.
Qed.
Lemma split_cover b p : length p = D -> wf b -> inside p b -> inside p (fst (split b d)) \/ inside p (snd (split b d)).
Proof.
  intros Hp (L1 & L2 & H) Hin. unfold split. cbn [fst snd]. set (v := ((coord (bmax b) d + coord (bmin b) d) / 2)%Q).
  destruct (Qlt_le_dec v (coord p d)) as [Hv|Hv]; [right|left]; intros i Hi; cbn [bmax bmin]; rewrite coord_upd by lia; specialize (Hin i Hi); destruct (Nat.eqb_spec d i) as [->|]; split; try tauto; lra.
Qed.
Lemma split_side b i : wf b -> (side (fst (split b d)) i == if d =? i then side b i / 2 else side b i)%Q /\ (side (snd (split b d)) i == if d =? i then side b i / 2 else side b i)%Q.
Proof.
  intros (L1 & L2 & H). unfold split, side. cbn [fst snd bmax bmin]. rewrite !coord_upd by lia. destruct (Nat.eqb_spec d i) as [->|]; split; try reflexivity; field.
Qed.
End Blocks.

(** * The directory *)
Section Directory.
Variable data : list point.
Variable D levels : nat.
Variable dthr : Q.
Variable athr : nat.
Hypothesis Hdim : forall p, In p data -> length p = D.
Hypothesis HD : 1 <= D.
Notation sparse := (is_sparse data dthr athr).

(** sides of the blocks of a level, given the sides of the root *)
Fixpoint level_sides (s0 : list Q) (l : nat) : list Q :=
  match l with 0 => s0 | S l' => upd (level_sides s0 l') (S l' mod D) (coord (level_sides s0 l') (S l' mod D) / 2)%Q end.
Definition has_sides (b : block) (s : list Q) : Prop := forall i, i < D -> (side b i == coord s i)%Q.

Lemma level_sides_length s0 l : length (level_sides s0 l) = length s0.
Proof. induction l; simpl; auto. rewrite upd_length. auto. Qed.
Lemma covers_refl s : (forall i, i < length s -> (0 <= coord s i)%Q) -> covers s s.
Proof.
  induction s as [|x s IH]; intros H; constructor; [pose proof (H 0 ltac:(simpl; lia)) as H0; unfold coord in H0; simpl in H0; repeat split; auto; lra|].
  apply IH. intros i Hi. apply (H (S i)). simpl. lia.
Qed.
Lemma covers_coord a : forall b, length a = length b -> (forall i, i < length b -> (0 <= coord b i)%Q /\ (coord b i <= coord a i)%Q /\ ((coord b i == 0)%Q -> (coord a i == 0)%Q)) -> covers a b.
Proof.
  induction a as [|x a IH]; intros [|y b] Hl H; simpl in Hl; try lia; [constructor|]. constructor; [apply (H 0); simpl; lia|]. apply IH; [lia|]. intros i Hi. apply (H (S i)). simpl. lia.
Qed.
Lemma level_sides_mono s0 : length s0 = D -> (forall i, i < D -> (0 <= coord s0 i)%Q) -> forall k l i, i < D ->
  (0 <= coord (level_sides s0 (k + l)) i)%Q /\ (coord (level_sides s0 (k + l)) i <= coord (level_sides s0 l) i)%Q /\ ((coord (level_sides s0 (k + l)) i == 0)%Q -> (coord (level_sides s0 l) i == 0)%Q).
Proof.
  intros Hl H0.
  assert (G : forall l i, i < D -> (0 <= coord (level_sides s0 l) i)%Q).
  { induction l as [|l IH]; intros i Hi; simpl; auto. pose proof (Nat.mod_upper_bound (S l) D ltac:(lia)) as Hm. rewrite coord_upd by (rewrite level_sides_length; lia). destruct (_ =? i); auto. apply Qle_shift_div_l; [lra|]. specialize (IH _ Hm). lra. }
  induction k as [|k IH]; intros l i Hi; [simpl; split; [auto|split; [lra|auto]]|]. destruct (IH l i Hi) as (A & B & C).
  change (level_sides s0 (S k + l)) with (upd (level_sides s0 (k + l)) (S (k + l) mod D) (coord (level_sides s0 (k + l)) (S (k + l) mod D) / 2)%Q).
  pose proof (Nat.mod_upper_bound (S (k + l)) D ltac:(lia)) as Hm. rewrite coord_upd by (rewrite level_sides_length; lia).
  destruct (Nat.eqb_spec (S (k + l) mod D) i) as [E|]; [|auto]. rewrite E. set (v := coord (level_sides s0 (k + l)) i) in *.
  assert (Ev : (v == v / 2 + v / 2)%Q) by field. assert (Hv : (0 <= v / 2)%Q) by (apply Qle_shift_div_l; lra). split; [auto|]. split; [lra|]. intros E0. apply C. lra.
Qed.

(** what is known about a leaf *)
Definition leaf_ok (s0 : list Q) (b : block) : Prop :=
  wf D b /\ level b <= levels - 1 /\ has_sides b (level_sides s0 (level b)) /\ (sparse b = true \/ level b = levels - 1).
Definition inner_ok (s0 : list Q) (l : nat) (b : block) : Prop := wf D b /\ level b = l /\ has_sides b (level_sides s0 l).
Definition covered (l : list block) : Prop := forall p, In p data -> exists b, In b l /\ inside p b.

Lemma covered_perm l l' : Permutation l l' -> covered l -> covered l'.
Proof. intros H C p Hp. destruct (C p Hp) as (b & Hb & Hi). exists b. split; auto. eapply Permutation_in; eauto. Qed.

Lemma split_blocks_spec d s0 l prev : d < D -> d = S l mod D -> length s0 = D -> S l <= levels - 1 -> forall lf cur,
  Forall (leaf_ok s0) lf -> Forall (inner_ok s0 (S l)) cur -> Forall (inner_ok s0 l) prev ->
  ForallOrdPairs (meet D) (lf ++ cur ++ prev) -> covered (lf ++ cur ++ prev) ->
  let r := split_blocks data dthr athr d prev lf cur in
  Forall (leaf_ok s0) (fst r) /\ Forall (inner_ok s0 (S l)) (snd r) /\ ForallOrdPairs (meet D) (fst r ++ snd r) /\ covered (fst r ++ snd r).
Proof.
  intros Hd Ed Hl0 Hlev. induction prev as [|b t IH]; intros lf cur Fl Fc Fp FO C; cbn [split_blocks]; [rewrite app_nil_r in *; cbn [fst snd]; auto|].
  inversion Fp as [|? ? (Wb & Lb & Sb) Ft]; subst. destruct (sparse b) eqn:Es.
  - assert (P : Permutation (lf ++ cur ++ b :: t) ((lf ++ [b]) ++ cur ++ t)) by (rewrite <- app_assoc; apply Permutation_app_head; simpl; symmetry; apply Permutation_middle).
    apply IH; auto.
    + apply Forall_app. split; auto. constructor; auto. split; [auto|]. split; [lia|]. split; [auto|]. left. auto.
    + eapply FOP_perm; [apply meet_sym|exact P|auto].
    + eapply covered_perm; eauto.
  - set (dd := S (level b) mod D) in *. set (h := split b dd). destruct (split_wf D dd Hd b Wb) as [W1 W2]. destruct (split_sub D dd Hd b Wb) as [S1 S2]. fold h in W1, W2, S1, S2.
    assert (P : Permutation (lf ++ cur ++ b :: t) (b :: lf ++ cur ++ t)) by (rewrite !app_assoc; symmetry; apply Permutation_middle).
    assert (P' : Permutation (fst h :: snd h :: lf ++ cur ++ t) (lf ++ (cur ++ [fst h; snd h]) ++ t)).
    { rewrite <- app_assoc. cbn [app]. rewrite (app_assoc lf cur (fst h :: _)), (app_assoc lf cur t). rewrite <- Permutation_middle. constructor. apply Permutation_middle. }
    assert (FO1 : ForallOrdPairs (meet D) (b :: lf ++ cur ++ t)) by (eapply FOP_perm; [apply meet_sym|exact P|auto]).
    inversion FO1 as [|? ? Hb FO2]; subst.
    apply IH; auto.
    + apply Forall_app. split; auto. assert (Hs : forall i, i < D -> (if dd =? i then side b i / 2 else side b i) == coord (level_sides s0 (S (level b))) i).
      { intros i Hi. cbn [level_sides]. fold dd. rewrite coord_upd by (rewrite level_sides_length; lia). destruct (Nat.eqb_spec dd i) as [->|]; [rewrite (Sb i Hi)|apply Sb; auto]. reflexivity. }
      constructor; [|constructor; auto]; (split; [auto|split; [reflexivity|]]); intros i Hi; rewrite <- Hs by auto; apply split_side with (D := D); auto.
    + eapply FOP_perm; [apply meet_sym|exact P'|]. constructor; [|constructor; auto].
      * constructor; [apply split_meet; auto|]. eapply Forall_impl; [|exact Hb]. intros x Hx. eapply meet_sub; eauto.
      * eapply Forall_impl; [|exact Hb]. intros x Hx. eapply meet_sub; eauto.
    + apply (covered_perm _ _ P'). intros p Hp. destruct (covered_perm _ _ P C p Hp) as (x & [<-|Hx] & Hi); [|exists x; split; [right; right; auto|auto]].
      destruct (split_cover D dd Hd b p (Hdim p Hp) Wb Hi) as [Hi'|Hi']; fold h in Hi'; eexists; (split; [|exact Hi']); simpl; auto.
Qed.

Lemma build_levels_spec s0 : length s0 = D -> forall k l prev dir, S l + k = levels -> 1 <= k ->
  Forall (leaf_ok s0) (leafs dir) -> Forall (inner_ok s0 l) prev -> ForallOrdPairs (meet D) (leafs dir ++ prev) -> covered (leafs dir ++ prev) ->
  let r := build_levels data levels dthr athr D (seq (S l) k) prev dir in
  Forall (leaf_ok s0) (leafs r) /\ ForallOrdPairs (meet D) (leafs r) /\ covered (leafs r) /\ length (level_blocks r) = length (level_blocks dir) + k.
Proof.
  intros Hs0. induction k as [|k IH]; intros l prev dir Hlk Hk Fl Fp FO C; [lia|]. cbn [seq build_levels]. unfold build_level.
  pose proof (split_blocks_spec (S l mod D) s0 l prev (Nat.mod_upper_bound (S l) D ltac:(lia)) eq_refl Hs0 ltac:(lia) (leafs dir) [] Fl (Forall_nil _) Fp FO C) as H.
  destruct (split_blocks data dthr athr (S l mod D) prev (leafs dir) []) as [lf cur]. cbn [fst snd] in H. destruct H as (A & B & F & G). cbn [store_level].
  destruct (Nat.eqb_spec (S l) (levels - 1)) as [E|E].
  - assert (k = 0) by lia. subst k. cbn [seq build_levels store_level leafs level_blocks]. split; [|split; [auto|split; [auto|]]].
    + apply Forall_app. split; auto. eapply Forall_impl; [|exact B]. intros b (W & L & S). split; [auto|]. split; [lia|]. rewrite L. split; [auto|right; auto].
    + rewrite app_length. reflexivity.
  - destruct (IH (S l) cur (store_level cur (mkDir lf (level_blocks dir) (size dir)))) as (R1 & R2 & R3 & R4); cbn [store_level leafs level_blocks]; auto; [lia|lia|].
    split; [exact R1|]. split; [exact R2|]. split; [exact R3|]. rewrite R4. cbn [level_blocks store_level]. rewrite app_length. simpl. lia.
Qed.

Lemma sorted_nth {A} (key : A -> Q) d l : StronglySorted (key_le key) l -> forall i j, i <= j -> j < length l -> (key (nth i l d) <= key (nth j l d))%Q.
Proof.
  induction 1 as [|x l Hs IH Hf]; intros i j Hij Hj; simpl in *; [lia|]. rewrite Forall_forall in Hf. destruct i as [|i], j as [|j]; [lra|apply Hf, nth_In; lia|lia|apply IH; lia].
Qed.

Theorem create_directory_spec : data <> [] -> 1 <= levels ->
  exists dir s0, create_directory data levels dthr athr = Ok dir /\ length s0 = D /\ (forall i, i < D -> (0 <= coord s0 i)%Q) /\
    Forall (leaf_ok s0) (leafs dir) /\ ForallOrdPairs (meet D) (leafs dir) /\ covered (leafs dir) /\
    StronglySorted (key_le (density data)) (leafs dir) /\ length (level_blocks dir) = Nat.max 1 (levels - 1).
Proof.
  intros Hne Hlev. unfold create_directory. destruct (data_corners_spec data None D Hne Hdim ltac:(discriminate)) as (c & Ec & (L1 & L2 & Ht)). rewrite Ec. cbn [bind].
  set (root := mkBlk (snd c) (fst c) 0 0). exists (if levels =? 1 then store_level [root] (mkDir [root] [] 0) else
     let dir := build_levels data levels dthr athr D (seq 1 (levels - 1)) [root] (mkDir [] [] 0) in mkDir (sort_key (density data) (leafs dir)) (level_blocks dir) (size dir)).
  assert (Wr : wf D root). { split; [auto|]. split; [auto|]. intros d Hd. apply (tight_le data d). apply Ht. auto. }
  set (s0 := map (side root) (seq 0 D)). exists s0.
  assert (Ls0 : length s0 = D) by (unfold s0; rewrite map_length, seq_length; auto).
  assert (Es0 : forall i, i < D -> coord s0 i = side root i).
  { intros i Hi. unfold s0, coord. rewrite (nth_indep _ 0%Q (side root 0)) by (rewrite map_length, seq_length; auto). rewrite map_nth, seq_nth; auto. }
  assert (Sr : has_sides root (level_sides s0 0)) by (intros i Hi; cbn [level_sides]; rewrite Es0 by auto; reflexivity).
  assert (Cr : covered [root]). { intros p Hp. exists root. split; [left; auto|]. intros d Hd. rewrite (Hdim p Hp) in Hd. destruct (Ht d Hd) as (_ & _ & H). apply H. auto. }
  assert (Hdl : length (nth 0 data []) = D) by (apply Hdim, nth_In; destruct data; [congruence|simpl; lia]).
  destruct (Nat.eqb_spec levels 1) as [E1|E1].
  - split; [reflexivity|]. split; [auto|]. split; [intros i Hi; rewrite Es0 by auto; unfold side; pose proof (proj2 (proj2 Wr) i Hi); lra|]. cbn [store_level leafs level_blocks].
    split; [constructor; auto; split; [auto|]; split; [simpl; lia|]; split; [auto|right; simpl; lia]|]. split; [repeat constructor|]. split; [auto|]. split; [repeat constructor|]. rewrite E1. reflexivity.
  - rewrite Hdl. destruct (Nat.eqb_spec D 0); [lia|]. split; [reflexivity|]. split; [auto|]. split; [intros i Hi; rewrite Es0 by auto; unfold side; pose proof (proj2 (proj2 Wr) i Hi); lra|].
    destruct (build_levels_spec s0 Ls0 (levels - 1) 0 [root] (mkDir [] [] 0)) as (R1 & R2 & R3 & R4); cbn [leafs app]; [lia|lia|apply Forall_nil|apply Forall_cons; [split; auto|apply Forall_nil]|repeat constructor|exact Cr|].
    cbn [leafs level_blocks]. pose proof (sort_key_perm (density data) (leafs (build_levels data levels dthr athr D (seq 1 (levels - 1)) [root] (mkDir [] [] 0)))) as P.
    split; [eapply Permutation_Forall; [symmetry; exact P|auto]|]. split; [eapply FOP_perm; [apply meet_sym|symmetry; exact P|auto]|]. split; [eapply covered_perm; [symmetry; exact P|auto]|]. split; [apply sort_key_sorted|].
    rewrite R4. cbn [level_blocks length]. lia.
Qed.

(** a block that is not sparse is denser than every leaf with few points *)
Lemma denser s0 a b : length s0 = D -> (forall i, i < D -> (0 <= coord s0 i)%Q) -> (0 <= dthr)%Q -> leaf_ok s0 a -> leaf_ok s0 b -> sparse b = false -> amount data a <= athr -> (density data a < density data b)%Q.
Proof.
  intros Hl H0 Hthr (Wa & La & Sa & _) (Wb & Lb & Sb & Ob) Hs Ha. destruct Ob as [Ob|Ob]; [congruence|].
  unfold is_sparse in Hs. apply orb_false_iff in Hs as [Hs1 Hs2]. apply Nat.leb_gt in Hs2. apply Qle_bool_false in Hs1.
  assert (Cv : covers (map (side a) (seq 0 (length (bmax a)))) (map (side b) (seq 0 (length (bmax b))))).
  { destruct Wa as (Wa & _). destruct Wb as (Wb & _). rewrite Wa, Wb. apply covers_coord; [rewrite !map_length; auto|]. rewrite map_length, seq_length. intros i Hi.
    assert (E : forall x, coord (map (side x) (seq 0 D)) i = side x i) by (intros x; unfold coord; rewrite (nth_indep _ 0%Q (side x 0)) by (rewrite map_length, seq_length; auto); rewrite map_nth, seq_nth; auto).
    rewrite !E. rewrite (Sa i Hi), (Sb i Hi), Ob. replace (levels - 1) with ((levels - 1 - level a) + level a) by lia. apply level_sides_mono; auto. }
  apply volume_covers in Cv as (V0 & V1 & V2). rewrite <- !volume_sides in *. unfold density in *.
  destruct (Qeq_bool (volume b) 0) eqn:Eb; [lra|]. apply Qeq_bool_false in Eb. assert (Vb : (0 < volume b)%Q) by lra. assert (Va : (0 < volume a)%Q) by lra.
  assert (Ea : Qeq_bool (volume a) 0 = false) by (apply Qeq_bool_false; lra). rewrite Ea.
  assert (Hn : (inject_Z (Z.of_nat (amount data a)) < inject_Z (Z.of_nat (amount data b)))%Q) by (rewrite <- Zlt_Qlt; lia).
  assert (Hn0 : (0 <= inject_Z (Z.of_nat (amount data a)))%Q) by (change 0%Q with (inject_Z 0); rewrite <- Zle_Qle; lia).
  set (na := inject_Z (Z.of_nat (amount data a))) in *. set (nb := inject_Z (Z.of_nat (amount data b))) in *.
  apply Qlt_shift_div_l; auto. setoid_replace (na / volume a * volume b)%Q with (na * (volume b / volume a))%Q by (field; lra).
  assert (R : (volume b / volume a <= 1)%Q) by (apply Qle_shift_div_r; lra). assert (R0 : (0 <= volume b / volume a)%Q) by (apply Qle_shift_div_l; lra). nra.
Qed.
End Directory.

(** * Allocation of clusters *)
Section Allocation.
Variable order : list nat -> list nat.
Hypothesis Horder : forall l, Permutation (order l) l.
Variable data : list point.
Variable dthr : Q.
Variable athr : nat.
Variable lb : list block.
Notation n := (length lb).
Notation dens k := (density data (nth k lb b0)).
Definition dense (k : nat) : Prop := (dthr < dens k)%Q.
Definition nbr (j k : nat) : Prop := is_neighbor (nth j lb b0) (nth k lb b0) = true.
Notation mark s k := (nth k (marks s) None).

Lemma take_neighbors_spec k ks : forall found, exists nb, take_neighbors lb k ks found = found ++ nb /\ incl nb ks /\ (NoDup ks -> NoDup nb) /\ Forall (nbr k) nb.
Proof.
  induction ks as [|j t IH]; intros found; cbn [take_neighbors].
  - exists []. rewrite app_nil_r. split; [auto|]. split; [intros x []|]. split; auto.
  - assert (Hskip : exists nb, take_neighbors lb k t found = found ++ nb /\ incl nb (j :: t) /\ (NoDup (j :: t) -> NoDup nb) /\ Forall (nbr k) nb).
    { destruct (IH found) as (nb & E & I & N & F). exists nb. split; auto. split; [intros x Hx; right; auto|]. split; auto. intros H. inversion H; auto. }
    destruct (is_neighbor _ _) eqn:En; auto. destruct (_ =? 8).
    + exists [j]. split; auto. split; [intros x [<-|[]]; left; auto|]. split; [intros _; repeat constructor; auto|]. repeat constructor. auto.
    + destruct (IH (found ++ [j])) as (nb & E & I & N & F). exists (j :: nb). rewrite E, <- app_assoc. split; auto. split; [intros x [<-|Hx]; [left; auto|right; auto]|]. split; [|constructor; auto].
      intros H. inversion H; subst. constructor; auto.
Qed.

Lemma remove_all_in nb : forall u x, In x (fold_left (fun u j => remove Nat.eq_dec j u) nb u) <-> In x u /\ ~ In x nb.
Proof.
  induction nb as [|j nb IH]; intros u x; cbn [fold_left]; [simpl; tauto|]. rewrite IH. split.
  - intros [H1 H2]. apply in_remove in H1 as [H1 H3]. split; auto. intros [->|H]; auto.
  - intros [H1 H2]. split; [apply in_in_remove; auto; intros ->; apply H2; left; auto|]. intros H. apply H2. right. auto.
Qed.
Lemma remove_nodup u j : NoDup u -> NoDup (remove Nat.eq_dec j u).
Proof.
  induction 1 as [|x u Hx Hu IH]; simpl; [constructor|]. destruct (Nat.eq_dec j x); auto. constructor; auto. intros H. apply in_remove in H. tauto.
Qed.
Lemma remove_all_nodup nb : forall u, NoDup u -> NoDup (fold_left (fun u j => remove Nat.eq_dec j u) nb u).
Proof. induction nb as [|j nb IH]; intros u H; cbn [fold_left]; auto. apply IH, remove_nodup, H. Qed.

Lemma neighbors_spec k u : NoDup u -> let r := find_block_neighbors order lb k u in Permutation u (fst r ++ snd r) /\ NoDup (fst r ++ snd r) /\ Forall (nbr k) (fst r).
Proof.
  intros Hu. unfold find_block_neighbors. destruct (take_neighbors_spec k (order u) []) as (nb & E & I & N & F). rewrite E. cbn [fst snd app].
  assert (Nn : NoDup nb) by (apply N; eapply Permutation_NoDup; [symmetry; apply Horder|auto]).
  assert (Hin : incl nb u) by (intros x Hx; eapply Permutation_in; [apply Horder|auto]).
  assert (Nd : NoDup (nb ++ fold_left (fun u j => remove Nat.eq_dec j u) nb u)).
  { apply NoDup_app_intro; auto; [apply remove_all_nodup; auto|]. intros x Hx H. apply remove_all_in in H. tauto. }
  split; [|auto]. apply NoDup_Permutation; auto. intros x. rewrite in_app_iff, remove_all_in. split; [|intros [H|[H _]]; auto]. intros H. destruct (in_dec Nat.eq_dec x nb); auto.
Qed.

(** what holds after [c] clusters are complete *)
Record base (c : nat) (s : ast) : Prop := {
  b_len : length (marks s) = n;
  b_marks : forall k j, mark s k = Some j -> k < n /\ j < c /\ dense k;
  b_dlen : length (dendrogram s) = c;
  b_dendro : forall j, j < c -> NoDup (nth j (dendrogram s) []) /\ forall k, In k (nth j (dendrogram s) []) <-> mark s k = Some j;
  b_roots : forall j, j < c -> exists r, mark s r = Some j /\ is_sparse data dthr athr (nth r lb b0) = false /\ forall k, mark s k = Some j -> chain (fun x => mark s x = Some j) nbr r k }.

Record einv (c : nat) (queue : list nat) (s : ast) (r : nat) : Prop := {
  e_len : length (marks s) = n;
  e_marks : forall k j, mark s k = Some j -> k < n /\ j <= c /\ dense k;
  e_nodup : NoDup (queue ++ unhandled s);
  e_open : forall k, In k (queue ++ unhandled s) <-> k < n /\ dense k /\ mark s k = None;
  e_dlen : length (dendrogram s) = S c;
  e_dendro : forall j, j <= c -> NoDup (nth j (dendrogram s) []) /\ forall k, In k (nth j (dendrogram s) []) <-> mark s k = Some j \/ (j = c /\ In k queue);
  e_roots : forall j, j < c -> exists r, mark s r = Some j /\ is_sparse data dthr athr (nth r lb b0) = false /\ forall k, mark s k = Some j -> chain (fun x => mark s x = Some j) nbr r k;
  e_root : mark s r = Some c /\ is_sparse data dthr athr (nth r lb b0) = false /\ forall k, mark s k = Some c \/ In k queue -> chain (fun x => mark s x = Some c \/ In x queue) nbr r k }.

Lemma update_dendrogram_spec dg c bl : c <= length dg -> length dg <= S c -> exists dg', update_dendrogram data lb dg c bl = Ok dg' /\ length dg' = S c /\
  (forall j, j <> c -> nth j dg' [] = nth j dg []) /\ Permutation (nth c dg' []) (nth c dg [] ++ bl).
Proof.
  intros H1 H2. unfold update_dendrogram. set (dg1 := if length dg <=? c then dg ++ [[]] else dg).
  assert (L : length dg1 = S c) by (unfold dg1; destruct (Nat.leb_spec (length dg) c); [rewrite app_length; simpl; lia|lia]).
  assert (E : forall j, nth j dg1 [] = nth j dg []).
  { intros j. unfold dg1. destruct (Nat.leb_spec (length dg) c); auto. destruct (Nat.lt_ge_cases j (length dg)); [apply app_nth1; auto|]. rewrite app_nth2 by auto. rewrite (nth_overflow dg) by auto. destruct (j - length dg) as [|[|]]; reflexivity. }
  destruct (Nat.leb_spec (length dg1) c); [lia|]. eexists. split; [reflexivity|]. split; [rewrite upd_length; auto|]. split.
  - intros j Hj. rewrite upd_nth_neq by auto. apply E.
  - rewrite upd_nth_eq by lia. rewrite E. apply Permutation_app_head. apply sort_key_perm.
Qed.

Lemma expand_spec c r fuel : forall queue s, einv c queue s r -> length queue + length (unhandled s) <= fuel ->
  exists s', expand order data lb fuel c queue s = Ok s' /\ base (S c) s' /\ NoDup (unhandled s') /\ (forall k, In k (unhandled s') <-> k < n /\ dense k /\ mark s' k = None) /\
    length (unhandled s') <= length (unhandled s).
Proof.
  induction fuel as [|f IH]; intros queue s I Hf.
  - destruct queue as [|j q]; [|simpl in Hf; lia]. cbn [expand]. exists s. split; auto. destruct I. cbn [app] in *. split; [|split; auto]. constructor; auto.
    + intros k j H. destruct (e_marks0 k j H) as (A & B & C). repeat split; auto. lia.
    + intros j Hj. destruct (e_dendro0 j ltac:(lia)) as [A B]. split; auto. intros k. rewrite B. simpl. tauto.
    + intros j Hj. destruct (Nat.eq_dec j c) as [->|]; [|apply e_roots0; lia]. exists r. destruct e_root0 as (A & B & C). split; auto. split; auto. intros k Hk. apply (chain_mono (fun x => mark s x = Some c \/ In x []) _ nbr); [intros x [Hx|[]]; exact Hx|auto|apply C; auto].
  - destruct queue as [|j q].
    + cbn [expand]. exists s. split; auto. destruct I. cbn [app] in *. split; [|split; auto]. constructor; auto.
      * intros k j H. destruct (e_marks0 k j H) as (A & B & C). repeat split; auto. lia.
      * intros j Hj. destruct (e_dendro0 j ltac:(lia)) as [A B]. split; auto. intros k. rewrite B. simpl. tauto.
      * intros j Hj. destruct (Nat.eq_dec j c) as [->|]; [|apply e_roots0; lia]. exists r. destruct e_root0 as (A & B & C). split; auto. split; auto. intros k Hk. apply (chain_mono (fun x => mark s x = Some c \/ In x []) _ nbr); [intros x [Hx|[]]; exact Hx|auto|apply C; auto].
    + cbn [expand]. destruct I. pose proof e_nodup0 as Nd. apply NoDup_app_inv in Nd as (Nq & Nu & Nx). inversion Nq as [|? ? Njq Nq']; subst.
      destruct (proj1 (e_open0 j) ltac:(simpl; auto)) as (Hj & Dj & Mj).
      destruct (neighbors_spec j (unhandled s) Nu) as (P & Npu & Fn). destruct (find_block_neighbors order lb j (unhandled s)) as [nb unh]. cbn [fst snd] in *.
      destruct (update_dendrogram_spec (dendrogram s) c nb ltac:(lia) ltac:(lia)) as (dg & Edg & Ldg & Ndg & Pdg). rewrite Edg. cbn [bind].
      assert (Hmk : forall k, nth k (upd (marks s) j (Some c)) None = if j =? k then Some c else mark s k).
      { intros k. rewrite upd_nth. rewrite <- e_len0 in Hj. apply Nat.ltb_lt in Hj. rewrite Hj, andb_true_r. reflexivity. }
      assert (Hin : forall x, In x (unhandled s) <-> In x nb \/ In x unh).
      { intros x. rewrite <- in_app_iff. split; intros H; [eapply Permutation_in; [exact P|auto]|eapply Permutation_in; [symmetry; exact P|auto]]. }
      destruct (IH (q ++ nb) (mkA (upd (marks s) j (Some c)) unh dg)) as (s' & Es & B & N' & O' & L').
      * constructor; cbn [marks unhandled dendrogram].
        -- rewrite upd_length. auto.
        -- intros k i. rewrite Hmk. destruct (Nat.eqb_spec j k) as [<-|]; [intros [= <-]; auto|apply e_marks0].
        -- rewrite <- app_assoc. apply NoDup_app_intro; auto. intros x Hx Hc. apply in_app_iff in Hc. apply (Nx x); [right; auto|]. apply Hin. auto.
        -- intros k. rewrite Hmk. rewrite <- app_assoc, in_app_iff, in_app_iff. rewrite <- Hin. specialize (e_open0 k). cbn [app] in e_open0. simpl in e_open0. rewrite in_app_iff in e_open0. destruct (Nat.eqb_spec j k) as [<-|Hne].
           ++ split; [|intros (_ & _ & H); discriminate]. intros [H|H]; [contradiction|]. exfalso. apply (Nx j); [left; auto|auto].
           ++ rewrite <- e_open0. split; [intros [H|H]; auto|]. intros [H|[H|H]]; auto; contradiction.
        -- auto.
        -- intros i Hi. destruct (e_dendro0 i Hi) as [A B]. destruct (Nat.eq_dec i c) as [->|Hne].
           ++ split.
              ** eapply Permutation_NoDup; [symmetry; exact Pdg|]. apply NoDup_app_intro; auto; [apply NoDup_app_inv in Npu; tauto|]. intros x Hx Hxn.
                 assert (Hxu : In x (unhandled s)) by (apply Hin; auto). apply B in Hx as [Hx|[_ Hx]]; [|apply (Nx x); auto]. assert (Ho : In x ((j :: q) ++ unhandled s)) by (apply in_app_iff; auto). apply e_open0 in Ho as (_ & _ & Ho). congruence.
              ** intros k. rewrite Hmk. assert (Hp : In k (nth c dg []) <-> In k (nth c (dendrogram s) []) \/ In k nb) by (rewrite <- in_app_iff; split; intros H; [eapply Permutation_in; [exact Pdg|auto]|eapply Permutation_in; [symmetry; exact Pdg|auto]]).
                 rewrite Hp, B, in_app_iff. simpl. destruct (Nat.eqb_spec j k) as [<-|Hk]; [split; auto|]. split; [intros [[H|[_ [H|H]]]|H]; auto; contradiction|intros [H|[_ [H|H]]]; auto].
           ++ rewrite Ndg by auto. split; auto. intros k. rewrite Hmk, B. destruct (Nat.eqb_spec j k) as [<-|Hk]; [|split; intros [H|[H _]]; auto; contradiction].
              split; [intros [H|[H _]]; [congruence|contradiction]|intros [H|[H _]]; [congruence|contradiction]].
        -- intros i Hi. destruct (e_roots0 i Hi) as (r' & A & B & C). exists r'. rewrite Hmk. destruct (Nat.eqb_spec j r') as [<-|]; [congruence|]. split; auto. split; auto. intros k. rewrite Hmk.
           intros Hk. apply (chain_mono (fun x => mark s x = Some i) _ nbr); [|auto|].
           ++ intros x Hx. rewrite Hmk. destruct (Nat.eqb_spec j x) as [<-|]; [congruence|auto].
           ++ apply C. destruct (Nat.eqb_spec j k); [injection Hk; lia|auto].
        -- destruct e_root0 as (A & B & C). rewrite Hmk. destruct (Nat.eqb_spec j r) as [<-|]; [congruence|]. split; auto. split; auto.
           assert (Hgrow : forall x, mark s x = Some c \/ In x (j :: q) -> nth x (upd (marks s) j (Some c)) None = Some c \/ In x (q ++ nb)).
           { intros x Hx. rewrite Hmk, in_app_iff. destruct (Nat.eqb_spec j x) as [E|E]; [auto|]. destruct Hx as [Hx|[Hx|Hx]]; auto. contradiction. }
           intros k. rewrite in_app_iff, Hmk. intros [H|[H|H]].
           ++ apply (chain_mono _ _ nbr nbr r k Hgrow ltac:(auto)). apply C. destruct (Nat.eqb_spec j k) as [E|]; [right; left; auto|auto].
           ++ apply (chain_mono _ _ nbr nbr r k Hgrow ltac:(auto)). apply C. right. right. auto.
           ++ apply chain_step with j; [apply (chain_mono _ _ nbr nbr r j Hgrow ltac:(auto)); apply C; right; left; reflexivity| |rewrite in_app_iff; auto]. rewrite Forall_forall in Fn. auto.
      * cbn [unhandled]. rewrite app_length. apply Permutation_length in P. rewrite app_length in P. simpl in Hf. lia.
      * exists s'. cbn [unhandled] in L'. apply Permutation_length in P. rewrite app_length in P. split; auto. split; auto. split; auto. split; [auto|lia].
Qed.

Lemma find_center_spec mk u : (forall k, In k u <-> k < n /\ dense k /\ nth k mk None = None) -> (forall i j, i <= j -> j < n -> (dens i <= dens j)%Q) ->
  forall m, m <= n -> (forall k, m <= k -> k < n -> dense k -> nth k mk None <> None) ->
  exists o u', find_center data dthr lb mk (rev (seq 0 m)) u = Ok (o, u') /\
    match o with
    | None => u' = u /\ forall k, k < n -> dense k -> nth k mk None <> None
    | Some k => k < n /\ dense k /\ nth k mk None = None /\ In k u /\ u' = remove Nat.eq_dec k u /\ forall i, k < i -> i < n -> dense i -> nth i mk None <> None
    end.
Proof.
  intros Hu Hs. induction m as [|m IH]; intros Hm Hd.
  - exists None, u. split; auto. split; auto. intros k Hk. apply Hd; lia.
  - rewrite seq_S, rev_app_distr. cbn [rev app plus find_center]. destruct (Qle_bool (dens m) dthr) eqn:El.
    + apply Qle_bool_iff in El. exists None, u. split; auto. split; auto. intros k Hk Dk. destruct (Nat.le_gt_cases (S m) k); [apply Hd; auto|]. exfalso. pose proof (Hs k m ltac:(lia) ltac:(lia)). unfold dense in Dk. lra.
    + apply Qle_bool_false in El. destruct (nth m mk None) as [c|] eqn:Em.
      * apply IH; [lia|]. intros k Hk Hn Dk. destruct (Nat.eq_dec k m) as [->|]; [congruence|apply Hd; auto; lia].
      * assert (Hin : In m u) by (apply Hu; repeat split; auto; lia).
        assert (Ex : existsb (Nat.eqb m) u = true) by (apply existsb_exists; exists m; split; auto; apply Nat.eqb_refl). rewrite Ex.
        exists (Some m), (remove Nat.eq_dec m u). split; auto. split; [lia|]. do 4 (split; [auto|]). intros i Hi. apply Hd. lia.
Qed.

Hypothesis Hsort : forall i j, i <= j -> j < n -> (dens i <= dens j)%Q.
Hypothesis Hdenser : forall i j, i < n -> j < n -> is_sparse data dthr athr (nth j lb b0) = false -> amount data (nth i lb b0) <= athr -> (dens i < dens j)%Q.

(** the state between two clusters *)
Definition hinv (o : option nat) (c : nat) (s : ast) : Prop :=
  base c s /\ NoDup (unhandled s) /\
  match o with
  | None => forall k, k < n -> dense k -> mark s k <> None
  | Some r => r < n /\ dense r /\ mark s r = None /\ (forall k, In k (unhandled s) <-> k < n /\ dense k /\ mark s k = None /\ k <> r) /\ forall i, r < i -> i < n -> dense i -> mark s i <> None
  end.

Lemma center_hinv c s : base c s -> NoDup (unhandled s) -> (forall k, In k (unhandled s) <-> k < n /\ dense k /\ mark s k = None) ->
  exists o s', find_block_center data dthr lb s = Ok (o, s') /\ hinv o c s' /\ length (unhandled s') + (match o with None => 0 | Some _ => 1 end) <= length (unhandled s).
Proof.
  intros B N O. unfold find_block_center. destruct (find_center_spec (marks s) (unhandled s) O Hsort n (Nat.le_refl _) ltac:(intros; lia)) as (o & u & E & H). rewrite E. cbn [bind fst snd].
  eexists _, _. split; [reflexivity|]. destruct B. destruct o as [r|].
  - destruct H as (H1 & H2 & H3 & H4 & -> & H5). split; [|cbn [unhandled]; pose proof (remove_length_lt Nat.eq_dec _ _ H4); lia]. split; [constructor; auto|]. cbn [unhandled marks]. split; [apply remove_nodup; auto|]. split; [auto|]. split; [auto|]. split; [auto|]. split; auto.
    intros k. split; [intros Hk; apply in_remove in Hk as [Hk Hne]; apply O in Hk; tauto|]. intros (A & B & C & E'). apply in_in_remove; auto. apply O. auto.
  - destruct H as (-> & H). split; [|cbn [unhandled]; lia]. split; [constructor; auto|]. cbn [unhandled marks]. split; auto.
Qed.

Lemma nodup_bound l : NoDup l -> (forall k, In k l -> k < n) -> length l <= n.
Proof. intros N H. rewrite <- (seq_length n 0). apply NoDup_incl_length; auto. intros k Hk. apply in_seq. specialize (H k Hk). lia. Qed.

Lemma allocate_spec fuel : forall o c s, hinv o c s -> length (unhandled s) + (match o with None => 0 | Some _ => 1 end) <= fuel ->
  exists c' s', allocate order data dthr athr lb fuel o c s = Ok (c', s') /\ base c' s' /\ forall k, k < n -> is_sparse data dthr athr (nth k lb b0) = false -> mark s' k <> None.
Proof.
  induction fuel as [|f IH]; intros o c s (B & N & H) Hf.
  - destruct o as [r|]; [lia|]. exists c, s. split; [reflexivity|]. split; [auto|]. intros k Hk Hs. apply H; auto. unfold is_sparse in Hs. apply orb_false_iff in Hs as [Hs _]. apply Qle_bool_false in Hs. auto.
  - destruct o as [r|].
    2:{ exists c, s. split; [reflexivity|]. split; [auto|]. intros k Hk Hs. apply H; auto. unfold is_sparse in Hs. apply orb_false_iff in Hs as [Hs _]. apply Qle_bool_false in Hs. auto. }
    destruct H as (Hr & Dr & Mr & O & Ab). cbn [allocate]. destruct (is_sparse data dthr athr (nth r lb b0)) eqn:Er.
    + exists c, s. split; [reflexivity|]. split; [auto|]. intros k Hk Hs. pose proof Hs as Hs'. unfold is_sparse in Er, Hs. apply orb_false_iff in Hs as [Hs _]. apply Qle_bool_false in Hs.
      apply orb_true_iff in Er as [Er|Er]; [apply Qle_bool_iff in Er; unfold dense in Dr; lra|]. apply Nat.leb_le in Er.
      destruct (Nat.le_gt_cases k r) as [Hle|Hgt]; [|apply Ab; auto]. exfalso. pose proof (Hdenser r k Hr Hk Hs' Er). pose proof (Hsort k r Hle Hr). lra.
    + unfold expand_cluster_block. pose proof B as B0. destruct B.
      destruct (update_dendrogram_spec (dendrogram s) c [r] ltac:(lia) ltac:(lia)) as (dg & Edg & Ldg & Ndg & Pdg). rewrite Edg. cbn [bind].
      destruct (neighbors_spec r (unhandled s) N) as (P & Npu & Fn). destruct (find_block_neighbors order lb r (unhandled s)) as [nb unh]. cbn [fst snd] in *.
      destruct (update_dendrogram_spec dg c nb ltac:(lia) ltac:(lia)) as (dg2 & Edg2 & Ldg2 & Ndg2 & Pdg2). rewrite Edg2. cbn [bind].
      assert (Hmk : forall k, nth k (upd (marks s) r (Some c)) None = if r =? k then Some c else mark s k).
      { intros k. rewrite upd_nth. rewrite <- b_len0 in Hr. apply Nat.ltb_lt in Hr. rewrite Hr, andb_true_r. reflexivity. }
      assert (Hin : forall x, In x (unhandled s) <-> In x nb \/ In x unh).
      { intros x. rewrite <- in_app_iff. split; intros H; [eapply Permutation_in; [exact P|auto]|eapply Permutation_in; [symmetry; exact P|auto]]. }
      assert (Hc0 : nth c (dendrogram s) [] = []) by (apply nth_overflow; lia).
      assert (Pc : Permutation (nth c dg2 []) (r :: nb)) by (rewrite Pdg2, Pdg, Hc0; auto).
      destruct (expand_spec c r n nb (mkA (upd (marks s) r (Some c)) unh dg2)) as (s1 & E1 & B1 & N1 & O1 & L1).
      * constructor; cbn [marks unhandled dendrogram].
        -- rewrite upd_length. auto.
        -- intros k j. rewrite Hmk. destruct (Nat.eqb_spec r k) as [<-|]; [intros [= <-]; auto|]. intros H. destruct (b_marks0 k j H) as (A1 & A2 & A3). repeat split; auto. lia.
        -- auto.
        -- intros k. rewrite Hmk, in_app_iff, <- Hin, O. destruct (Nat.eqb_spec r k) as [<-|Hne]; [split; [intros (_ & _ & _ & H); contradiction|intros (_ & _ & H); discriminate]|]. split; [tauto|]. intros (A1 & A2 & A3). auto.
        -- auto.
        -- intros j Hj. destruct (Nat.eq_dec j c) as [->|Hne].
           ++ split.
              ** eapply Permutation_NoDup; [symmetry; exact Pc|]. constructor; [|apply NoDup_app_inv in Npu; tauto]. intros H. assert (Hx : In r (unhandled s)) by (apply Hin; auto). apply O in Hx as (_ & _ & _ & Hx). auto.
              ** intros k. rewrite Hmk. assert (Hp : In k (nth c dg2 []) <-> r = k \/ In k nb) by (split; intros H; [apply (Permutation_in _ Pc) in H; exact H|eapply Permutation_in; [symmetry; exact Pc|exact H]]).
                 rewrite Hp. destruct (Nat.eqb_spec r k) as [->|Hk]; [split; auto|]. split; [intros [H|H]; [contradiction|auto]|]. intros [H|[_ H]]; auto. apply b_marks0 in H. lia.
           ++ rewrite Ndg2, Ndg by auto. destruct (b_dendro0 j ltac:(lia)) as [A1 A2]. split; auto. intros k. rewrite Hmk, A2. destruct (Nat.eqb_spec r k) as [<-|Hk]; [|split; [auto|intros [H|[H _]]; [auto|contradiction]]].
              split; [congruence|intros [H|[H _]]; [injection H; lia|contradiction]].
        -- intros j Hj. destruct (b_roots0 j Hj) as (r' & A1 & A2 & A3). exists r'. rewrite Hmk. destruct (Nat.eqb_spec r r') as [<-|]; [congruence|]. split; auto. split; auto. intros k. rewrite Hmk. intros Hk. apply (chain_mono (fun x => mark s x = Some j) _ nbr); [|auto|].
           ++ intros x Hx. rewrite Hmk. destruct (Nat.eqb_spec r x) as [<-|]; [congruence|auto].
           ++ apply A3. destruct (Nat.eqb_spec r k); [injection Hk; lia|auto].
        -- rewrite Hmk, Nat.eqb_refl. split; auto. split; auto. intros k. rewrite Hmk. destruct (Nat.eqb_spec r k) as [<-|Hk]; [intros _; constructor|]. intros [H|H]; [apply b_marks0 in H; lia|]. apply chain_step with r; [constructor| |auto]. rewrite Forall_forall in Fn. auto.
      * cbn [unhandled]. rewrite <- app_length. apply nodup_bound; auto. intros k Hk. apply in_app_iff, Hin, O in Hk. tauto.
      * rewrite E1. cbn [bind]. destruct (center_hinv (S c) s1 B1 N1 O1) as (o' & s2 & E2 & H2 & L2). rewrite E2. cbn [bind fst snd]. apply IH; auto.
        cbn [unhandled] in L1. apply Permutation_length in P. rewrite app_length in P. lia.
Qed.

Lemma store_spec c mk : (forall k j, nth k mk None = Some j -> j < c) ->
  let r := store_results order data lb c mk [] in
  length (fst r) = c /\ (forall j, j < c -> NoDup (nth j (fst r) []) /\ forall i, In i (nth j (fst r) []) <-> exists k, k < n /\ nth k mk None = Some j /\ In i (points data (nth k lb b0))) /\
  NoDup (snd r) /\ forall i, In i (snd r) <-> exists k, k < n /\ nth k mk None = None /\ In i (points data (nth k lb b0)).
Proof.
  intros Hmk. unfold store_results. set (f := fun acc k => _).
  assert (G : forall m, length (fst (fold_left f (seq 0 m) (repeat [] c, []))) = c /\
    (forall j, j < c -> forall i, In i (nth j (fst (fold_left f (seq 0 m) (repeat [] c, []))) []) <-> exists k, k < m /\ nth k mk None = Some j /\ In i (points data (nth k lb b0))) /\
    (forall i, In i (snd (fold_left f (seq 0 m) (repeat [] c, []))) <-> exists k, k < m /\ nth k mk None = None /\ In i (points data (nth k lb b0)))).
  { induction m as [|m (I1 & I2 & I3)].
    - cbn [seq fold_left fst snd]. split; [apply repeat_length|]. split; [intros j Hj i; rewrite nth_repeat|intros i]; (split; [intros []|intros (k & Hk & _); lia]).
    - rewrite seq_S, fold_left_app. cbn [plus fold_left]. set (acc := fold_left f (seq 0 m) (repeat [] c, [])) in *. unfold f. destruct (nth m mk None) as [j0|] eqn:Em; cbn [fst snd].
      + pose proof (Hmk _ _ Em) as Hj0. split; [rewrite upd_length; auto|]. split.
        * intros j Hj i. rewrite upd_nth. destruct (Nat.eqb_spec j0 j) as [->|Hne].
          -- rewrite I1. destruct (Nat.ltb_spec j c); [|lia]. cbn [andb]. rewrite in_app_iff, I2 by auto. split.
             ++ intros [(k & Hk & A)|H']; [exists k; split; [lia|auto]|exists m; auto].
             ++ intros (k & Hk & A & B). destruct (Nat.eq_dec k m) as [->|]; [auto|left; exists k; split; [lia|auto]].
          -- cbn [andb]. rewrite I2 by auto. split; intros (k & Hk & A & B); exists k; split; auto. destruct (Nat.eq_dec k m) as [->|]; [congruence|lia].
        * intros i. rewrite I3. split; intros (k & Hk & A & B); exists k; split; auto. destruct (Nat.eq_dec k m) as [->|]; [congruence|lia].
      + split; [auto|]. split.
        * intros j Hj i. rewrite I2 by auto. split; intros (k & Hk & A & B); exists k; split; auto. destruct (Nat.eq_dec k m) as [->|]; [congruence|lia].
        * intros i. rewrite in_app_iff, I3. split.
          -- intros [(k & Hk & A)|H']; [exists k; split; [lia|auto]|exists m; auto].
          -- intros (k & Hk & A & B). destruct (Nat.eq_dec k m) as [->|]; [auto|left; exists k; split; [lia|auto]]. }
  destruct (G n) as (I1 & I2 & I3). destruct (fold_left f (seq 0 n) (repeat [] c, [])) as [cl ns]. cbn [fst snd] in *.
  assert (Hset : forall l, NoDup (as_set order l) /\ forall i, In i (as_set order l) <-> In i l).
  { intros l. unfold as_set. split; [eapply Permutation_NoDup; [symmetry; apply Horder|apply NoDup_nodup]|]. intros i. rewrite <- (nodup_In Nat.eq_dec l i). split; intros H; [eapply Permutation_in; [apply Horder|auto]|eapply Permutation_in; [symmetry; apply Horder|auto]]. }
  split; [rewrite map_length; auto|]. split; [|split; [apply Hset|intros i; rewrite (proj2 (Hset ns)); apply I3]].
  intros j Hj. rewrite (nth_indep _ [] (as_set order [])) by (rewrite map_length; lia). rewrite map_nth. split; [apply Hset|]. intros i. rewrite (proj2 (Hset _)). apply I2. auto.
Qed.
End Allocation.

(** * process() *)
Section Process.
Variable order : list nat -> list nat.
Hypothesis Horder : forall l, Permutation (order l) l.
Variable data : list point.
Variable D levels : nat.
Variable dthr : Q.
Variable athr : nat.
Hypothesis Hdim : forall p, In p data -> length p = D.
Hypothesis HD : 1 <= D.
Hypothesis Hne : data <> [].
Hypothesis Hlev : 1 <= levels.
Hypothesis Hthr : (0 <= dthr)%Q.

Lemma points_in b i : In i (points data b) <-> i < length data /\ inside (nth i data []) b.
Proof. unfold points. rewrite filter_In, in_seq, contains_spec. split; intros [A B]; split; auto; lia. Qed.

Lemma neighbor_spec b1 b2 : length (bmax b2) = D -> is_neighbor b1 b2 = true ->
  forall i, i < D -> (Qabs (coord (bmax b2) i - coord (bmax b1) i) <= (coord (bmax b1) i - coord (bmin b1) i) * (10001 # 10000))%Q.
Proof.
  intros Hb. unfold is_neighbor. rewrite Hb. intros H i Hi. apply Nat.eqb_eq in H.
  assert (G : forall (f : nat -> bool) l, length (filter f l) = length l -> forall x, In x l -> f x = true).
  { intros f l. assert (L : forall l', length (filter f l') <= length l') by (induction l' as [|y l' IH]; simpl; [lia|destruct (f y); simpl; lia]).
    induction l as [|y l IH]; intros E x Hx; [destruct Hx|]. specialize (L l). simpl in E. destruct (f y) eqn:Ey; simpl in E; [|lia]. destruct Hx as [<-|Hx]; [exact Ey|]. apply IH; [lia|exact Hx]. }
  rewrite <- (seq_length D 0) in H at 2. specialize (G _ _ H i ltac:(apply in_seq; lia)). cbv beta in G. apply Qle_bool_iff in G. unfold side in G. lra.
Qed.

Theorem bang_spec : exists b d, process order data levels dthr athr initial = Ok b /\ dir b = Some d /\
  let lb := leafs d in let mk := leaf_marks b in
  length mk = length lb /\
  (forall k j, nth k mk None = Some j -> k < length lb /\ j < length (clusters b) /\ dense data dthr lb k) /\
  (forall k, k < length lb -> is_sparse data dthr athr (nth k lb b0) = false -> nth k mk None <> None) /\
  (forall j, j < length (clusters b) -> NoDup (nth j (clusters b) []) /\ forall i, In i (nth j (clusters b) []) <-> i < length data /\ exists k, k < length lb /\ nth k mk None = Some j /\ inside (nth i data []) (nth k lb b0)) /\
  NoDup (noise b) /\ (forall i, In i (noise b) <-> i < length data /\ exists k, k < length lb /\ nth k mk None = None /\ inside (nth i data []) (nth k lb b0)) /\
  (forall j, j < length (clusters b) -> exists r, nth r mk None = Some j /\ is_sparse data dthr athr (nth r lb b0) = false /\ forall k, nth k mk None = Some j -> chain (fun x => nth x mk None = Some j) (nbr lb) r k) /\
  length (dendro b) = length (clusters b) /\
  (forall j, j < length (clusters b) -> NoDup (nth j (dendro b) []) /\ forall k, In k (nth j (dendro b) []) <-> nth k mk None = Some j) /\
  (forall i, i < length data -> exists k, k < length lb /\ inside (nth i data []) (nth k lb b0)) /\
  (forall k k' p, k < length lb -> k' < length lb -> k <> k' -> length p = D -> inside p (nth k lb b0) -> inside p (nth k' lb b0) -> on_common_face D p (nth k lb b0) (nth k' lb b0)) /\
  length (level_blocks d) = Nat.max 1 (levels - 1) /\
  (forall k, k < length lb -> wf D (nth k lb b0)).
Proof.
  unfold process. destruct (create_directory_spec data D levels dthr athr Hdim HD Hne Hlev) as (d & s0 & Ed & Ls0 & Ps0 & Fl & FO & Cv & Ss & Hh).
  destruct (Nat.eqb_spec (length data) 0) as [E0|_]; [destruct data; [congruence|discriminate]|]. destruct (Nat.ltb_spec levels 1); [lia|]. destruct (Qltb dthr 0) eqn:Et; [apply Qltb_true in Et; lra|].
  rewrite Ed. cbn [bind initial dendro noise]. set (lb := leafs d) in *. set (unh := filter _ _).
  assert (Hsort : forall i j, i <= j -> j < length lb -> (density data (nth i lb b0) <= density data (nth j lb b0))%Q) by (intros i j Hij Hj; apply (sorted_nth D HD (density data)); auto).
  assert (Hdenser : forall i j, i < length lb -> j < length lb -> is_sparse data dthr athr (nth j lb b0) = false -> amount data (nth i lb b0) <= athr -> (density data (nth i lb b0) < density data (nth j lb b0))%Q).
  { intros i j Hi Hj Hs Ha. rewrite Forall_forall in Fl. apply (denser data D levels dthr athr HD s0); auto; apply Fl, nth_In; auto. }
  assert (Hu : forall k, In k unh <-> k < length lb /\ dense data dthr lb k /\ nth k (repeat (@None nat) (length lb)) None = None).
  { intros k. unfold unh. rewrite filter_In, in_seq, nth_repeat, Qltb_true. unfold dense. split; intros (A & B); split; auto; try lia. destruct B; auto. }
  destruct (center_hinv data dthr athr lb Hsort 0 (mkA (repeat None (length lb)) unh [])) as (o & s1 & E1 & H1 & L1); cbn [marks unhandled dendrogram].
  - constructor; cbn [marks dendrogram]; auto; try (intros; lia). + apply repeat_length. + intros k j. rewrite nth_repeat. discriminate.
  - apply NoDup_filter, seq_NoDup.
  - exact Hu.
  - rewrite E1. cbn [bind fst snd].
    destruct (allocate_spec order Horder data dthr athr lb Hsort Hdenser (S (length lb)) o 0 s1 H1) as (c & s2 & E2 & B2 & M2).
    { cbn [unhandled] in L1. pose proof (nodup_bound lb unh ltac:(apply NoDup_filter, seq_NoDup) ltac:(intros k Hk; apply Hu in Hk; tauto)). lia. }
    rewrite E2. cbn [bind]. destruct B2.
    pose proof (store_spec order Horder data lb c (marks s2) ltac:(intros k j Hk; apply b_marks0 in Hk; tauto)) as S. destruct (store_results order data lb c (marks s2) []) as [cl ns]. cbn [fst snd] in S. destruct S as (S1 & S2 & S3 & S4).
    eexists _, d. split; [reflexivity|]. cbn [dir leaf_marks clusters noise dendro]. fold lb. rewrite S1. split; [reflexivity|]. split; [auto|]. split; [auto|]. split; [auto|]. split; [|split; [auto|split; [|split; [|split; [auto|split; [auto|split; [|split; [|split; [auto|]]]]]]]]].
    + intros j Hj. destruct (S2 j Hj) as [A B]. split; auto. intros i. rewrite B. split.
      * intros (k & Hk & Hm & Hp). apply points_in in Hp as [Hp Hi]. eauto 6.
      * intros (Hi & k & Hk & Hm & Hp). exists k. split; auto. split; auto. apply points_in. auto.
    + intros i. rewrite S4. split.
      * intros (k & Hk & Hm & Hp). apply points_in in Hp as [Hp Hi]. eauto 6.
      * intros (Hi & k & Hk & Hm & Hp). exists k. split; auto. split; auto. apply points_in. auto.
    + exact b_roots0.
    + intros i Hi. destruct (Cv (nth i data []) (nth_In _ _ Hi)) as (b & Hb & Hin). apply In_nth with (d := b0) in Hb as (k & Hk & <-). eauto.
    + intros k k' p Hk Hk' Hkk Hp H1' H2'. apply (FOP_nth (meet D) (meet_sym D) b0 lb FO k k' Hk Hk' Hkk); auto.
    + intros k Hk. rewrite Forall_forall in Fl. apply (Fl (nth k lb b0)), nth_In; auto.
Qed.
End Process.
