(** Properties of the pictures of segments and dynamics (C194-C200). *)
From Verif Require Import Base Draw_Model.

(** * Pictures of segments *)

(** Pixel x of row y. *)
Definition pixel (picture : list (list rgb)) (x y : nat) : rgb := nth x (nth y picture []) white.

Lemma nth_skipn {A} (l : list A) n k d : nth k (skipn n l) d = nth (n + k) l d.
Proof. revert n. induction l as [|a l IH]; intros [|n]; cbn; auto; destruct k; reflexivity. Qed.

Lemma nth_firstn {A} (l : list A) n k d : k < n -> nth k (firstn n l) d = nth k l d.
Proof.
  revert n k. induction l as [|a l IH]; intros [|n] [|k] H; cbn; auto; try lia. apply IH. lia.
Qed.

Lemma reshape_pixel w h : forall p x y, x < w -> y < h -> pixel (reshape w h p) x y = nth (y * w + x) p white.
Proof.
  unfold pixel. induction h as [|h IH]; intros p x y Hx Hy; [lia|]. cbn [reshape]. destruct y as [|y]; cbn [nth].
  - apply nth_firstn. exact Hx.
  - rewrite IH by lia. rewrite nth_skipn. f_equal. lia.
Qed.

Lemma reshape_shape w h : forall p, length p = w * h ->
  length (reshape w h p) = h /\ Forall (fun r => length r = w) (reshape w h p).
Proof.
  induction h as [|h IH]; intros p Hp; cbn [reshape length]; [auto|].
  destruct (IH (skipn w p)) as [H1 H2]; [rewrite skipn_length; nia|].
  split; [congruence|]. constructor; [|exact H2]. rewrite firstn_length. nia.
Qed.

Lemma paint_spec color pixels : forall p p', paint p color pixels = Ok p' ->
  length p' = length p /\
  (forall i, In i pixels -> i < length p) /\
  (forall i, ~ In i pixels -> nth i p' white = nth i p white) /\
  (forall i, In i pixels -> exists c, color = Ok c /\ nth i p' white = c).
Proof.
  induction pixels as [|a rest IH]; intros p p' H; cbn [paint] in H.
  - injection H as <-. repeat split; auto; intros i [].
  - destruct color as [c|]; cbn [bind] in H; [|discriminate].
    destruct (Nat.ltb_spec a (length p)) as [Ha|]; [|discriminate].
    destruct (IH _ _ H) as (L & B & N & I). rewrite upd_length in L, B. split; [exact L|]. split; [|split].
    + intros i [<-|Hi]; auto.
    + intros i Hi. rewrite N by (intro; apply Hi; now right). apply upd_nth_neq. intro; subst; apply Hi; now left.
    + intros i Hi. exists c. split; [reflexivity|].
      destruct (in_dec Nat.eq_dec i rest) as [Hr|Hr].
      * destruct (I i Hr) as (c' & E & ?). congruence.
      * destruct Hi as [<-|Hi]; [|contradiction]. rewrite N by exact Hr. now apply upd_nth_eq.
Qed.

Lemma paint_ok c pixels : forall p, (forall i, In i pixels -> i < length p) -> exists p', paint p (Ok c) pixels = Ok p'.
Proof.
  induction pixels as [|a rest IH]; intros p H; cbn [paint]; [eauto|]. cbn [bind].
  destruct (Nat.ltb_spec a (length p)); [|specialize (H a (or_introl eq_refl)); lia].
  apply IH. intros i Hi. rewrite upd_length. apply H. now right.
Qed.

Lemma paint_segments_spec cs : forall k p p', paint_segments p k cs = Ok p' ->
  length p' = length p /\
  (forall j i, In i (nth j cs []) -> i < length p /\ k + j < length AVAILABLE) /\
  (forall i, (forall j, ~ In i (nth j cs [])) -> nth i p' white = nth i p white) /\
  (forall i j, In i (nth j cs []) -> (forall j', j < j' -> ~ In i (nth j' cs [])) -> nth i p' white = nth (k + j) AVAILABLE white).
Proof.
  induction cs as [|c cs IH]; intros k p p' H; cbn [paint_segments] in H.
  - injection H as <-. repeat split; auto; intros; destruct j; contradiction.
  - set (color := match nth_error AVAILABLE k with Some x => Ok x | None => Raise IndexError end) in *.
    destruct (paint p color c) as [q|] eqn:Eq; cbn [bind] in H; [|discriminate].
    apply paint_spec in Eq. destruct Eq as (L1 & B1 & N1 & I1). destruct (IH _ _ _ H) as (L2 & B2 & N2 & I2).
    split; [congruence|]. split; [|split].
    + intros [|j] i Hi; cbn [nth] in Hi.
      * split; [auto|]. destruct (I1 i Hi) as (x & E & _). unfold color in E.
        destruct (nth_error AVAILABLE k) eqn:En; [|discriminate]. rewrite Nat.add_0_r. apply nth_error_Some. congruence.
      * destruct (B2 j i Hi). split; [congruence|]. lia.
    + intros i Hi. rewrite N2 by (intro j; apply (Hi (S j))). apply N1. apply (Hi 0).
    + intros i [|j] Hi Hlast; cbn [nth] in Hi.
      * rewrite N2 by (intros j; apply (Hlast (S j)); lia). destruct (I1 i Hi) as (x & E & ->). unfold color in E.
        destruct (nth_error AVAILABLE k) eqn:En; [|discriminate]. injection E as <-. rewrite Nat.add_0_r.
        symmetry. now apply nth_error_nth.
      * rewrite (I2 i j Hi); [f_equal; lia|]. intros j' Hj'. apply (Hlast (S j')). lia.
Qed.

(** ** C194: the coloured picture of the segments *)

(** The picture has the size of the image; a pixel of segments has the colour
    of the last of them, a pixel of no segment is white. *)
Theorem C194_colours (w h : nat) (clusters : list (list nat)) picture :
  color_segments w h clusters = Ok picture ->
  length picture = h /\ Forall (fun r => length r = w) picture /\
  forall x y, x < w -> y < h ->
    (forall k, In (y * w + x) (nth k clusters []) -> (forall j, k < j -> ~ In (y * w + x) (nth j clusters [])) ->
       pixel picture x y = nth k AVAILABLE white) /\
    ((forall k, ~ In (y * w + x) (nth k clusters [])) -> pixel picture x y = white).
Proof.
  unfold color_segments. intro H.
  destruct (paint_segments (repeat white (w * h)) 0 clusters) as [p|] eqn:E; cbn [bind] in H; [|discriminate].
  injection H as <-. apply paint_segments_spec in E. destruct E as (L & B & N & I). rewrite repeat_length in L.
  destruct (reshape_shape w h p L) as [S1 S2]. split; [exact S1|]. split; [exact S2|].
  intros x y Hx Hy. rewrite (reshape_pixel w h p x y Hx Hy). split.
  - intros k Hk Hlast. now rewrite (I _ k Hk Hlast).
  - intro Hk. rewrite (N _ Hk). destruct (nth_in_or_default (y * w + x) (repeat white (w * h)) white) as [Hin|E]; [|exact E].
    now apply repeat_spec in Hin.
Qed.
Print Assumptions C194_colours.

(** It works exactly for pixels of the image and at most 19 segments (not
    counting empty ones at the end). *)
Theorem C194_works (w h : nat) (clusters : list (list nat)) :
  (exists picture, color_segments w h clusters = Ok picture) <->
  (forall k i, In i (nth k clusters []) -> i < w * h /\ k < 19).
Proof.
  unfold color_segments. split.
  - intros [picture H] k i Hi.
    destruct (paint_segments (repeat white (w * h)) 0 clusters) as [p|] eqn:E; cbn [bind] in H; [|discriminate].
    apply paint_segments_spec in E. destruct E as (_ & B & _). destruct (B k i Hi) as [B1 B2]. rewrite repeat_length in B1.
    split; [exact B1|exact B2].
  - intro H.
    assert (G : forall cs k p, length p = w * h -> (forall j i, In i (nth j cs []) -> i < w * h /\ k + j < 19) ->
       exists p', paint_segments p k cs = Ok p').
    { induction cs as [|c cs IH]; intros k p Hp Hc; cbn [paint_segments]; [eauto|].
      assert (Hq : exists q, paint p (match nth_error AVAILABLE k with Some x => Ok x | None => Raise IndexError end) c = Ok q).
      { destruct c as [|a c]; [cbn; eauto|].
        destruct (nth_error AVAILABLE k) eqn:En.
        - apply paint_ok. intros i Hi. rewrite Hp. apply (Hc 0 i Hi).
        - exfalso. apply nth_error_None in En. change (length AVAILABLE) with 19 in En.
          destruct (Hc 0 a (or_introl eq_refl)). lia. }
      destruct Hq as [q Hq]. rewrite Hq. cbn [bind]. apply IH.
      - apply paint_spec in Hq. destruct Hq as [-> _]. exact Hp.
      - intros j i Hi. destruct (Hc (S j) i Hi). split; [auto|lia]. }
    destruct (G clusters 0 (repeat white (w * h))) as [p ->]; [apply repeat_length| |cbn; eauto].
    intros j i Hi. apply (H j i Hi).
Qed.
Print Assumptions C194_works.

(** "Each colour represents a segment" is false: the third and the sixth
    segment have the same colour. *)
Theorem C194_distinct_refuted :
  exists (w h : nat) (clusters : list (list nat)) picture x y x' y' k k',
    color_segments w h clusters = Ok picture /\ NoDup (concat clusters) /\
    In (y * w + x) (nth k clusters []) /\ In (y' * w + x') (nth k' clusters []) /\ k <> k' /\
    pixel picture x y = pixel picture x' y'.
Proof.
  exists 3, 2, [[0]; [1]; [2]; [3]; [4]; [5]]. eexists. exists 2, 0, 2, 1, 2, 5.
  split; [reflexivity|]. split.
  - cbn. repeat (constructor; [cbn; lia|]). constructor.
  - cbn. repeat split; auto.
Qed.
Print Assumptions C194_distinct_refuted.

(** These two are the only ones; no segment is white. *)
Theorem C194_other_colours (i j : nat) :
  i < j -> j < 19 -> ~ (i = 2 /\ j = 5) ->
  nth i AVAILABLE white <> nth j AVAILABLE white /\ nth i AVAILABLE white <> white /\ nth j AVAILABLE white <> white.
Proof.
  intros H1 H2 H3.
  do 19 (destruct j as [|j]; [do 19 (destruct i as [|i]; [first [lia | cbn; repeat split; discriminate]|]); lia|]). lia.
Qed.
Print Assumptions C194_other_colours.

Example C194_example :
  color_segments 2 2 [[0; 3]; [1]] = Ok [[(0, 162, 232); (34, 177, 76)]; [white; (0, 162, 232)]].
Proof. reflexivity. Qed.

(** ** The grid of several pictures *)

Lemma grid_fits n : 2 <= n ->
  n <= grid_rows n * grid_cols n /\ grid_rows n * grid_cols n < n + grid_cols n /\ 2 <= grid_cols n /\ 1 <= grid_rows n /\
  grid_rows n <= grid_cols n.
Proof.
  intro Hn. unfold grid_rows. pose proof (Nat.sqrt_up_spec n ltac:(lia)) as [S1 S2].
  fold (grid_cols n) in S1, S2. assert (Hc : 2 <= grid_cols n) by nia.
  pose proof (Nat.div_mod (n + (grid_cols n - 1)) (grid_cols n) ltac:(lia)) as E.
  pose proof (Nat.mod_upper_bound (n + (grid_cols n - 1)) (grid_cols n) ltac:(lia)) as E2.
  set (q := (n + (grid_cols n - 1)) / grid_cols n) in *. set (c := grid_cols n) in *.
  repeat split; nia.
Qed.

(** The k-th cell, row by row. *)
Definition cell_of (n k : nat) : cell :=
  if grid_rows n =? 1 then Place k else Cell (k / grid_cols n) (k mod grid_cols n).

Lemma first_cell_of n : 2 <= n -> first_cell n = cell_of n 0.
Proof.
  intro Hn. destruct (grid_fits n Hn) as (_ & _ & Hc & _ & _). unfold first_cell, cell_of.
  destruct (Nat.eqb_spec (grid_cols n) 1); [lia|]. cbn [orb].
  destruct (grid_rows n =? 1); [reflexivity|]. rewrite Nat.div_0_l, Nat.mod_0_l by lia. reflexivity.
Qed.

Lemma next_cell_of n k : 2 <= n -> next_cell (grid_cols n) (cell_of n k) = cell_of n (S k).
Proof.
  intro Hn. destruct (grid_fits n Hn) as (_ & _ & Hc & _ & _). unfold cell_of.
  destruct (grid_rows n =? 1); [reflexivity|]. cbn [next_cell].
  pose proof (Nat.div_mod k (grid_cols n) ltac:(lia)) as E.
  pose proof (Nat.mod_upper_bound k (grid_cols n) ltac:(lia)) as E2.
  set (q := k / grid_cols n) in *. set (r := k mod grid_cols n) in *.
  destruct (Nat.leb_spec (grid_cols n) (S r)).
  - f_equal; [apply (Nat.div_unique (S k) (grid_cols n) (S q) 0); nia|apply (Nat.mod_unique (S k) (grid_cols n) (S q) 0); nia].
  - f_equal; [apply (Nat.div_unique (S k) (grid_cols n) q (S r)); nia|apply (Nat.mod_unique (S k) (grid_cols n) q (S r)); nia].
Qed.

Lemma cell_of_exists n k : 2 <= n -> k < n -> cell_exists n (cell_of n k) = true.
Proof.
  intros Hn Hk. destruct (grid_fits n Hn) as (H1 & _ & Hc & _ & _). unfold cell_of.
  destruct (Nat.eqb_spec (grid_rows n) 1); cbn [cell_exists].
  - apply Nat.ltb_lt. lia.
  - apply andb_true_iff. split; apply Nat.ltb_lt; [|apply Nat.mod_upper_bound; lia].
    apply Nat.div_lt_upper_bound; lia.
Qed.

Lemma cell_of_inj n j k : 2 <= n -> cell_of n j = cell_of n k -> j = k.
Proof.
  intros Hn H. destruct (grid_fits n Hn) as (H1 & _ & Hc & _ & _). unfold cell_of in H.
  destruct (grid_rows n =? 1); [now injection H|].
  injection H as Hq Hr. rewrite (Nat.div_mod j (grid_cols n)), (Nat.div_mod k (grid_cols n)) by lia. congruence.
Qed.

(** ** C195: the masks of the segments *)

Lemma draw_masks_spec n w h clusters : 2 <= n -> forall k, k + length clusters <= n ->
  (forall j i, In i (nth j clusters []) -> i < w * h) ->
  exists l, draw_masks n w h (cell_of n k) clusters = Ok l /\ map fst l = map (cell_of n) (seq k (length clusters)) /\
    forall j, j < length clusters -> exists c p, nth_error l j = Some (c, p) /\
      forall x y, x < w -> y < h -> pixel p x y = if existsb (Nat.eqb (y * w + x)) (nth j clusters []) then black else white.
Proof.
  intro Hn. induction clusters as [|c cs IH]; intros k Hk Hc; cbn [draw_masks].
  - exists []. repeat split. intros j Hj. cbn in Hj. lia.
  - unfold mask. destruct (paint_ok black c (repeat white (w * h))) as [p Hp].
    { intros i Hi. rewrite repeat_length. apply (Hc 0 i Hi). }
    rewrite Hp. cbn [bind]. cbn [length] in Hk. rewrite cell_of_exists by lia. rewrite next_cell_of by lia.
    destruct (IH (S k) ltac:(lia) (fun j i Hi => Hc (S j) i Hi)) as (l & -> & Hf & Hl). cbn [bind].
    eexists. split; [reflexivity|]. split; [cbn [map fst length seq]; now rewrite Hf|].
    intros [|j] Hj; cbn [length] in Hj; cbn [nth_error nth].
    + eexists. eexists. split; [reflexivity|]. intros x y Hx Hy. rewrite reshape_pixel by auto.
      apply paint_spec in Hp. destruct Hp as (_ & _ & N & I).
      destruct (existsb (Nat.eqb (y * w + x)) c) eqn:E.
      * apply existsb_exists in E. destruct E as (i & Hi & E). apply Nat.eqb_eq in E. subst i.
        destruct (I _ Hi) as (b & Eb & ->). now injection Eb.
      * rewrite N.
        -- destruct (nth_in_or_default (y * w + x) (repeat white (w * h)) white) as [Hin|E0]; [|exact E0].
           now apply repeat_spec in Hin.
        -- intro Hi. assert (existsb (Nat.eqb (y * w + x)) c = true); [|congruence].
           apply existsb_exists. exists (y * w + x). split; [exact Hi|apply Nat.eqb_refl].
    + apply Hl. lia.
Qed.

(** a cell inside the grid of axes for [n] pictures *)
Definition on_grid (n : nat) (c : cell) : Prop :=
  match c with Cell r k => r < grid_rows n /\ k < grid_cols n | Place i => i < grid_rows n * grid_cols n end.
Lemma exists_on_grid n c : cell_exists n c = true <-> on_grid n c.
Proof. destruct c; cbn [cell_exists on_grid]; rewrite ?andb_true_iff, ?Nat.ltb_lt; tauto. Qed.
Lemma all_on_grid n l : Forall (fun c => cell_exists n c = true) l -> Forall (on_grid n) l.
Proof. apply Forall_impl. intros c. apply exists_on_grid. Qed.

Lemma masks_spec (w h : nat) (clusters : list (list nat)) :
  clusters <> [] -> (forall j i, In i (nth j clusters []) -> i < w * h) ->
  let n := S (length clusters) in
  exists l, mask_segments w h clusters = Ok (Some (cell_of n 0, l)) /\
    map fst l = map (cell_of n) (seq 1 (length clusters)) /\
    NoDup (cell_of n 0 :: map fst l) /\ Forall (fun c => cell_exists n c = true) (cell_of n 0 :: map fst l) /\
    forall j, j < length clusters -> exists c p, nth_error l j = Some (c, p) /\
      forall x y, x < w -> y < h -> pixel p x y = if existsb (Nat.eqb (y * w + x)) (nth j clusters []) then black else white.
Proof.
  intros Hne Hc n. assert (Hn : 2 <= n) by (unfold n; destruct clusters; [contradiction|cbn; lia]).
  unfold mask_segments. destruct clusters as [|c cs]; [contradiction|]. set (clusters := c :: cs) in *.
  fold n. rewrite (first_cell_of n Hn), (cell_of_exists n 0 Hn) by lia.
  assert (E : match cell_of n 0 with Cell _ _ => Cell 0 1 | Place i => Place (S i) end = cell_of n 1).
  { rewrite <- (next_cell_of n 0 Hn). destruct (grid_fits n Hn) as (_ & _ & Hcol & _ & _). unfold cell_of.
    destruct (grid_rows n =? 1); [reflexivity|]. rewrite Nat.div_0_l, Nat.mod_0_l by lia. cbn [next_cell].
    destruct (Nat.leb_spec (grid_cols n) 1); [lia|reflexivity]. }
  rewrite E. destruct (draw_masks_spec n w h clusters Hn 1 ltac:(unfold n; lia) Hc) as (l & -> & Hf & Hl).
  cbn [bind]. exists l. split; [reflexivity|]. split; [exact Hf|].
  rewrite Hf. change (cell_of n 0 :: map (cell_of n) (seq 1 (length clusters))) with (map (cell_of n) (seq 0 n)).
  split; [|split; [|exact Hl]].
  - apply FinFun.Injective_map_NoDup; [intros a b; now apply cell_of_inj|apply seq_NoDup].
  - apply Forall_forall. intros x Hx. apply in_map_iff in Hx. destruct Hx as (k & <- & Hk). apply in_seq in Hk.
    apply cell_of_exists; lia.
Qed.
(** The source image is in the first cell and the masks follow row by row, one
    for every segment, each in a cell of its own inside the grid; a mask is
    black exactly on its segment. *)
Theorem C195_masks (w h : nat) (clusters : list (list nat)) :
  clusters <> [] -> (forall j i, In i (nth j clusters []) -> i < w * h) ->
  let n := S (length clusters) in
  exists l, mask_segments w h clusters = Ok (Some (cell_of n 0, l)) /\
    map fst l = map (cell_of n) (seq 1 (length clusters)) /\
    NoDup (cell_of n 0 :: map fst l) /\ Forall (on_grid n) (cell_of n 0 :: map fst l) /\
    forall j, j < length clusters -> exists c p, nth_error l j = Some (c, p) /\
      forall x y, x < w -> y < h -> pixel p x y = if existsb (Nat.eqb (y * w + x)) (nth j clusters []) then (0, 0, 0) else (255, 255, 255).
Proof.
  intros Hne Hc n. destruct (masks_spec w h clusters Hne Hc) as (l & A & B & C & D & E). fold n in A, B, C, D. exists l. split; [exact A|]. split; [exact B|]. split; [exact C|]. split; [apply all_on_grid; exact D|]. exact E.
Qed.
Print Assumptions C195_masks.

(** The grid is as wide as high up to one row, and has no empty row. *)
Theorem C195_grid (n : nat) : 2 <= n ->
  n <= grid_rows n * grid_cols n /\ grid_rows n * grid_cols n < n + grid_cols n /\
  grid_rows n <= grid_cols n <= S (grid_rows n).
Proof.
  intro Hn. destruct (grid_fits n Hn) as (H1 & H2 & Hc & Hr & H3). repeat split; auto.
  pose proof (Nat.sqrt_up_spec n ltac:(lia)) as [S1 S2]. fold (grid_cols n) in S1, S2. nia.
Qed.
Print Assumptions C195_grid.

Example C195_example :
  mask_segments 2 1 [[0]; [1]; [0; 1]; []] =
  Ok (Some (Cell 0 0, [(Cell 0 1, [[black; white]]); (Cell 0 2, [[white; black]]); (Cell 1 0, [[black; black]]);
                       (Cell 1 1, [[white; white]])])).
Proof. reflexivity. Qed.

(** * Dynamics *)

(** A table of values: one row of m values for every time. *)
Definition table (t : list Q) (rows : list (list Q)) (m : nat) : Prop :=
  length rows = length t /\ rows <> [] /\ Forall (fun r => length r = m) rows.

(** The values of dynamic i. *)
Definition values (rows : list (list Q)) (i : nat) : list Q := map (fun r => nth i r 0%Q) rows.

Lemma column_ok rows i m : Forall (fun r => length r = m) rows -> i < m -> column rows i = Ok (values rows i).
Proof.
  intros H Hi. induction H as [|r rows Hr H IH]; cbn [column values map]; [reflexivity|].
  rewrite (nth_error_nth' r 0%Q) by lia. rewrite IH. reflexivity.
Qed.

Lemma plot_ok p t rows i : length rows = length t -> plot p t (values rows i) = Ok [(p, t, values rows i)].
Proof. intro H. unfold plot, values. rewrite map_length, H, Nat.eqb_refl. reflexivity. Qed.

(** Where draw_dynamics puts dynamic i. *)
Definition where_to (lines : nat) (s : separation) (i : nat) : option place :=
  if 1 <? lines then
    match s with Groups gs => option_map At (find_group gs 0 i) | _ => Some (At i) end
  else Some Whole.

Lemma draw_columns_ok lines s t rows m : table t rows m -> forall is, Forall (fun i => i < m) is ->
  draw_columns lines s t rows is =
  Ok (flat_map (fun i => match where_to lines s i with Some p => [(p, t, values rows i)] | None => [] end) is).
Proof.
  intros (Hl & _ & Hr) is His. induction His as [|i is Hi His IH]; cbn [draw_columns flat_map]; [reflexivity|].
  rewrite (column_ok rows i m Hr Hi). cbn [bind]. unfold where_to.
  destruct (1 <? lines) eqn:E.
  - destruct s as [| |gs].
    + rewrite plot_ok by auto. cbn [bind]. rewrite IH. cbn [bind]. unfold where_to. rewrite E. reflexivity.
    + rewrite plot_ok by auto. cbn [bind]. rewrite IH. cbn [bind]. unfold where_to. rewrite E. reflexivity.
    + destruct (find_group gs 0 i); cbn [option_map].
      * rewrite plot_ok by auto. cbn [bind]. rewrite IH. cbn [bind]. unfold where_to. rewrite E. reflexivity.
      * cbn [bind]. rewrite IH. cbn [bind]. unfold where_to. rewrite E. reflexivity.
  - rewrite plot_ok by auto. cbn [bind]. rewrite IH. cbn [bind]. unfold where_to. rewrite E. reflexivity.
Qed.

Lemma first_row t rows m : table t rows m -> length (nth 0 rows []) = m.
Proof. intros (_ & Hn & Hr). destruct rows as [|r rows]; [contradiction|]. now inversion Hr. Qed.

Lemma draw_dynamics_table t rows m s : table t rows m -> number_lines (Several rows) s <> 0 ->
  draw_dynamics t (Several rows) s =
  Ok (number_lines (Several rows) s,
      flat_map (fun i => match where_to (number_lines (Several rows) s) s i with Some p => [(p, t, values rows i)] | None => [] end)
        (seq 0 m)).
Proof.
  intros H Hz. unfold draw_dynamics. pose proof (first_row _ _ _ H) as Hf.
  destruct rows as [|r rows]; [destruct H as (_ & H & _); contradiction|].
  apply Nat.eqb_neq in Hz. rewrite Hz, Hf. rewrite (draw_columns_ok _ _ _ _ m H); [reflexivity|].
  apply Forall_forall. intros i Hi. apply in_seq in Hi. lia.
Qed.

(** ** C196: draw_dynamics *)

(** Together: one axis with the m curves. *)
Theorem C196_together (t : list Q) (rows : list (list Q)) (m : nat) : table t rows m ->
  draw_dynamics t (Several rows) Together = Ok (1, map (fun i => (Whole, t, values rows i)) (seq 0 m)).
Proof.
  intro H. rewrite (draw_dynamics_table t rows m) by (auto; discriminate). reflexivity.
Qed.
Print Assumptions C196_together.

(** Separately: m axes, curve i on axis i. *)
Theorem C196_apart (t : list Q) (rows : list (list Q)) (m : nat) : table t rows m -> 2 <= m ->
  draw_dynamics t (Several rows) Apart = Ok (m, map (fun i => (At i, t, values rows i)) (seq 0 m)).
Proof.
  intros H Hm. pose proof (first_row _ _ _ H) as Hf.
  assert (Hn : number_lines (Several rows) Apart = m).
  { destruct rows; [destruct H as (_ & H & _); contradiction|]. exact Hf. }
  rewrite (draw_dynamics_table t rows m) by (auto; lia). rewrite Hn. do 2 f_equal. unfold where_to.
  destruct (Nat.ltb_spec 1 m); [|lia]. induction (seq 0 m); cbn; congruence.
Qed.
Print Assumptions C196_apart.

(** One dynamic: one axis. *)
Theorem C196_single (t ys : list Q) (s : separation) : s = Together \/ s = Apart -> ys <> [] -> length ys = length t ->
  draw_dynamics t (Single ys) s = Ok (1, [(Whole, t, ys)]).
Proof.
  intros Hs Hy Hl. unfold draw_dynamics. destruct ys as [|y ys]; [contradiction|].
  destruct Hs as [-> | ->]; cbn [number_lines Nat.eqb Nat.ltb Nat.leb]; unfold plot; rewrite Hl, Nat.eqb_refl; reflexivity.
Qed.
Print Assumptions C196_single.

Lemma find_group_spec gs i : forall k,
  match find_group gs k i with
  | Some g => exists j, g = k + j /\ In i (nth j gs []) /\ forall j', j' < j -> ~ In i (nth j' gs [])
  | None => forall j, ~ In i (nth j gs [])
  end.
Proof.
  induction gs as [|g gs IH]; intro k; cbn [find_group]; [intros [|j] []|].
  destruct (existsb (Nat.eqb i) g) eqn:E.
  - exists 0. rewrite Nat.add_0_r. split; [reflexivity|]. split; [|intros; lia].
    apply existsb_exists in E. destruct E as (x & Hx & E). apply Nat.eqb_eq in E. now subst.
  - assert (Hn : ~ In i g).
    { intro Hi. assert (existsb (Nat.eqb i) g = true); [|congruence]. apply existsb_exists. exists i. split; [exact Hi|apply Nat.eqb_refl]. }
    specialize (IH (S k)). destruct (find_group gs (S k) i) as [q|].
    + destruct IH as (j & -> & H1 & H2). exists (S j). split; [lia|]. split; [exact H1|].
      intros [|j'] Hj'; cbn [nth]; [exact Hn|]. apply H2. lia.
    + intros [|j]; cbn [nth]; auto.
Qed.

(** Two or more groups: a dynamic is drawn once, on the axis of the first group
    that names it, and not at all when no group does. *)
Theorem C196_groups (t : list Q) (rows : list (list Q)) (m : nat) (gs : list (list nat)) : table t rows m -> 2 <= length gs ->
  exists place_of : nat -> option nat,
    draw_dynamics t (Several rows) (Groups gs) =
      Ok (length gs, flat_map (fun i => match place_of i with Some g => [(At g, t, values rows i)] | None => [] end) (seq 0 m)) /\
    forall i, match place_of i with
              | Some g => In i (nth g gs []) /\ forall j, j < g -> ~ In i (nth j gs [])
              | None => forall j, ~ In i (nth j gs [])
              end.
Proof.
  intros H Hg. exists (find_group gs 0). split.
  - rewrite (draw_dynamics_table t rows m) by (auto; cbn [number_lines]; lia). cbn [number_lines]. do 2 f_equal.
    unfold where_to. destruct (Nat.ltb_spec 1 (length gs)); [|lia].
    induction (seq 0 m) as [|i is IH]; cbn [flat_map]; [reflexivity|]. rewrite IH.
    destruct (find_group gs 0 i); reflexivity.
  - intro i. pose proof (find_group_spec gs i 0) as F. destruct (find_group gs 0 i) as [g|]; [|exact F].
    destruct F as (j & -> & H1 & H2). cbn [Nat.add]. auto.
Qed.
Print Assumptions C196_groups.

(** "Only the listed oscillators are displayed" is false for one group: all
    dynamics are drawn. *)
Theorem C196_one_group_refuted :
  exists t rows m gs curves i, table t rows m /\ i < m /\ (forall j, ~ In i (nth j gs [])) /\
    draw_dynamics t (Several rows) (Groups gs) = Ok (1, curves) /\ In (Whole, t, values rows i) curves.
Proof.
  exists [0%Q], [[1%Q; 2%Q]], 2, [[0]]. eexists. exists 1. split; [|split; [lia|split; [|split; [reflexivity|]]]].
  - split; [reflexivity|]. split; [discriminate|]. constructor; [reflexivity|constructor].
  - intros [|[|j]] Hj; cbn in Hj; intuition discriminate.
  - cbn. auto.
Qed.
Print Assumptions C196_one_group_refuted.

(** The x axis runs from 0 to the last time unless borders are given. *)
Theorem C196_limits (t : list Q) (x_lim : option (Q * Q)) :
  (forall l, x_lim = Some l -> stage_xlim x_lim t = Some l) /\
  (x_lim = None -> t <> [] -> stage_xlim x_lim t = Some (0%Q, nth (length t - 1) t 0%Q)).
Proof.
  split; [intros l ->; reflexivity|]. intros -> Ht. unfold stage_xlim. destruct t as [|a t]; [contradiction|].
  do 2 f_equal. clear Ht. revert a. induction t as [|b t IH]; intro a; [reflexivity|].
  change (last (a :: b :: t) 0%Q) with (last (b :: t) 0%Q). rewrite IH. cbn [length]. rewrite !Nat.sub_succ, !Nat.sub_0_r. reflexivity.
Qed.
Print Assumptions C196_limits.

Example C196_example :
  draw_dynamics [0%Q; 1%Q] (Several [[1%Q; 2%Q; 3%Q]; [4%Q; 5%Q; 6%Q]]) (Groups [[2]; [0]]) =
  Ok (2, [(At 1, [0%Q; 1%Q], [1%Q; 4%Q]); (At 0, [0%Q; 1%Q], [3%Q; 6%Q])]).
Proof. reflexivity. Qed.

(** ** C197: sets of dynamics *)

(** Something that can be drawn on one axis, and its curves. *)
Inductive drawable : list Q -> dynamics -> list curve -> Prop :=
| DSingle t ys : ys <> [] -> length ys = length t -> drawable t (Single ys) [(Whole, t, ys)]
| DSeveral t rows m : table t rows m -> drawable t (Several rows) (map (fun i => (Whole, t, values rows i)) (seq 0 m)).

Lemma draw_on_ok t d l : drawable t d l -> draw_on t d = Ok l.
Proof.
  destruct 1 as [t ys Hy Hl|t rows m H]; unfold draw_on.
  - destruct ys; [contradiction|]. unfold plot. now rewrite Hl, Nat.eqb_refl.
  - pose proof (first_row _ _ _ H) as Hf. destruct rows as [|r rows]; [destruct H as (_ & H & _); contradiction|].
    rewrite Hf. rewrite (draw_columns_ok _ _ _ _ m H).
    + reflexivity.
    + apply Forall_forall. intros i Hi. apply in_seq in Hi. lia.
Qed.

(** Every set of dynamics is drawn completely, in a cell of its own inside the
    grid, row by row. *)
Theorem C197_cells (ds : list (list Q * dynamics)) (ls : list (list curve)) :
  Forall2 (fun d l => drawable (fst d) (snd d) l) ds ls -> 2 <= length ds ->
  draw_dynamics_set ds = Ok (combine (map (cell_of (length ds)) (seq 0 (length ds))) ls) /\
  NoDup (map (cell_of (length ds)) (seq 0 (length ds))) /\
  Forall (on_grid (length ds)) (map (cell_of (length ds)) (seq 0 (length ds))).
Proof.
  intros H Hn. split; [|split].
  - assert (G : forall n, 2 <= n -> forall ds ls k, Forall2 (fun d l => drawable (fst d) (snd d) l) ds ls -> k + length ds <= n ->
       draw_sets n (cell_of n k) ds = Ok (combine (map (cell_of n) (seq k (length ds))) ls)).
    { clear. intros n Hn ds ls k H. revert k. induction H as [|[t d] l ds ls Hd H IH]; intros k Hk; [reflexivity|].
      cbn [draw_sets length fst snd] in *. rewrite cell_of_exists by lia. rewrite (draw_on_ok _ _ _ Hd). cbn [bind].
      rewrite next_cell_of, IH by lia. cbn [bind seq map combine]. reflexivity. }
    unfold draw_dynamics_set. destruct ds as [|[t d] [|d2 ds]]; try (cbn in Hn; lia).
    set (all := (t, d) :: d2 :: ds) in *. rewrite (first_cell_of _ Hn). apply G; auto.
  - apply FinFun.Injective_map_NoDup; [intros a b; now apply cell_of_inj|apply seq_NoDup].
  - apply Forall_forall. intros x Hx. apply in_map_iff in Hx. destruct Hx as (k & <- & Hk). apply in_seq in Hk.
    apply exists_on_grid, cell_of_exists; lia.
Qed.
Print Assumptions C197_cells.

(** One set is drawn on one axis; no set at all is a ZeroDivisionError. *)
Theorem C197_few (t : list Q) (d : dynamics) (l : list curve) :
  (drawable t d l -> draw_dynamics_set [(t, d)] = Ok [(Place 0, l)]) /\ draw_dynamics_set [] = Raise ZeroDivisionError.
Proof.
  split; [|reflexivity]. intro H. cbn [draw_dynamics_set]. destruct H as [t ys Hy Hl|t rows m H].
  - rewrite (C196_single t ys Together) by auto. reflexivity.
  - rewrite (C196_together t rows m H). reflexivity.
Qed.
Print Assumptions C197_few.

Example C197_example :
  draw_dynamics_set [([0%Q], Single [1%Q]); ([0%Q], Single [2%Q]); ([0%Q], Several [[3%Q; 4%Q]])] =
  Ok [(Cell 0 0, [(Whole, [0%Q], [1%Q])]); (Cell 0 1, [(Whole, [0%Q], [2%Q])]);
      (Cell 1 0, [(Whole, [0%Q], [3%Q]); (Whole, [0%Q], [4%Q])])].
Proof. reflexivity. Qed.

(** * dynamic_visualizer *)

(** The calls of append_dynamics that returned. *)
Definition dcall : Type := (list Q * dynamics * nat * separation * nat)%type.
Fixpoint drun (v : dynvis) (calls : list dcall) : res dynvis :=
  match calls with
  | [] => Ok v
  | (t, d, canvas, s, color) :: rest =>
      match append_dynamics v t d canvas s color with (v', Ok _) => drun v' rest | (_, Raise e) => Raise e end
  end.

Lemma append_size v t d c s col v' r : append_dynamics v t d c s col = (v', r) -> dv_size v' = dv_size v.
Proof.
  unfold append_dynamics. destruct (canonical_separate c d s).
  - destruct (update_xlim (dv_xlim v) t a). intro H. now injection H as <- _.
  - intro H. now injection H as <- _.
Qed.

Lemma drun_size calls : forall v v', drun v calls = Ok v' -> dv_size v' = dv_size v.
Proof.
  induction calls as [|[[[[t d] c] s] col] calls IH]; intros v v' H; cbn [drun] in H; [now injection H as <-|].
  destruct (append_dynamics v t d c s col) as [w [u|e]] eqn:E; [|discriminate].
  rewrite (IH _ _ H). eapply append_size; eauto.
Qed.

(** ** C198: show draws on new axes by default, on the given ones otherwise *)

(** Both are false: without an axis show raises, with one it draws elsewhere. *)
Theorem C198_default_refuted :
  exists calls v e, drun (dynvis_init 1 None) calls = Ok v /\ dv_storage v <> [] /\ show_dynamics v false = Raise e.
Proof.
  exists [([0%Q; 1%Q], Single [1%Q; 2%Q], 0, Together, 0)]. eexists. eexists. split; [reflexivity|]. split; [discriminate|reflexivity].
Qed.
Print Assumptions C198_default_refuted.

Theorem C198_given_refuted :
  exists calls v o xlim curves, drun (dynvis_init 1 None) calls = Ok v /\
    show_dynamics v true = Ok (o, xlim, curves) /\ curves <> [] /\ o <> Given.
Proof.
  exists [([0%Q; 1%Q], Single [1%Q; 2%Q], 0, Together, 0)]. do 4 eexists.
  split; [reflexivity|]. split; [reflexivity|]. split; discriminate.
Qed.
Print Assumptions C198_given_refuted.

(** It is always so, for any visualizer with canvases. *)
Theorem C198_always (n : nat) (x_lim : option (Q * Q)) (calls : list dcall) (v : dynvis) :
  1 <= n -> drun (dynvis_init n x_lim) calls = Ok v ->
  show_dynamics v false = Raise (if n =? 1 then AttributeError else TypeError) /\
  (forall o xlim curves, show_dynamics v true = Ok (o, xlim, curves) -> o = Fresh).
Proof.
  intros Hn H. apply drun_size in H. cbn in H. unfold show_dynamics. rewrite H. split.
  - destruct n as [|[|n]]; [lia|reflexivity|reflexivity].
  - intros o xlim curves E. destruct (n =? 0); [discriminate|].
    destruct (display_all v (dv_storage v)); cbn [bind] in E; [|discriminate]. now injection E as <- _ _.
Qed.
Print Assumptions C198_always.

(** ** C199: the curves are on the canvases the user named *)

Definition at_canvas (n k : nat) : place := if 1 <? n then At k else Whole.

Lemma update_xlim_len t sep : forall xlim, length (fst (update_xlim xlim t sep)) = length xlim.
Proof.
  induction sep as [|k sep IH]; intro xlim; cbn [update_xlim]; [reflexivity|].
  destruct t as [|a t']; [reflexivity|]. destruct (nth_error xlim k); [|reflexivity].
  destruct (match o with None => true | Some l => limits_below l (0%Q, last (a :: t') 0%Q) end); rewrite IH; [apply upd_length|reflexivity].
Qed.

Lemma display_columns_ok v t rows m sep : table t rows m -> length sep = m ->
  Forall (fun k => k < length (dv_xlim v)) sep -> forall is, Forall (fun i => i < m) is ->
  display_columns v t rows sep is =
  Ok (map (fun i => ((at_canvas (dv_size v) (nth i sep 0), t, values rows i), Blue)) is).
Proof.
  intros (Hl & _ & Hr) Hs Hk is His. induction His as [|i is Hi His IH]; cbn [display_columns map]; [reflexivity|].
  rewrite (column_ok rows i m Hr Hi). cbn [bind]. rewrite (nth_error_nth' sep 0) by lia.
  assert (Hb : nth i sep 0 < length (dv_xlim v)) by (rewrite Forall_forall in Hk; apply Hk, nth_In; lia).
  unfold get_axis. destruct (Nat.leb_spec (length (dv_xlim v)) (nth i sep 0)); [lia|]. cbn [bind].
  rewrite plot_ok by auto. cbn [bind]. rewrite IH. reflexivity.
Qed.

(** What the user asks for: together on the canvas, or from the canvas on. *)
Definition requested (canvas : nat) (s : separation) (i : nat) : nat := match s with Apart => canvas + i | _ => canvas end.

Definition table_call (n : nat) (c : dcall) : Prop :=
  match c with (t, d, canvas, s, _) =>
    match d with
    | Single ys => ys <> [] /\ length ys = length t /\ canvas < n /\ (s = Together \/ s = Apart)
    | Several rows => exists m, table t rows m /\ 0 < m /\ (s = Together \/ s = Apart) /\ forall i, i < m -> requested canvas s i < n
    end
  end.

Definition curves_of (n : nat) (c : dcall) : list curve :=
  match c with (t, d, canvas, s, _) =>
    match d with
    | Single ys => [(at_canvas n canvas, t, ys)]
    | Several rows => map (fun i => (at_canvas n (requested canvas s i), t, values rows i)) (seq 0 (length (nth 0 rows [])))
    end
  end.

Lemma update_xlim_ok t sep : t <> [] -> forall xlim, Forall (fun k => k < length xlim) sep -> snd (update_xlim xlim t sep) = Ok tt.
Proof.
  intro Ht. induction sep as [|k sep IH]; intros xlim Hs; cbn [update_xlim]; [reflexivity|].
  inversion_clear Hs as [|? ? Hk Hs']. destruct t as [|a t']; [contradiction|].
  rewrite (nth_error_nth' xlim None) by exact Hk.
  destruct (match nth k xlim None with None => true | Some l => limits_below l (0%Q, last (a :: t') 0%Q) end);
    apply IH; rewrite ?upd_length; exact Hs'.
Qed.

Definition descr_of (c : dcall) : descr :=
  match c with (t, d, canvas, s, color) =>
    mkDescr canvas t d (match d with
                        | Single _ => [canvas]
                        | Several rows => map (requested canvas s) (seq 0 (length (nth 0 rows []))) end) color end.

Lemma seq_requested canvas s m : s = Together \/ s = Apart ->
  match s with Groups gs => Raise TypeError | Together => Ok (repeat canvas m) | Apart => Ok (seq canvas m) end =
  Ok (map (requested canvas s) (seq 0 m)).
Proof.
  intros [-> | ->]; f_equal; cbn [requested].
  - generalize 0. induction m as [|m IH]; intro k; cbn; [reflexivity|]. now rewrite <- IH.
  - assert (G : forall m0 a, seq (canvas + a) m0 = map (fun i => canvas + i) (seq a m0)).
    { induction m0 as [|q IH]; intro a; cbn [seq map]; [reflexivity|]. f_equal. rewrite <- (IH (S a)). f_equal. lia. }
    specialize (G m 0). rewrite Nat.add_0_r in G. exact G.
Qed.

Lemma append_table v c : table_call (length (dv_xlim v)) c ->
  let '(t, d, canvas, s, color) := c in
  exists v', append_dynamics v t d canvas s color = (v', Ok tt) /\ dv_size v' = dv_size v /\
    length (dv_xlim v') = length (dv_xlim v) /\ dv_storage v' = dv_storage v ++ [descr_of c].
Proof.
  destruct c as [[[[t d] canvas] s] color]. intro H. cbn [table_call] in H.
  assert (Hsep : exists sep, canonical_separate canvas d s = Ok sep /\ t <> [] /\ Forall (fun k => k < length (dv_xlim v)) sep /\
            d_separate (descr_of (t, d, canvas, s, color)) = sep).
  { destruct d as [ys|rows].
    - destruct H as (H1 & H2 & H3 & H4). destruct ys as [|y ys]; [contradiction|]. exists [canvas].
      split; [destruct H4 as [-> | ->]; reflexivity|]. split; [destruct t; [discriminate|discriminate]|].
      split; [constructor; [exact H3|constructor]|reflexivity].
    - destruct H as (m & H1 & Hm & H2 & H3). pose proof (first_row _ _ _ H1) as Hf. destruct H1 as (T1 & T2 & T3).
      destruct rows as [|r rows]; [contradiction|]. cbn [nth] in Hf.
      exists (map (requested canvas s) (seq 0 m)). split; [|split; [|split]].
      + cbn [canonical_separate]. rewrite Hf. rewrite <- (seq_requested canvas s m H2). destruct H2 as [-> | ->]; reflexivity.
      + destruct t; [discriminate|discriminate].
      + apply Forall_forall. intros k Hk. apply in_map_iff in Hk. destruct Hk as (i & <- & Hi). apply in_seq in Hi. apply H3. lia.
      + cbn [descr_of d_separate nth]. now rewrite Hf. }
  destruct Hsep as (sep & E & Ht & Hs & Hd). unfold append_dynamics. rewrite E.
  destruct (update_xlim (dv_xlim v) t sep) as [xlim r] eqn:Eu.
  pose proof (update_xlim_ok t sep Ht (dv_xlim v) Hs) as Hr. rewrite Eu in Hr. cbn [snd] in Hr. subst r.
  pose proof (update_xlim_len t sep (dv_xlim v)) as Hx. rewrite Eu in Hx. cbn [fst] in Hx.
  eexists. split; [reflexivity|]. cbn. split; [reflexivity|]. split; [exact Hx|]. f_equal. f_equal.
  cbn [descr_of d_separate] in Hd. cbn [descr_of]. now rewrite Hd.
Qed.

Lemma display_call v c : dv_size v = length (dv_xlim v) -> table_call (length (dv_xlim v)) c ->
  display v (descr_of c) = Ok (map (fun x => (x, Blue)) (curves_of (dv_size v) c)).
Proof.
  intros Hsz H. destruct c as [[[[t d] canvas] s] color]. cbn [table_call] in H. cbn [descr_of curves_of]. unfold display. cbn [d_dynamics d_time d_separate d_canvas].
  destruct d as [ys|rows].
  - destruct H as (H1 & H2 & H3 & H4). destruct ys as [|y ys]; [contradiction|].
    unfold get_axis. destruct (Nat.leb_spec (length (dv_xlim v)) canvas); [lia|]. cbn [bind]. unfold plot.
    rewrite H2, Nat.eqb_refl. reflexivity.
  - destruct H as (m & H1 & Hm & H2 & H3). pose proof (first_row _ _ _ H1) as Hf.
    destruct rows as [|r rows]; [destruct H1 as (_ & H1 & _); contradiction|]. rewrite Hf.
    rewrite (display_columns_ok v t (r :: rows) m).
    + rewrite map_map. apply (f_equal Ok). apply map_ext_in. intros i Hi. apply in_seq in Hi. do 4 f_equal.
      rewrite (nth_indep _ 0 (requested canvas s 0)) by (rewrite map_length, seq_length; lia).
      rewrite map_nth, seq_nth by lia. reflexivity.
    + exact H1.
    + now rewrite map_length, seq_length.
    + apply Forall_forall. intros k Hk. apply in_map_iff in Hk. destruct Hk as (i & <- & Hi). apply in_seq in Hi. apply H3. lia.
    + apply Forall_forall. intros i Hi. apply in_seq in Hi. lia.
Qed.

(** For dynamics drawn together or separately this is what the program means to
    draw (and does, on new axes, when some axis is given): every dynamic once,
    on the canvas asked for. *)
Theorem C199_placed (n : nat) (x_lim : option (Q * Q)) (calls : list dcall) :
  1 <= n -> Forall (table_call n) calls ->
  exists v xlim curves, drun (dynvis_init n x_lim) calls = Ok v /\ show_dynamics v true = Ok (Fresh, xlim, curves) /\
    map fst curves = flat_map (curves_of n) calls.
Proof.
  intros Hn H.
  assert (G : forall calls v, Forall (table_call n) calls -> dv_size v = n -> length (dv_xlim v) = n ->
     exists v', drun v calls = Ok v' /\ dv_size v' = n /\ length (dv_xlim v') = n /\ dv_storage v' = dv_storage v ++ map descr_of calls).
  { clear calls H. induction calls as [|c calls IH]; intros v Hc H1 H2; cbn [drun map].
    - exists v. rewrite app_nil_r. auto.
    - inversion_clear Hc as [|? ? Hc1 Hc2]. rewrite <- H2 in Hc1. pose proof (append_table v c Hc1) as A.
      destruct c as [[[[t d] canvas] s] color]. destruct A as (v' & E & A1 & A2 & A3). rewrite E.
      destruct (IH v' Hc2) as (w & Hw & W1 & W2 & W3); [congruence|congruence|].
      exists w. split; [exact Hw|]. split; [exact W1|]. split; [exact W2|]. rewrite W3, A3, <- app_assoc. reflexivity. }
  destruct (G calls (dynvis_init n x_lim) H eq_refl (repeat_length _ _)) as (v & Hv & V1 & V2 & V3).
  cbn [dv_storage dynvis_init app] in V3.
  assert (D : forall l, Forall (table_call n) l -> exists curves, display_all v (map descr_of l) = Ok curves /\
     map fst curves = flat_map (curves_of n) l).
  { induction l as [|c l IH]; intro Hl; cbn [map display_all flat_map]; [exists []; auto|].
    inversion_clear Hl as [|? ? Hc Hl']. rewrite (display_call v c) by congruence. cbn [bind].
    destruct (IH Hl') as (curves & -> & E). cbn [bind]. eexists. split; [reflexivity|].
    rewrite map_app, E, map_map, V1. cbn [fst]. now rewrite map_id. }
  destruct (D calls H) as (curves & E & E2).
  exists v, (dv_xlim v), curves. split; [exact Hv|]. split; [|exact E2].
  unfold show_dynamics. rewrite V1, V3, E. destruct (Nat.eqb_spec n 0); [lia|reflexivity].
Qed.
Print Assumptions C199_placed.

(** With groups the canvas is ignored: the first group goes to canvas 0, not to
    the canvas asked for. *)
Theorem C199_groups_refuted :
  exists v xlim curves, drun (dynvis_init 3 None) [([0%Q], Several [[7%Q; 8%Q]], 1, Groups [[0]; [1]], 0)] = Ok v /\
    show_dynamics v true = Ok (Fresh, xlim, curves) /\
    map fst curves = [(At 0, [0%Q], [7%Q]); (At 1, [0%Q], [8%Q])].
Proof. do 3 eexists. repeat split; reflexivity. Qed.
Print Assumptions C199_groups_refuted.

(** The colour is ignored: the picture is the same for all colours. *)
Theorem C199_colour_refuted :
  exists v w, drun (dynvis_init 1 None) [([0%Q], Single [7%Q], 0, Together, 0)] = Ok v /\
    drun (dynvis_init 1 None) [([0%Q], Single [7%Q], 0, Together, 1)] = Ok w /\
    show_dynamics v true = show_dynamics w true /\ exists r, show_dynamics v true = Ok r.
Proof. do 2 eexists. repeat split; try reflexivity. eexists. reflexivity. Qed.
Print Assumptions C199_colour_refuted.

Lemma assign_spec group k : forall sep sep', assign sep k group = Ok sep' ->
  length sep' = length sep /\ (forall i, In i group -> i < length sep /\ nth i sep' 0 = k) /\
  (forall i, ~ In i group -> nth i sep' 0 = nth i sep 0).
Proof.
  induction group as [|a g IH]; intros sep sep' H; cbn [assign] in H.
  - injection H as <-. repeat split; auto; contradiction.
  - destruct (Nat.ltb_spec a (length sep)) as [Ha|]; [|discriminate].
    destruct (IH _ _ H) as (L & I & N). rewrite upd_length in L, I. split; [exact L|]. split.
    + intros i Hi. destruct (in_dec Nat.eq_dec i g) as [Hg|Hg]; [auto|]. destruct Hi as [<-|Hi]; [|contradiction].
      split; [exact Ha|]. rewrite N by exact Hg. now apply upd_nth_eq.
    + intros i Hi. rewrite N by (intro; apply Hi; now right). apply upd_nth_neq. intro; subst; apply Hi; now left.
Qed.

Lemma assign_all_spec gs : forall k sep sep', assign_all sep k gs = Ok sep' ->
  length sep' = length sep /\
  (forall i j, In i (nth j gs []) -> (forall j', j < j' -> ~ In i (nth j' gs [])) -> nth i sep' 0 = k + j) /\
  (forall i, (forall j, ~ In i (nth j gs [])) -> nth i sep' 0 = nth i sep 0).
Proof.
  induction gs as [|g gs IH]; intros k sep sep' H; cbn [assign_all] in H.
  - injection H as <-. repeat split; auto. intros i [|j] [].
  - destruct (assign sep k g) as [q|] eqn:E; cbn [bind] in H; [|discriminate]. apply assign_spec in E.
    destruct E as (L1 & I1 & N1). destruct (IH _ _ _ H) as (L2 & I2 & N2). split; [congruence|]. split.
    + intros i [|j] Hi Hlast; cbn [nth] in Hi.
      * rewrite N2 by (intro j; apply (Hlast (S j)); lia). rewrite Nat.add_0_r. now apply I1.
      * rewrite (I2 i j Hi); [lia|]. intros j' Hj'. apply (Hlast (S j')). lia.
    + intros i Hi. rewrite N2 by (intro j; apply (Hi (S j))). apply N1. apply (Hi 0).
Qed.

(** What groups do: dynamic i goes to the canvas numbered as the last group
    that names it; one that no group names goes to canvas 0. *)
Theorem C199_groups (t : list Q) (rows : list (list Q)) (m canvas : nat) (gs : list (list nat)) sep : table t rows m ->
  canonical_separate canvas (Several rows) (Groups gs) = Ok sep ->
  length sep = m /\
  (forall i j, In i (nth j gs []) -> (forall j', j < j' -> ~ In i (nth j' gs [])) -> nth i sep 0 = j) /\
  (forall i, (forall j, ~ In i (nth j gs [])) -> nth i sep 0 = 0).
Proof.
  intros H E. pose proof (first_row _ _ _ H) as Hf. destruct rows as [|r rows]; [destruct H as (_ & H & _); contradiction|].
  cbn [canonical_separate nth] in *. apply assign_all_spec in E. destruct E as (L & I & N). rewrite repeat_length in L.
  split; [congruence|]. split; [exact I|]. intros i Hi. rewrite (N i Hi).
  destruct (nth_in_or_default i (repeat 0 (length r)) 0) as [Hin|E0]; [now apply repeat_spec in Hin|exact E0].
Qed.
Print Assumptions C199_groups.

Example C199_example :
  exists v xlim curves, drun (dynvis_init 3 None) [([0%Q; 1%Q], Several [[1%Q; 2%Q]; [3%Q; 4%Q]], 1, Apart, 0);
                                       ([0%Q], Single [5%Q], 0, Together, 0)] = Ok v /\
    show_dynamics v true = Ok (Fresh, xlim, curves) /\
    map fst curves = [(At 1, [0%Q; 1%Q], [1%Q; 3%Q]); (At 2, [0%Q; 1%Q], [2%Q; 4%Q]); (At 0, [0%Q], [5%Q])].
Proof. do 3 eexists. repeat split; reflexivity. Qed.

(** ** C200: borders of the x axis *)

(** The borders of canvas k cover a time list that ends at q. *)
Definition covers (l : option (Q * Q)) (q : Q) : Prop :=
  match l with Some (a, b) => (a <= 0)%Q /\ (q <= b)%Q | None => False end.

Definition from_zero (l : option (Q * Q)) : Prop := match l with Some (a, _) => (a == 0)%Q | None => True end.

Lemma limits_below_zero a b q : (a == 0)%Q -> limits_below (a, b) (0%Q, q) = Qltb b q.
Proof. intro H. unfold limits_below. cbn [fst snd]. apply Qeq_bool_iff in H. now rewrite H. Qed.

Lemma update_xlim_covers t sep : forall xlim xlim', update_xlim xlim t sep = (xlim', Ok tt) ->
  (forall k, from_zero (nth k xlim None)) ->
  (forall k, from_zero (nth k xlim' None)) /\
  (forall k, In k sep -> covers (nth k xlim' None) (last t 0%Q)) /\
  (forall k q, covers (nth k xlim None) q -> covers (nth k xlim' None) q).
Proof.
  induction sep as [|k sep IH]; intros xlim xlim' H Hz; cbn [update_xlim] in H.
  - injection H as <-. split; [exact Hz|]. split; [intros k []|auto].
  - destruct t as [|a t']; [discriminate|]. set (t := a :: t') in *.
    destruct (nth_error xlim k) as [old|] eqn:En; [|discriminate].
    assert (Hk : k < length xlim) by (apply nth_error_Some; congruence).
    pose proof (nth_error_nth _ _ None En) as Ho.
    assert (Hold : from_zero old) by (rewrite <- Ho; apply Hz).
    destruct (match old with None => true | Some l => limits_below l (0%Q, last t 0%Q) end) eqn:Eb.
    + destruct (IH _ _ H) as (Z1 & C1 & K1).
      { intro j. rewrite upd_nth. destruct ((k =? j) && (k <? length xlim)); [cbn; reflexivity|apply Hz]. }
      split; [exact Z1|]. split.
      * intros j [<-|Hj]; [|auto]. apply K1. rewrite upd_nth_eq by exact Hk. cbn. split; apply Qle_refl.
      * intros j q Hq. apply K1. rewrite upd_nth. destruct (Nat.eqb_spec k j) as [<-|]; [|exact Hq].
        destruct (Nat.ltb_spec k (length xlim)); [|lia]. cbn [andb]. rewrite Ho in Hq.
        destruct old as [[x y]|]; [|contradiction]. cbn in Hold. rewrite limits_below_zero in Eb by exact Hold.
        apply Qltb_true in Eb. cbn in *. split; [apply Qle_refl|]. destruct Hq. lra.
    + destruct (IH _ _ H Hz) as (Z1 & C1 & K1). split; [exact Z1|]. split; [|exact K1].
      intros j [<-|Hj]; [|auto]. apply K1. rewrite Ho. destruct old as [[x y]|]; [|discriminate].
      cbn in Hold. rewrite limits_below_zero in Eb by exact Hold. apply Qltb_false in Eb. cbn. split; [lra|exact Eb].
Qed.

(** Without borders given by the user, after any calls every canvas shows all
    times of all dynamics on it: its x axis starts at 0 and ends at or after the
    last time. *)
Theorem C200_covers (n : nat) (calls : list dcall) (v : dynvis) :
  drun (dynvis_init n None) calls = Ok v ->
  forall t d canvas s color sep, In (t, d, canvas, s, color) calls -> canonical_separate canvas d s = Ok sep ->
  forall k, In k sep -> covers (nth k (dv_xlim v) None) (last t 0%Q).
Proof.
  assert (G : forall calls v v', drun v calls = Ok v' -> (forall k, from_zero (nth k (dv_xlim v) None)) ->
     (forall k q, covers (nth k (dv_xlim v) None) q -> covers (nth k (dv_xlim v') None) q) /\
     (forall t d canvas s color sep, In (t, d, canvas, s, color) calls -> canonical_separate canvas d s = Ok sep ->
       forall k, In k sep -> covers (nth k (dv_xlim v') None) (last t 0%Q))).
  { clear. induction calls as [|[[[[t d] canvas] s] color] calls IH]; intros v v' H Hz; cbn [drun] in H.
    - injection H as <-. split; [auto|]. intros; contradiction.
    - destruct (append_dynamics v t d canvas s color) as [w [u|e]] eqn:E; [|discriminate].
      unfold append_dynamics in E. destruct (canonical_separate canvas d s) as [sep|] eqn:Es; [|discriminate].
      destruct (update_xlim (dv_xlim v) t sep) as [xlim r] eqn:Eu. injection E as <- Er. subst r. destruct u.
      apply update_xlim_covers in Eu; [|exact Hz]. destruct Eu as (Z1 & C1 & K1).
      destruct (IH _ _ H) as [K2 C2]; [exact Z1|]. cbn [dv_xlim] in K2. split; [auto|].
      intros t0 d0 c0 s0 col0 sep0 [Hin|Hin] Hsep k Hk.
      + injection Hin as <- <- <- <- <-. rewrite Es in Hsep. injection Hsep as <-. apply K2. auto.
      + eapply C2; eauto. }
  intros H. apply G in H; [apply H|]. intro k. cbn [dynvis_init dv_xlim].
  destruct (nth_in_or_default k (repeat (None : option (Q * Q)) n) None) as [Hin| ->]; [|exact I].
  apply repeat_spec in Hin. now rewrite Hin.
Qed.
Print Assumptions C200_covers.

(** Borders given by the user are not respected: a left border below 0 is
    replaced. *)
Theorem C200_given_refuted :
  exists v, drun (dynvis_init 1 (Some (-(1), 5)%Q)) [([0%Q; 1%Q], Single [1%Q; 2%Q], 0, Together, 0)] = Ok v /\
    dv_xlim v = [Some (0%Q, 1%Q)].
Proof. eexists. split; reflexivity. Qed.
Print Assumptions C200_given_refuted.

(** They are respected when they start after 0. *)
Theorem C200_given (n : nat) (a b : Q) (calls : list dcall) (v : dynvis) :
  (0 < a)%Q -> drun (dynvis_init n (Some (a, b))) calls = Ok v -> dv_xlim v = repeat (Some (a, b)) n.
Proof.
  intro Ha.
  assert (U : forall t sep xlim', update_xlim (repeat (Some (a, b)) n) t sep = (xlim', Ok tt) -> xlim' = repeat (Some (a, b)) n).
  { intros t sep. induction sep as [|k sep IH]; intros xlim' H; cbn [update_xlim] in H; [now injection H|].
    destruct t as [|x t']; [discriminate|].
    destruct (nth_error (repeat (Some (a, b)) n) k) as [old|] eqn:En; [|discriminate].
    apply nth_error_In, repeat_spec in En. subst old.
    assert (E : limits_below (a, b) (0%Q, last (x :: t') 0%Q) = false).
    { unfold limits_below. cbn [fst snd]. destruct (Qeq_bool a 0) eqn:E0; [apply Qeq_bool_iff in E0; lra|].
      apply Qltb_false. lra. }
    rewrite E in H. auto. }
  assert (G : forall calls v v', drun v calls = Ok v' -> dv_xlim v = repeat (Some (a, b)) n -> dv_xlim v' = repeat (Some (a, b)) n).
  { clear calls v. induction calls as [|[[[[t d] canvas] s] color] calls IH]; intros v v' H Hx; cbn [drun] in H; [now injection H as <-|].
    destruct (append_dynamics v t d canvas s color) as [w [u|e]] eqn:E; [|discriminate].
    unfold append_dynamics in E. destruct (canonical_separate canvas d s) as [sep|] eqn:Es; [|discriminate].
    destruct (update_xlim (dv_xlim v) t sep) as [xlim r] eqn:Eu. injection E as <- Er. subst r. destruct u.
    apply (IH _ _ H). cbn. rewrite Hx in Eu. eapply U; eauto. }
  intro H. apply G in H; [exact H|reflexivity].
Qed.
Print Assumptions C200_given.
