(** Properties of the pictures of blocks (C201-C203). *)
From Coq Require Import String.
From Verif Require Import Base Kmeans_Model Kmeans_Proofs Canvas_Model Canvas_Proofs Multivis_Model Multivis_Props Blocks_Model.
From Verif Require Clique_Model Clique_Proofs Bang_Model Bang_Proofs Bang_Props Small_Proofs Fsync_Proofs.
Open Scope nat_scope.

(** * Specification *)

(** The point of the plane lies in the rectangle; strictly inside. *)
Definition holds (p : patch) (q : Q * Q) : Prop :=
  (fst (p_corner p) <= fst q <= fst (p_corner p) + fst (p_sides p))%Q /\
  (snd (p_corner p) <= snd q <= snd (p_corner p) + snd (p_sides p))%Q.
Definition strictly (p : patch) (q : Q * Q) : Prop :=
  (fst (p_corner p) < fst q < fst (p_corner p) + fst (p_sides p))%Q /\
  (snd (p_corner p) < snd q < snd (p_corner p) + snd (p_sides p))%Q.

(** Where a point of the data is drawn: two coordinates, or the only one on a
    line. *)
Definition shown (pr : nat * nat) (p : point) : Q * Q := (coord p (fst pr), if length p =? 1 then 0%Q else coord p (snd pr)).

(** The canvases of D dimensions: every pair of different coordinates once. *)
Definition every_pair (D : nat) (pairs : list (nat * nat)) : Prop :=
  NoDup pairs /\ forall i j, In (i, j) pairs <-> (if D =? 1 then i = 0 /\ j = 0 else i < j < D).

Definition p0 : patch := mkPatch (0%Q, 0%Q) (0%Q, 0%Q) false 0%Q.

(** * Canvases *)

Lemma canvas_pairs_every D : 1 <= D -> every_pair D (canvas_pairs D).
Proof.
  intro HD. unfold every_pair, canvas_pairs. destruct (Nat.eqb_spec D 1) as [->|Hn].
  - cbn. split; [repeat constructor; auto|]. intros i j. split; [intros [E|[]]; injection E as <- <-; auto|intros [-> ->]; auto].
  - destruct (combinations2 D) as [|x l] eqn:E.
    + exfalso. assert (H : In (0, 1) (combinations2 D)) by (apply combinations2_in; lia). rewrite E in H. destruct H.
    + rewrite <- E. split; [apply combinations2_NoDup|]. intros i j. apply combinations2_in.
Qed.

Lemma amount_is_pairs D : 1 <= D -> amount_canvases D = length (canvas_pairs D).
Proof.
  intro HD. unfold amount_canvases, canvas_pairs. destruct (Nat.ltb_spec 1 D) as [H|H].
  - pose proof (combinations2_length D) as E. destruct (combinations2 D) as [|x l] eqn:Ec.
    + cbn [length] in E. destruct D as [|[|D]]; [lia|lia|]. cbn in E. lia.
    + rewrite <- Ec in *. rewrite <- E. rewrite Nat.mul_comm. apply Nat.div_mul. lia.
  - assert (D = 1) by lia. subst D. reflexivity.
Qed.

Lemma draw_points_ok D pr (data : list point) : (forall p, In p data -> length p = D) -> fst pr < D -> snd pr < D ->
  draw_points (1 <? D) pr data = Ok (map (shown pr) data).
Proof.
  intros H H1 H2. induction data as [|p data IH]; cbn [draw_points map]; [reflexivity|].
  assert (Hp : length p = D) by (apply H; now left). rewrite fetch_coord by lia. cbn [bind]. unfold shown at 1. rewrite Hp.
  destruct (Nat.ltb_spec 1 D).
  - rewrite fetch_coord by lia. cbn [bind]. rewrite IH by (intros; apply H; now right). cbn [bind].
    destruct (Nat.eqb_spec D 1); [lia|reflexivity].
  - cbn [bind]. rewrite IH by (intros; apply H; now right). cbn [bind]. destruct (Nat.eqb_spec D 1); [reflexivity|lia].
Qed.

Lemma draw_canvases_ok patches D (data : list point) : data <> [] -> (forall p, In p data -> length p = D) -> 1 <= D -> forall ks,
  (forall k, In k ks -> k < length (canvas_pairs D)) ->
  draw_canvases patches (canvas_pairs D) data ks =
  Ok (map (fun k => let pr := nth k (canvas_pairs D) (0, 0) in (pr, patches pr, map (shown pr) data)) ks).
Proof.
  intros Hne Hd HD. assert (H0 : length (nth 0 data ([] : point)) = D) by (apply Hd, nth_In; destruct data; [congruence|cbn; lia]).
  induction ks as [|k ks IH]; intro Hk; cbn [draw_canvases map]; [reflexivity|].
  rewrite (nth_error_nth' _ (0, 0)) by (apply Hk; now left). rewrite H0.
  assert (B : fst (nth k (canvas_pairs D) (0, 0)) < D /\ snd (nth k (canvas_pairs D) (0, 0)) < D).
  { pose proof (canvas_pairs_every D HD) as [_ E]. destruct (nth k (canvas_pairs D) (0, 0)) as [i j] eqn:En.
    assert (Hin : In (i, j) (canvas_pairs D)) by (rewrite <- En; apply nth_In, Hk; now left). apply E in Hin.
    destruct (Nat.eqb_spec D 1); cbn; lia. }
  rewrite (draw_points_ok D) by (auto; tauto). cbn [bind]. rewrite IH by (intros; apply Hk; now right). reflexivity.
Qed.

Lemma map_nth_seq {A B} (f : A -> B) (l : list A) d : map (fun k => f (nth k l d)) (seq 0 (length l)) = map f l.
Proof.
  assert (G : forall pre, map (fun k => f (nth k (pre ++ l) d)) (seq (length pre) (length l)) = map f l).
  { induction l as [|x l IH]; intro pre; [reflexivity|]. cbn [length seq map]. f_equal.
    - f_equal. now rewrite app_nth2, Nat.sub_diag by lia.
    - rewrite <- (IH (pre ++ [x])). rewrite app_length. cbn [length]. rewrite Nat.add_1_r. apply map_ext. intro k.
      rewrite <- app_assoc. reflexivity. }
  apply (G []).
Qed.

Lemma canvases_of patches D (data : list point) : data <> [] -> (forall p, In p data -> length p = D) -> 1 <= D ->
  draw_canvases patches (canvas_pairs D) data (seq 0 (amount_canvases D)) =
  Ok (map (fun pr => (pr, patches pr, map (shown pr) data)) (canvas_pairs D)).
Proof.
  intros Hne Hd HD. rewrite amount_is_pairs by exact HD.
  rewrite (draw_canvases_ok patches D data Hne Hd HD) by (intros k Hk; apply in_seq in Hk; lia). f_equal.
  apply (map_nth_seq (fun pr => (pr, patches pr, map (shown pr) data))).
Qed.

(** The rectangle of the corners, spelled out. *)
Lemma rectangle_holds D mx mn i j f al (p : point) : 1 <= D -> length p = D -> In (i, j) (canvas_pairs D) ->
  (forall d, d < D -> (mn d <= coord p d <= mx d)%Q) ->
  let r := rectangle mx mn (i, j) in holds (mkPatch (fst r) (snd r) f al) (shown (i, j) p).
Proof.
  intros HD Hp Hin H. apply (canvas_pairs_every D HD) in Hin. unfold rectangle, holds, shown. cbn [p_corner p_sides].
  rewrite Hp. destruct (Nat.eqb_spec D 1) as [E|E].
  - destruct Hin as [-> ->]. specialize (H 0 ltac:(lia)). cbn [Nat.eqb andb fst snd]. lra.
  - pose proof (H i ltac:(lia)). pose proof (H j ltac:(lia)).
    destruct (Nat.eqb_spec i 0), (Nat.eqb_spec j 0); try lia; cbn [andb fst snd]; lra.
Qed.

Lemma shade_range d s : (0 <= d)%Q -> (d <= s)%Q -> (0 <= shade d s <= 6 # 10)%Q /\ ((0 < s)%Q -> (shade d s == (6 # 10) * (d / s))%Q).
Proof.
  intros H1 H2. unfold shade. destruct (Qeq_bool s 0) eqn:E.
  - apply Qeq_bool_iff in E. split; [split; rewrite E; discriminate|intro; lra].
  - apply Qeq_bool_neq in E. assert (Hs : (0 < s)%Q) by lra. split.
    + split; [apply Qle_shift_div_l; [exact Hs|nra]|apply Qle_shift_div_r; [exact Hs|nra]].
    + intros _. field. lra.
Qed.

(** ** C201: the grid of CLIQUE *)

Section Grid.
Variable data : list point.
Variable a : nat.
Hypothesis Ha : 1 <= a.
Hypothesis Hne : data <> [].
Notation D := (dimension data).
Hypothesis Hdim : uniform D data.
Hypothesis HD : 1 <= D.
Notation loc k := (nth k (Clique_Model.cells data a) []).
Notation pts k := (Clique_Model.points_of data a k).

Lemma grid_length : length (grid_cells data a) = a ^ D.
Proof.
  unfold grid_cells. rewrite combine_length, (Clique_Proofs.cell_points_length data a).
  rewrite (Clique_Proofs.cells_length data a). lia.
Qed.

Lemma grid_nth k : k < a ^ D -> nth k (grid_cells data a) ([], []) = (loc k, pts k).
Proof.
  intro Hk. unfold grid_cells. rewrite combine_nth; [reflexivity|]. symmetry. apply (Clique_Proofs.cell_points_length data a).
Qed.

Lemma pow_pos : 1 <= a ^ D.
Proof. clear -Ha. induction D; cbn; nia. Qed.

Lemma grid_first : exists c rest, grid_cells data a = c :: rest /\ length (fst c) = D.
Proof.
  pose proof grid_length as L. pose proof pow_pos. destruct (grid_cells data a) as [|c rest] eqn:E; [cbn in L; lia|].
  exists c, rest. split; [reflexivity|]. pose proof (grid_nth 0 ltac:(lia)) as G. rewrite E in G. cbn [nth] in G. rewrite G. cbn [fst].
  assert (Hk : 0 < length (Clique_Model.cells data a)) by (rewrite Clique_Proofs.cells_length; lia).
  apply (Clique_Proofs.cell_val data a Ha 0 Hk).
Qed.

Lemma cell_patch_nth pr k : k < a ^ D ->
  let r := rectangle (Clique_Model.cell_max data a (loc k)) (Clique_Model.cell_min data a (loc k)) pr in
  nth k (cell_patches data a (grid_cells data a) pr) p0 =
  mkPatch (fst r) (snd r) (0 <? length (pts k))
    (shade (inject_Z (Z.of_nat (length (pts k)))) (inject_Z (Z.of_nat (list_max (map (fun c => length (snd c)) (grid_cells data a)))))).
Proof.
  intros Hk r. unfold cell_patches. set (scale := inject_Z _).
  match goal with |- nth k (map ?g _) _ = _ => set (f := g) end.
  rewrite (nth_indep _ p0 (f ([], []))) by (rewrite map_length, grid_length; exact Hk).
  rewrite map_nth, grid_nth by exact Hk. unfold f. cbn [fst snd]. subst r. destruct (rectangle _ _ pr). reflexivity.
Qed.

Lemma biggest_is k : k < a ^ D -> length (pts k) <= list_max (map (fun c => length (snd c)) (grid_cells data a)).
Proof.
  intro Hk. pose proof (proj1 (list_max_le (map (fun c => length (snd c)) (grid_cells data a)) _) (Nat.le_refl _)) as H.
  rewrite Forall_forall in H. apply H. apply in_map_iff. exists (loc k, pts k). split; [reflexivity|].
  rewrite <- grid_nth by exact Hk. apply nth_In. now rewrite grid_length.
Qed.

Lemma max_reached (l : list nat) : l <> [] -> In (list_max l) l.
Proof.
  induction l as [|x l IH]; [congruence|]. intros _. cbn [list_max fold_right]. fold (list_max l).
  destruct (Nat.max_spec x (list_max l)) as [[H ->]|[H ->]]; [|now left].
  destruct l as [|y l]; [cbn in H; lia|]. right. apply IH. discriminate.
Qed.

Theorem grid_picture :
  exists cs, show_grid data a (grid_cells data a) = Ok cs /\ every_pair D (map (fun c => fst (fst c)) cs) /\
    forall pr patches ms, In (pr, patches, ms) cs ->
      ms = map (shown pr) data /\ length patches = a ^ D /\
      (forall k i, k < a ^ D -> In i (pts k) -> holds (nth k patches p0) (shown pr (nth i data []))) /\
      (forall k, k < a ^ D -> (p_filled (nth k patches p0) = true <-> pts k <> [])) /\
      (exists most, 0 < most /\ (exists k, k < a ^ D /\ length (pts k) = most) /\ forall k, k < a ^ D -> length (pts k) <= most /\
         (p_alpha (nth k patches p0) == (6 # 10) * (inject_Z (Z.of_nat (length (pts k))) / inject_Z (Z.of_nat most)))%Q).
Proof.
  destruct grid_first as (c & rest & E & Hc). unfold show_grid. rewrite E. rewrite Hc. rewrite <- E.
  rewrite (canvases_of _ D data Hne Hdim HD). eexists. split; [reflexivity|]. split.
  - rewrite map_map. cbn [fst]. rewrite map_id. apply canvas_pairs_every, HD.
  - intros pr patches ms Hin. apply in_map_iff in Hin. destruct Hin as (pr' & Ep & Hin). injection Ep as -> <- <-.
    split; [reflexivity|]. split; [unfold cell_patches; now rewrite map_length, grid_length|]. split; [|split].
    + intros k i Hk Hi. rewrite cell_patch_nth by exact Hk. destruct pr as [x y].
      destruct (Clique_Proofs.capture_facts data a Ha Hne Hdim) as (F & _ & _). destruct (F k i Hi) as (Hi' & _ & Hcon).
      assert (Hp : length (nth i data []) = D) by (apply Hdim, nth_In, Hi').
      apply (rectangle_holds D); auto. intros d Hd. pose proof (proj1 (Clique_Proofs.contains_iff data a Ha _ _) Hcon) as Hcon2. 
      apply Hcon2. rewrite Hp. exact Hd.
    + intros k Hk. rewrite cell_patch_nth by exact Hk. cbn [p_filled]. rewrite Nat.ltb_lt.
      destruct (pts k); cbn; split; try lia; try congruence.
    + exists (list_max (map (fun c => length (snd c)) (grid_cells data a))).
      assert (Hmost : 0 < list_max (map (fun c => length (snd c)) (grid_cells data a))).
      { destruct (Clique_Proofs.capture_facts data a Ha Hne Hdim) as (F & G & _).
        destruct (G 0) as [k Hk]; [destruct data; [congruence|cbn; lia]|]. destruct (F k 0 Hk) as (_ & Hk' & _).
        rewrite Clique_Proofs.cells_length in Hk'. pose proof (biggest_is k Hk'). destruct (pts k); [destruct Hk|cbn in *; lia]. }
      split; [exact Hmost|]. split.
      * assert (Hm : In (list_max (map (fun c => length (snd c)) (grid_cells data a))) (map (fun c => length (snd c)) (grid_cells data a))).
        { apply max_reached. rewrite E. discriminate. }
        apply in_map_iff in Hm. destruct Hm as (x & Hx & Hxin). apply (In_nth _ _ ([], [])) in Hxin. destruct Hxin as (k & Hk & Ek).
        rewrite grid_length in Hk. exists k. split; [exact Hk|]. rewrite grid_nth in Ek by exact Hk. subst x. exact Hx.
      * intros k Hk. split; [apply biggest_is, Hk|]. rewrite cell_patch_nth by exact Hk. cbn [p_alpha].
        apply shade_range.
        -- change 0%Q with (inject_Z 0). rewrite <- Zle_Qle. lia.
        -- rewrite <- Zle_Qle. pose proof (biggest_is k Hk). lia.
        -- change 0%Q with (inject_Z 0). rewrite <- Zlt_Qlt. lia.
Qed.

(** The coordinate j of the square of the data, or [-1, 1] on a line. *)
Definition spans (pr : nat * nat) (q : Q * Q) : Prop :=
  (exists lo hi, Clique_Proofs.lowest data (fst pr) lo /\ Clique_Proofs.highest data (fst pr) hi /\ (lo <= fst q <= hi)%Q) /\
  (if D =? 1 then (-(1) <= snd q <= 1)%Q
   else exists lo hi, Clique_Proofs.lowest data (snd pr) lo /\ Clique_Proofs.highest data (snd pr) hi /\ (lo <= snd q <= hi)%Q).

Lemma slot d x lo hi : Clique_Proofs.lowest data d lo -> Clique_Proofs.highest data d hi -> (lo <= x <= hi)%Q ->
  exists j, j < a /\ forall l, nth d l 0 = j -> (Clique_Model.cell_min data a l d <= x <= Clique_Model.cell_max data a l d)%Q.
Proof.
  intros Hlo Hhi Hx.
  pose proof (Clique_Proofs.lowest_unique data d _ _ Hlo (Clique_Proofs.min_lowest data Hne Hdim d)) as E1.
  pose proof (Clique_Proofs.highest_unique data d _ _ Hhi (Clique_Proofs.max_highest data Hne Hdim d)) as E2.
  destruct (Clique_Proofs.slot_exists a Ha (Clique_Model.min_corner data d) (Clique_Model.cell_size data a d) x a Ha) as (j & Hj & J1 & J2).
  - apply Clique_Proofs.size_nonneg; auto.
  - lra.
  - rewrite (Clique_Proofs.size_mul data a Ha). lra.
  - exists j. split; [exact Hj|]. intros l Hl. rewrite (Clique_Proofs.cell_max_eq data a Ha). unfold Clique_Model.cell_min. rewrite Hl. lra.
Qed.

Theorem grid_tiles :
  exists cs, show_grid data a (grid_cells data a) = Ok cs /\
    forall pr patches ms, In (pr, patches, ms) cs ->
      (forall q, spans pr q -> exists k, k < a ^ D /\ holds (nth k patches p0) q) /\
      (forall q k k', k < a ^ D -> k' < a ^ D -> strictly (nth k patches p0) q -> strictly (nth k' patches p0) q ->
         nth (fst pr) (loc k) 0 = nth (fst pr) (loc k') 0 /\ nth (snd pr) (loc k) 0 = nth (snd pr) (loc k') 0).
Proof.
  destruct grid_first as (c & rest & E & Hc). unfold show_grid. rewrite E. rewrite Hc. rewrite <- E.
  rewrite (canvases_of _ D data Hne Hdim HD). eexists. split; [reflexivity|].
  intros pr patches ms Hin. apply in_map_iff in Hin. destruct Hin as (pr' & Ep & Hin). injection Ep as -> <- <-.
  destruct pr as [x y]. apply (canvas_pairs_every D HD) in Hin. cbn [fst snd]. split.
  - intros q ((lo & hi & H1 & H2 & H3) & Hq). cbn [fst snd] in *. destruct (slot x (fst q) lo hi H1 H2 H3) as (j1 & Hj1 & S1).
    destruct (Nat.eqb_spec D 1) as [E1|E1].
    + destruct Hin as [-> ->]. destruct (Clique_Proofs.grid_cell data a Ha [j1]) as (k & Hk & El).
      { split; [rewrite E1; reflexivity|]. intros d Hd. rewrite E1 in Hd. assert (d = 0) by lia. subst. exact Hj1. }
      rewrite Clique_Proofs.cells_length in Hk. exists k. split; [exact Hk|]. rewrite cell_patch_nth by exact Hk. rewrite El.
      specialize (S1 [j1] eq_refl). unfold holds, rectangle. cbn [Nat.eqb andb fst snd p_corner p_sides]. lra.
    + destruct Hq as (lo' & hi' & H1' & H2' & H3'). destruct (slot y (snd q) lo' hi' H1' H2' H3') as (j2 & Hj2 & S2).
      set (l := upd (upd (repeat 0 D) x j1) y j2).
      assert (Ll : length l = D) by (unfold l; now rewrite !upd_length, repeat_length).
      assert (Lx : nth x l 0 = j1).
      { unfold l. rewrite upd_nth_neq by lia. apply upd_nth_eq. rewrite repeat_length. lia. }
      assert (Ly : nth y l 0 = j2) by (unfold l; apply upd_nth_eq; rewrite upd_length, repeat_length; lia).
      destruct (Clique_Proofs.grid_cell data a Ha l) as (k & Hk & El).
      { split; [exact Ll|]. intros d Hd. unfold l. rewrite !upd_nth, !upd_length, repeat_length.
        destruct ((y =? d) && (y <? D)); [exact Hj2|]. destruct ((x =? d) && (x <? D)); [exact Hj1|].
        destruct (nth_in_or_default d (repeat 0 D) 0) as [G| ->]; [apply repeat_spec in G; rewrite G|]; lia. }
      rewrite Clique_Proofs.cells_length in Hk. exists k. split; [exact Hk|]. rewrite cell_patch_nth by exact Hk. rewrite El.
      specialize (S1 l Lx). specialize (S2 l Ly). unfold holds, rectangle.
      destruct (Nat.eqb_spec x 0), (Nat.eqb_spec y 0); try lia; cbn [andb fst snd p_corner p_sides]; lra.
  - intros q k k' Hk Hk'. rewrite !cell_patch_nth by assumption. unfold strictly. intros S1 S2.
    assert (G : forall d v, (Clique_Model.cell_min data a (loc k) d < v < Clique_Model.cell_max data a (loc k) d)%Q ->
                            (Clique_Model.cell_min data a (loc k') d < v < Clique_Model.cell_max data a (loc k') d)%Q ->
                            nth d (loc k) 0 = nth d (loc k') 0).
    { intros d v A B. rewrite (Clique_Proofs.cell_max_eq data a Ha) in A, B. unfold Clique_Model.cell_min in A, B.
      pose proof (Clique_Proofs.size_nonneg data a Ha Hne Hdim d) as Hs.
      set (s := Clique_Model.cell_size data a d) in *. set (m := Clique_Model.min_corner data d) in *.
      set (u := nth d (loc k) 0) in *. set (w := nth d (loc k') 0) in *.
      destruct (Nat.lt_trichotomy u w) as [H|[H|H]]; [exfalso|exact H|exfalso].
      - assert (inject_Z (Z.of_nat u) + 1 <= inject_Z (Z.of_nat w))%Q by (rewrite <- Clique_Proofs.inject_S, <- Zle_Qle; lia). nra.
      - assert (inject_Z (Z.of_nat w) + 1 <= inject_Z (Z.of_nat u))%Q by (rewrite <- Clique_Proofs.inject_S, <- Zle_Qle; lia). nra. }
    destruct (Nat.eqb_spec D 1) as [E1|E1].
    + destruct Hin as [-> ->]. unfold rectangle in S1, S2. cbn [Nat.eqb andb fst snd p_corner p_sides] in S1, S2.
      assert (nth 0 (loc k) 0 = nth 0 (loc k') 0) by (apply (G 0 (fst q)); split; lra). auto.
    + unfold rectangle in S1, S2. 
      destruct (Nat.eqb_spec x 0), (Nat.eqb_spec y 0); try lia; cbn [andb fst snd p_corner p_sides] in S1, S2;
        (split; [apply (G x (fst q))|apply (G y (snd q))]; split; lra).
Qed.
End Grid.

(** There is a canvas for every pair of coordinates, with all points on it; the
    points of a cell are in its rectangle; the cells with points are filled, the
    darker the more points they have. *)
Theorem C201_grid (data : list point) (intervals : nat) :
  1 <= intervals -> data <> [] -> uniform (dimension data) data -> 1 <= dimension data ->
  exists cs, show_grid data intervals (grid_cells data intervals) = Ok cs /\
    every_pair (dimension data) (map (fun c => fst (fst c)) cs) /\
    forall pr patches ms, In (pr, patches, ms) cs ->
      ms = map (shown pr) data /\ length patches = intervals ^ dimension data /\
      (forall k i, k < intervals ^ dimension data -> In i (Clique_Model.points_of data intervals k) ->
         holds (nth k patches p0) (shown pr (nth i data []))) /\
      (forall k, k < intervals ^ dimension data ->
         (p_filled (nth k patches p0) = true <-> Clique_Model.points_of data intervals k <> [])) /\
      (exists most, 0 < most /\
         (exists k, k < intervals ^ dimension data /\ length (Clique_Model.points_of data intervals k) = most) /\
         forall k, k < intervals ^ dimension data -> length (Clique_Model.points_of data intervals k) <= most /\
           (p_alpha (nth k patches p0) ==
            (6 # 10) * (inject_Z (Z.of_nat (length (Clique_Model.points_of data intervals k))) / inject_Z (Z.of_nat most)))%Q).
Proof. intros H1 H2 H3 H4. exact (grid_picture data intervals H1 H2 H3 H4). Qed.
Print Assumptions C201_grid.

(** The rectangles cover the square of the data and overlap at most on their
    borders, unless the cells differ in other coordinates only. *)
Theorem C201_tiles (data : list point) (intervals : nat) :
  1 <= intervals -> data <> [] -> uniform (dimension data) data -> 1 <= dimension data ->
  exists cs, show_grid data intervals (grid_cells data intervals) = Ok cs /\
    forall pr patches ms, In (pr, patches, ms) cs ->
      (forall q, spans data pr q -> exists k, k < intervals ^ dimension data /\ holds (nth k patches p0) q) /\
      (forall q k k', k < intervals ^ dimension data -> k' < intervals ^ dimension data ->
         strictly (nth k patches p0) q -> strictly (nth k' patches p0) q ->
         let l := nth k (Clique_Model.cells data intervals) [] in let l' := nth k' (Clique_Model.cells data intervals) [] in
         nth (fst pr) l 0 = nth (fst pr) l' 0 /\ nth (snd pr) l 0 = nth (snd pr) l' 0).
Proof. intros H1 H2 H3 H4. exact (grid_tiles data intervals H1 H2 H3 H4). Qed.
Print Assumptions C201_tiles.

Example C201_example :
  exists cs, show_grid [[0;0];[4;4];[4;3]]%Q 2 (grid_cells [[0;0];[4;4];[4;3]]%Q 2) = Ok cs /\
    map (fun c => (fst (fst c), map p_filled (snd (fst c)))) cs = [((0, 1), [false; false; true; true])].
Proof. eexists. split; [vm_compute; reflexivity|vm_compute; reflexivity]. Qed.

(** ** C202: the blocks of BANG *)

Lemma process_dir order data levels dthr athr self b d :
  Bang_Model.process order data levels dthr athr self = Ok b -> Bang_Model.dir b = Some d ->
  Bang_Model.create_directory data levels dthr athr = Ok d.
Proof.
  unfold Bang_Model.process. destruct (_ =? 0); [discriminate|]. destruct (_ <? 1); [discriminate|]. destruct (Qltb _ _); [discriminate|].
  destruct (Bang_Model.create_directory data levels dthr athr) as [d'|e]; cbn [bind]; [|discriminate].
  destruct (Bang_Model.find_block_center _ _ _) as [r|e]; cbn [bind]; [|discriminate].
  destruct (Bang_Model.allocate _ _ _ _ _) as [[c s]|e]; cbn [bind]; [|discriminate].
  destruct (Bang_Model.store_results _ _ _ _ _ _) as [cl ns]. intros E Hd. injection E as <-. cbn [Bang_Model.dir] in Hd. injection Hd as <-. reflexivity.
Qed.

Lemma volume_nonneg D b : Bang_Proofs.wf D b -> (0 <= Bang_Model.volume b)%Q.
Proof.
  intros (L1 & L2 & H). rewrite Bang_Proofs.volume_sides. rewrite L1.
  apply (Bang_Proofs.volume_covers (map (Bang_Model.side b) (seq 0 D))). apply (Bang_Proofs.covers_refl 1 (le_n 1)).
  rewrite map_length, seq_length. intros i Hi. unfold coord.
  rewrite (nth_indep _ 0%Q (Bang_Model.side b 0)) by (rewrite map_length, seq_length; exact Hi).
  rewrite map_nth, seq_nth by exact Hi. unfold Bang_Model.side. specialize (H i Hi). cbn [Nat.add]. lra.
Qed.

Lemma density_nonneg data D b : Bang_Proofs.wf D b -> (0 <= Bang_Model.density data b)%Q.
Proof.
  intro W. unfold Bang_Model.density. destruct (Qeq_bool _ 0) eqn:E; [lra|]. apply Qeq_bool_neq in E. pose proof (volume_nonneg D b W).
  apply Qle_shift_div_l; [lra|]. rewrite Qmult_0_l. change 0%Q with (inject_Z 0). rewrite <- Zle_Qle. lia.
Qed.

(** There is a canvas for every pair of coordinates, with all points on it; every
    point is in the rectangle of a leaf, a point of a cluster in a filled one, a
    point of the noise in one that is not filled; the rectangles are the darker
    the denser the leaf is, the densest has 0.6. *)
Theorem C202_blocks (order : list nat -> list nat) (data : list point) (D levels : nat) (dthr : Q) (athr : nat) b d :
  (forall l, Permutation (order l) l) -> Bang_Props.valid data D levels dthr ->
  Bang_Model.process order data levels dthr athr Bang_Model.initial = Ok b -> Bang_Model.dir b = Some d ->
  exists cs, show_blocks data (combine (Bang_Model.leafs d) (Bang_Model.leaf_marks b)) = Ok cs /\
    every_pair D (map (fun c => fst (fst c)) cs) /\
    forall pr patches ms, In (pr, patches, ms) cs ->
      ms = map (shown pr) data /\ length patches = length (Bang_Model.leafs d) /\
      (forall i, i < length data -> exists p, In p patches /\ holds p (shown pr (nth i data []))) /\
      (forall i j, j < length (Bang_Model.clusters b) -> In i (nth j (Bang_Model.clusters b) []) ->
         exists p, In p patches /\ holds p (shown pr (nth i data [])) /\ p_filled p = true) /\
      (forall i, In i (Bang_Model.noise b) -> exists p, In p patches /\ holds p (shown pr (nth i data [])) /\ p_filled p = false) /\
      (forall k, k < length (Bang_Model.leafs d) ->
         (p_filled (nth k patches p0) = true <-> nth k (Bang_Model.leaf_marks b) None <> None)) /\
      exists most, (forall leaf, In leaf (Bang_Model.leafs d) -> (Bang_Model.density data leaf <= most)%Q) /\
        (exists leaf, In leaf (Bang_Model.leafs d) /\ Bang_Model.density data leaf = most) /\
        forall k, k < length (Bang_Model.leafs d) ->
          (0 <= p_alpha (nth k patches p0) <= 6 # 10)%Q /\
          ((0 < most)%Q -> (p_alpha (nth k patches p0) ==
             (6 # 10) * (Bang_Model.density data (nth k (Bang_Model.leafs d) Bang_Model.b0) / most))%Q).
Proof.
  intros Ho (Hd & HD & Hne & Hl & Ht) E Ed.
  destruct (Bang_Proofs.bang_spec order Ho data D levels dthr athr Hd HD Hne Hl Ht) as (b' & d' & E' & Ed' & H).
  rewrite E in E'. injection E' as <-. rewrite Ed in Ed'. injection Ed' as <-. cbv zeta in H.
  destruct H as (H1 & H2 & H3 & H4 & H5 & H6 & H7 & H8 & H9 & H10 & H11 & H12 & H13).
  destruct (Bang_Proofs.create_directory_spec data D levels dthr athr Hd HD Hne Hl) as (d' & s0 & Ed' & _ & _ & _ & _ & _ & Ss & _).
  rewrite (process_dir _ _ _ _ _ _ _ _ E Ed) in Ed'. injection Ed' as <-.
  set (lb := Bang_Model.leafs d) in *. set (mk := Bang_Model.leaf_marks b) in *.
  assert (Hlb : lb <> []).
  { destruct (H10 0) as (k & Hk & _); [destruct data; [congruence|cbn; lia]|]. destruct lb; [cbn in Hk; lia|discriminate]. }
  assert (Lc : length (combine lb mk) = length lb) by (rewrite combine_length; lia).
  assert (Hlast : fst (last (combine lb mk) (Bang_Model.b0, None)) = nth (length lb - 1) lb Bang_Model.b0).
  { rewrite Fsync_Proofs.last_nth. rewrite Lc. destruct (length lb) as [|m] eqn:Em; [destruct lb; [congruence|discriminate]|].
    cbn [nth]. replace (S m - 1) with m by lia. rewrite combine_nth by congruence. reflexivity. }
  unfold show_blocks.
  assert (Hc : forall X (u v : X), match combine lb mk with [] => u | _ => v end = v).
  { intros. destruct (combine lb mk); [|reflexivity]. cbn in Lc. destruct lb; [congruence|discriminate]. }
  destruct data as [|q0 rest] eqn:Edata; [congruence|]. rewrite <- Edata in *. rewrite Hc. clear Hc.
  assert (Hq : length q0 = D) by (apply Hd; rewrite Edata; now left). rewrite Hq.
  rewrite (canvases_of _ D data Hne Hd HD). eexists. split; [reflexivity|]. split.
  { rewrite map_map. cbn [fst]. rewrite map_id. apply canvas_pairs_every, HD. }
  intros pr patches ms Hin. apply in_map_iff in Hin. destruct Hin as (pr' & Ep & Hin). injection Ep as -> <- <-.
  set (most := Bang_Model.density data (nth (length lb - 1) lb Bang_Model.b0)).
  assert (N : forall k, k < length lb -> nth k (block_patches data (combine lb mk) pr) p0 =
     let r := rectangle (coord (Bang_Model.bmax (nth k lb Bang_Model.b0))) (coord (Bang_Model.bmin (nth k lb Bang_Model.b0))) pr in
     mkPatch (fst r) (snd r) (match nth k mk None with Some _ => true | None => false end)
       (shade (Bang_Model.density data (nth k lb Bang_Model.b0)) most)).
  { intros k Hk. unfold block_patches. rewrite Hlast. fold most. match goal with |- nth k (map ?g _) _ = _ => set (f := g) end.
    rewrite (nth_indep _ p0 (f (Bang_Model.b0, None))) by (rewrite map_length, Lc; exact Hk).
    rewrite map_nth, combine_nth by (symmetry; exact H1). unfold f. cbn [fst snd]. destruct (rectangle _ _ pr). reflexivity. }
  assert (Lp : length (block_patches data (combine lb mk) pr) = length lb) by (unfold block_patches; now rewrite map_length).
  assert (I : forall k, k < length lb -> In (nth k (block_patches data (combine lb mk) pr) p0) (block_patches data (combine lb mk) pr)).
  { intros k Hk. apply nth_In. rewrite Lp. exact Hk. }
  assert (Hold : forall k i, k < length lb -> i < length data -> Bang_Proofs.inside (nth i data []) (nth k lb Bang_Model.b0) ->
     holds (nth k (block_patches data (combine lb mk) pr) p0) (shown pr (nth i data []))).
  { intros k i Hk Hi Hin'. rewrite N by exact Hk. destruct pr as [x y].
    assert (Hp : length (nth i data []) = D) by (apply Hd, nth_In, Hi).
    apply (rectangle_holds D); auto. intros e He. apply Hin'. rewrite Hp. exact He. }
  split; [reflexivity|]. split; [exact Lp|]. split; [|split; [|split; [|split]]].
  - intros i Hi. destruct (H10 i Hi) as (k & Hk & Hk'). eauto.
  - intros i j Hj Hij. apply (H4 j Hj) in Hij. destruct Hij as (Hi & k & Hk & Mk & Ik). eexists. split; [apply (I k Hk)|]. split; [auto|].
    rewrite N by exact Hk. cbn [p_filled]. rewrite Mk. reflexivity.
  - intros i Hij. apply H6 in Hij. destruct Hij as (Hi & k & Hk & Mk & Ik). eexists. split; [apply (I k Hk)|]. split; [auto|].
    rewrite N by exact Hk. cbn [p_filled]. rewrite Mk. reflexivity.
  - intros k Hk. rewrite N by exact Hk. cbn [p_filled]. destruct (nth k mk None); split; congruence.
  - assert (Ll : length lb <> 0) by (destruct lb; [congruence|discriminate]).
    assert (Mx : forall k, k < length lb -> (Bang_Model.density data (nth k lb Bang_Model.b0) <= most)%Q).
    { intros k Hk. apply (Bang_Proofs.sorted_nth D HD (Bang_Model.density data)); auto; lia. }
    exists most. split; [|split].
    + intros leaf Hleaf. apply (In_nth _ _ Bang_Model.b0) in Hleaf. destruct Hleaf as (k & Hk & <-). auto.
    + eexists. split; [|reflexivity]. apply nth_In. lia.
    + intros k Hk. rewrite N by exact Hk. cbn [p_alpha]. apply shade_range; [|auto]. apply (density_nonneg data D). auto.
Qed.
Print Assumptions C202_blocks.

Example C202_example :
  exists b d cs, Bang_Props.valid Bang_Props.w34 1 4 0 /\
    Bang_Model.process (fun l => l) Bang_Props.w34 4 0 1 Bang_Model.initial = Ok b /\ Bang_Model.dir b = Some d /\
    show_blocks Bang_Props.w34 (combine (Bang_Model.leafs d) (Bang_Model.leaf_marks b)) = Ok cs /\
    map (fun c => map p_filled (snd (fst c))) cs = [[false; true; false; true; true; true]] /\
    map (fun c => map (fun p => Qred (p_alpha p)) (skipn 5 (snd (fst c)))) cs = [[3 # 5]%Q].
Proof.
  destruct Bang_Props.C34_case as (V & _). do 3 eexists. split; [exact V|].
  split; [vm_compute; reflexivity|]. split; [reflexivity|]. split; [vm_compute; reflexivity|]. split; reflexivity.
Qed.

Lemma draw_bars_facts : forall dg k pos,
  length (fst (draw_bars k pos dg)) = length (concat dg) /\ snd (draw_bars k pos dg) = pos + length (concat dg) /\
  forall c j, c < length dg -> j < length (nth c dg []) ->
    nth_error (fst (draw_bars k pos dg)) (length (concat (firstn c dg)) + j) =
    Some (pos + length (concat (firstn c dg)) + j, nth j (nth c dg []) 0%Q, get_color (k + c)).
Proof.
  induction dg as [|l dg IH]; intros k pos; cbn [draw_bars fst snd concat length].
  - split; [reflexivity|]. split; [lia|]. intros c j Hc. lia.
  - destruct (IH (S k) (pos + length l)) as (A & B & N). cbn [fst snd].
    assert (Lb : length (combine (combine (seq pos (length l)) l) (repeat (get_color k) (length l))) = length l).
    { rewrite !combine_length, seq_length, repeat_length. lia. }
    split; [rewrite app_length, Lb, app_length; apply (f_equal (Nat.add (length l))), A|]. split; [rewrite B, app_length; lia|].
    intros [|c] j Hc Hj; cbn [firstn concat nth length] in *.
    + cbn [length Nat.add]. rewrite nth_error_app1 by lia.
      rewrite (nth_error_nth' _ (0, 0%Q, get_color k)) by lia. rewrite combine_nth by (rewrite combine_length, seq_length, repeat_length; lia).
      rewrite combine_nth by apply seq_length. rewrite seq_nth by exact Hj. rewrite nth_repeat. now rewrite !Nat.add_0_r.
    + rewrite app_length. rewrite nth_error_app2 by lia. rewrite Lb.
      replace (length l + length (concat (firstn c dg)) + j - length l) with (length (concat (firstn c dg)) + j) by lia.
      etransitivity; [apply N; auto; lia|]. apply (f_equal Some). f_equal; [f_equal; lia|f_equal; lia].
Qed.

(** The bars stand side by side, cluster after cluster, with the densities as
    heights and one colour per cluster; the x axis holds exactly the bars. *)
Theorem C202_dendrogram (dg : list (list Q)) :
  length (fst (show_dendrogram dg)) = length (concat dg) /\
  (forall c j, c < length dg -> j < length (nth c dg []) ->
     nth_error (fst (show_dendrogram dg)) (length (concat (firstn c dg)) + j) =
     Some (length (concat (firstn c dg)) + j, nth j (nth c dg []) 0%Q, get_color c)) /\
  (fst (snd (show_dendrogram dg)) == 0 - 1 / 2)%Q /\
  (snd (snd (show_dendrogram dg)) == inject_Z (Z.of_nat (length (concat dg))) - 1 / 2)%Q.
Proof.
  destruct (draw_bars_facts dg 0 0) as (A & B & N). unfold show_dendrogram. cbn [fst snd]. split; [exact A|]. split; [exact N|].
  split; [reflexivity|]. rewrite B. reflexivity.
Qed.
Print Assumptions C202_dendrogram.

Example C202_bars : show_dendrogram [[3; 2]; [1]]%Q =
  ([(0, 3%Q, "red"%string); (1, 2%Q, "red"%string); (2, 1%Q, "blue"%string)], ((-1 # 2)%Q, (5 # 2)%Q)).
Proof. reflexivity. Qed.

(** ** C203: the animation of BANG *)

(** The pictures after the blocks: densities at once, clusters after 15 frames,
    and after 30 frames the clusters alone. *)
Definition after_blocks (k : nat) : picture :=
  if k =? 0 then DrawDensity else if k =? 15 then DrawClusters else if k =? 30 then ClearAndDrawClusters else DrawNothing.

Lemma after_blocks_match k :
  match k with 0 => DrawDensity | 15 => DrawClusters | 30 => ClearAndDrawClusters | _ => DrawNothing end = after_blocks k.
Proof. unfold after_blocks. do 31 (destruct k as [|k]; [reflexivity|]). reflexivity. Qed.

Lemma frames_after levels n : forall a, length levels <= an_level a -> frames levels n a = Ok (map after_blocks (seq (an_special a) n)).
Proof.
  induction n as [|n IH]; intros a H; cbn [frames seq map]; [reflexivity|]. unfold frame.
  destruct (Nat.ltb_spec (an_level a) (length levels)); [lia|]. cbn [bind fst snd]. rewrite IH by exact H. cbn [bind an_special].
  rewrite <- after_blocks_match. reflexivity.
Qed.

Lemma skipn_nth {A} (l : list A) d i : i < length l -> skipn i l = nth i l d :: skipn (S i) l.
Proof. revert i. induction l as [|x l IH]; intros [|i] H; cbn in *; try lia; [reflexivity|]. apply IH. lia. Qed.

Lemma frames_blocks (levels : list (list Bang_Model.block)) rest : forall i l m,
  l < length levels -> i < length (nth l levels []) -> (forall e, l < e < length levels -> nth e levels [] <> []) ->
  rest = skipn i (nth l levels []) ++ concat (skipn (S l) levels) ->
  frames levels (length rest + m) (mkAnim i l (nth l levels []) 0) = Ok (map DrawBlock rest ++ map after_blocks (seq 0 m)).
Proof.
  induction rest as [|b rest IH]; intros i l m Hl Hi He Hr.
  - rewrite (skipn_nth _ Bang_Model.b0) in Hr by exact Hi. discriminate.
  - cbn [length Nat.add frames]. unfold frame at 1. cbn [an_level an_blocks an_block].
    destruct (Nat.ltb_spec l (length levels)); [|lia]. rewrite (nth_error_nth' _ Bang_Model.b0) by exact Hi. cbn [bind fst snd].
    rewrite (skipn_nth _ Bang_Model.b0) in Hr by exact Hi. cbn [app] in Hr. pose proof (f_equal (hd Bang_Model.b0) Hr) as Hb. apply (f_equal (@tl _)) in Hr. cbn [hd tl] in Hb, Hr. rewrite Hb. clear Hb.
    unfold increment_block. cbn [an_level an_blocks an_block an_special]. destruct (Nat.leb_spec (length (nth l levels [])) (S i)) as [Hq|Hq].
    + rewrite (skipn_all2 (nth l levels [])) in Hr by lia. cbn [app] in Hr. destruct (Nat.ltb_spec (S l) (length levels)) as [Hs|Hs].
      * assert (Hn : nth (S l) levels [] <> []) by (apply He; lia).
        rewrite (IH 0 (S l) m Hs); [reflexivity|destruct (nth (S l) levels []); [congruence|cbn; lia]|intros e Hee; apply He; lia|].
        cbn [skipn]. rewrite Hr. rewrite (skipn_nth levels []) by exact Hs. reflexivity.
      * rewrite (skipn_all2 levels) in Hr by lia. cbn [concat] in Hr. subst rest. cbn [length Nat.add map app].
        rewrite frames_after by (cbn [an_level]; lia). reflexivity.
    + rewrite (IH (S i) l m Hl Hq He Hr). reflexivity.
Qed.

Lemma frames_fail (levels : list (list Bang_Model.block)) n : forall i l e,
  l < length levels -> l < e < length levels -> nth e levels [] = [] ->
  length (skipn i (nth l levels []) ++ concat (skipn (S l) levels)) < n ->
  frames levels n (mkAnim i l (nth l levels []) 0) = Raise IndexError.
Proof.
  induction n as [|n IH]; intros i l e Hl He Hn Hlen; [lia|].
  cbn [frames]. unfold frame at 1. cbn [an_level an_blocks an_block]. destruct (Nat.ltb_spec l (length levels)); [|lia].
  destruct (nth_error (nth l levels []) i) as [b|] eqn:Eb; [|reflexivity]. cbn [bind fst snd].
  assert (Hi : i < length (nth l levels [])) by (apply nth_error_Some; congruence).
  rewrite (skipn_nth _ Bang_Model.b0) in Hlen by exact Hi. cbn [app length] in Hlen.
  unfold increment_block. cbn [an_level an_blocks an_block an_special]. destruct (Nat.leb_spec (length (nth l levels [])) (S i)) as [Hq|Hq].
  - rewrite (skipn_all2 (nth l levels [])) in Hlen by lia. cbn [app] in Hlen. destruct (Nat.ltb_spec (S l) (length levels)) as [Hs|Hs]; [|lia].
    destruct (Nat.eq_dec e (S l)) as [->|Hne].
    + destruct n as [|n]; [lia|]. cbn [frames]. unfold frame at 1. cbn [an_level an_blocks an_block].
      destruct (Nat.ltb_spec (S l) (length levels)); [|lia]. rewrite Hn. reflexivity.
    + rewrite (IH 0 (S l) e); [reflexivity|exact Hs|lia|exact Hn|]. rewrite skipn_O.
      rewrite (skipn_nth levels []) in Hlen by exact Hs. cbn [concat] in Hlen. lia.
  - rewrite (IH (S i) l e); [reflexivity|exact Hl|exact He|exact Hn|]. lia.
Qed.

Lemma build_levels_size data levels dthr athr D : forall levs prev dir,
  Bang_Model.size dir = length (concat (Bang_Model.level_blocks dir)) ->
  let r := Bang_Model.build_levels data levels dthr athr D levs prev dir in
  Bang_Model.size r = length (concat (Bang_Model.level_blocks r)).
Proof.
  induction levs as [|lev t IH]; intros prev dir H; cbn [Bang_Model.build_levels]; [exact H|].
  unfold Bang_Model.build_level. destruct (Bang_Model.split_blocks _ _ _ _ _ _ _) as [lf cur]. apply IH.
  unfold Bang_Model.store_level. cbn [Bang_Model.size Bang_Model.level_blocks]. rewrite concat_app, app_length, H. cbn [concat]. rewrite app_nil_r. reflexivity.
Qed.

Lemma directory_size data levels dthr athr d : Bang_Model.create_directory data levels dthr athr = Ok d ->
  Bang_Model.size d = length (concat (Bang_Model.level_blocks d)).
Proof.
  unfold Bang_Model.create_directory. destruct (Small_Model.data_corners data None) as [c|e]; cbn [bind]; [|discriminate].
  destruct (levels =? 1); [intro E; injection E as <-; reflexivity|]. destruct (_ =? 0); [discriminate|]. intro E. injection E as <-.
  cbn [Bang_Model.size Bang_Model.level_blocks]. apply build_levels_size. reflexivity.
Qed.

(** For points of the plane: if no level of the directory is empty, the animation
    draws every block of every level in turn, the densities, the clusters, and
    the clusters alone; otherwise it ends with an exception. *)
Theorem C203_animation (data : list point) (levels : nat) (dthr : Q) (athr : nat) d :
  Bang_Props.valid data 2 levels dthr -> Bang_Model.create_directory data levels dthr athr = Ok d ->
  ((forall blocks, In blocks (Bang_Model.level_blocks d) -> blocks <> []) ->
     animate data d = Ok (map DrawBlock (concat (Bang_Model.level_blocks d)) ++
                          [DrawDensity] ++ repeat DrawNothing 14 ++ [DrawClusters] ++ repeat DrawNothing 14 ++
                          [ClearAndDrawClusters] ++ repeat DrawNothing 30)) /\
  (In [] (Bang_Model.level_blocks d) -> animate data d = Raise IndexError).
Proof.
  intros (Hd & HD & Hne & Hl & Ht) Ed. pose proof (directory_size _ _ _ _ _ Ed) as Es.
  destruct (Bang_Proofs.create_directory_spec data 2 levels dthr athr Hd HD Hne Hl) as (d' & s0 & Ed' & _ & _ & _ & _ & _ & _ & Hh).
  rewrite Ed in Ed'. injection Ed' as <-. unfold animate. rewrite Es. set (lv := Bang_Model.level_blocks d) in *.
  assert (H0 : length (nth 0 data ([] : point)) = 2) by (apply Hd, nth_In; destruct data; [congruence|cbn; lia]).
  assert (Hlv : 0 < length lv) by lia.
  assert (Ea : animator_init data lv = Ok (mkAnim 0 0 (nth 0 lv []) 0)).
  { unfold animator_init. rewrite H0. destruct lv; [cbn in Hlv; lia|reflexivity]. }
  assert (Ec : concat lv = skipn 0 (nth 0 lv []) ++ concat (skipn 1 lv)) by (destruct lv; [cbn in Hlv; lia|reflexivity]).
  rewrite Ea. cbn [bind]. split.
  - intro H. replace (1 + (length (concat lv) + 60)) with (length (concat lv) + 61) by lia.
    assert (Hn : forall e, e < length lv -> nth e lv [] <> []) by (intros; apply H, nth_In; assumption).
    rewrite (frames_blocks lv (concat lv) 0 0 61 Hlv); [reflexivity| |intros; apply Hn; lia|exact Ec].
    pose proof (Hn 0 Hlv). destruct (nth 0 lv []); [congruence|cbn; lia].
  - intro H. apply (In_nth _ _ []) in H. destruct H as (e & He & Hn). destruct e as [|e].
    + cbn [Nat.add frames]. unfold frame at 1. cbn [an_level an_blocks an_block]. destruct (Nat.ltb_spec 0 (length lv)); [|lia]. rewrite Hn. reflexivity.
    + apply (frames_fail lv _ 0 0 (S e)); auto; [lia|]. rewrite <- Ec. lia.
Qed.
Print Assumptions C203_animation.

(** Points of another dimension are refused. *)
Theorem C203_plane_only (data : list point) (D levels : nat) (dthr : Q) (athr : nat) d :
  Bang_Props.valid data D levels dthr -> D <> 2 -> Bang_Model.create_directory data levels dthr athr = Ok d ->
  animate data d = Raise ValueError.
Proof.
  intros (Hd & HD & Hne & Hl & Ht) HD2 Ed.
  destruct (Bang_Proofs.create_directory_spec data D levels dthr athr Hd HD Hne Hl) as (d' & s0 & Ed' & _ & _ & _ & _ & _ & _ & Hh).
  rewrite Ed in Ed'. injection Ed' as <-. unfold animate, animator_init.
  destruct (Bang_Model.level_blocks d); [exfalso; cbn [length] in Hh; lia|].
  assert (H0 : length (nth 0 data ([] : point)) = D) by (apply Hd, nth_In; destruct data; [congruence|cbn; lia]).
  rewrite H0. destruct (Nat.eqb_spec D 2); [contradiction|reflexivity].
Qed.
Print Assumptions C203_plane_only.

Definition w203 : list point := [[0; 0]; [1; 1]]%Q.
Lemma w203_valid : Bang_Props.valid w203 2 3 0.
Proof.
  split; [|split; [lia|split; [discriminate|split; [lia|lra]]]].
  intros p H. repeat (destruct H as [<-|H]; [reflexivity|]). destruct H.
Qed.

(** The animation of a result of the algorithm raises IndexError. *)
Theorem C203_animation_refuted : exists data levels athr b d,
  Bang_Props.valid data 2 levels 0 /\ Bang_Model.process (fun l => l) data levels 0 athr Bang_Model.initial = Ok b /\
  Bang_Model.dir b = Some d /\ animate data d = Raise IndexError.
Proof.
  exists w203, 3, 1. do 2 eexists. split; [exact w203_valid|]. split; [vm_compute; reflexivity|]. split; [reflexivity|]. vm_compute. reflexivity.
Qed.
Print Assumptions C203_animation_refuted.

Example C203_example : exists d p, Bang_Model.create_directory w203 3 0 0 = Ok d /\ animate w203 d = Ok p /\
  ~ In [] (Bang_Model.level_blocks d) /\ length p = 67.
Proof.
  do 2 eexists. split; [vm_compute; reflexivity|]. split; [vm_compute; reflexivity|]. split; [|reflexivity].
  cbn. intros [H|[H|[]]]; discriminate.
Qed.

Lemma volume_positive D b i : Bang_Proofs.wf D b -> i < D -> (0 < Bang_Model.side b i)%Q -> (0 < Bang_Model.volume b)%Q.
Proof.
  intros (L1 & _ & W) Hi Hs. unfold Bang_Model.volume. rewrite L1.
  assert (W' : forall j, In j (seq 0 D) -> (0 <= Bang_Model.side b j)%Q).
  { intros j Hj. apply in_seq in Hj. unfold Bang_Model.side. specialize (W j ltac:(lia)). lra. }
  assert (Hin : In i (seq 0 D)) by (apply in_seq; lia).
  set (f := fun v i => if Qeq_bool (Bang_Model.side b i) 0 then v else if Qeq_bool v 0 then Bang_Model.side b i else (v * Bang_Model.side b i)%Q).
  assert (K : forall l v, (forall j, In j l -> (0 <= Bang_Model.side b j)%Q) -> (0 <= v)%Q ->
                (0 <= fold_left f l v)%Q /\ ((0 < v)%Q \/ In i l -> (0 < fold_left f l v)%Q)).
  { induction l as [|j l IH]; intros v Hl Hv; cbn [fold_left]; [split; [exact Hv|intros [H|[]]; exact H]|].
    assert (Hj : (0 <= Bang_Model.side b j)%Q) by (apply Hl; now left).
    assert (Hf : (0 <= f v j)%Q /\ ((0 < v)%Q \/ j = i -> (0 < f v j)%Q)).
    { unfold f. destruct (Qeq_bool (Bang_Model.side b j) 0) eqn:E1.
      - apply Qeq_bool_iff in E1. split; [exact Hv|]. intros [H| ->]; [exact H|lra].
      - apply Qeq_bool_neq in E1. destruct (Qeq_bool v 0) eqn:E2.
        + split; [exact Hj|]. intros _. lra.
        + apply Qeq_bool_neq in E2. split; [nra|]. intros _. assert (0 < v)%Q by lra. assert (0 < Bang_Model.side b j)%Q by lra. nra. }
    destruct (IH (f v j)) as [I1 I2]; [intros; apply Hl; now right|tauto|]. split; [exact I1|].
    intros [H|[H|H]]; apply I2; tauto. }
  apply (K (seq 0 D) 0%Q W'); [lra|now right].
Qed.

Section Default.
Variable data : list point.
Variable D levels : nat.
Hypothesis HD : 1 <= D.
Variable p : point.
Hypothesis Hp : In p data.
Hypothesis Hdim : length p = D.

Definition alive (b : Bang_Model.block) : Prop :=
  Bang_Proofs.wf D b /\ (exists i, i < D /\ (0 < Bang_Model.side b i)%Q) /\ Bang_Proofs.inside p b.

Lemma alive_dense b : alive b -> Bang_Model.is_sparse data 0 0 b = false.
Proof.
  intros (W & (i & Hi & Hs) & Hin). pose proof (volume_positive D b i W Hi Hs) as V.
  assert (A : 0 < Bang_Model.amount data b).
  { apply (In_nth _ _ []) in Hp. destruct Hp as (k & Hk & Ek). unfold Bang_Model.amount.
    assert (In k (Bang_Model.points data b)). { apply filter_In. split; [apply in_seq; split; [apply Nat.le_0_l|exact Hk]|]. apply Bang_Proofs.contains_spec. subst p. exact Hin. }
    destruct (Bang_Model.points data b); [contradiction|cbn; lia]. }
  unfold Bang_Model.is_sparse. apply orb_false_iff. split; [|apply Nat.leb_gt; lia].
  destruct (Qle_bool _ 0) eqn:E; [|reflexivity]. apply Qle_bool_iff in E. unfold Bang_Model.density in E.
  assert (Ev : Qeq_bool (Bang_Model.volume b) 0 = false).
  { destruct (Qeq_bool _ 0) eqn:E0; [|reflexivity]. apply Qeq_bool_iff in E0. lra. }
  rewrite Ev in E. exfalso. apply (Qlt_not_le _ _ (Qlt_shift_div_l 0 (inject_Z (Z.of_nat (Bang_Model.amount data b))) _ V
     ltac:(rewrite Qmult_0_l; change 0%Q with (inject_Z 0); rewrite <- Zlt_Qlt; lia)) E).
Qed.

Lemma alive_half d b : d < D -> alive b -> alive (fst (Bang_Model.split b d)) \/ alive (snd (Bang_Model.split b d)).
Proof.
  intros Hd (W & (i & Hi & Hs) & Hin). destruct (Bang_Proofs.split_wf D d Hd b W) as [W1 W2].
  destruct (Bang_Proofs.split_side D d Hd b i W) as [S1 S2].
  assert (P : (0 < (if d =? i then Bang_Model.side b i / 2 else Bang_Model.side b i))%Q).
  { destruct (d =? i); [|exact Hs]. apply Qlt_shift_div_l; lra. }
  destruct (Bang_Proofs.split_cover D d Hd b p Hdim W Hin) as [I|I]; [left|right]; (split; [assumption|split; [|exact I]]);
    exists i; (split; [exact Hi|]); [rewrite S1|rewrite S2]; exact P.
Qed.

Lemma split_keeps d prev : forall lf cur, incl cur (snd (Bang_Model.split_blocks data 0 0 d prev lf cur)) /\
  forall b, In b prev -> Bang_Model.is_sparse data 0 0 b = false ->
    In (fst (Bang_Model.split b d)) (snd (Bang_Model.split_blocks data 0 0 d prev lf cur)) /\
    In (snd (Bang_Model.split b d)) (snd (Bang_Model.split_blocks data 0 0 d prev lf cur)).
Proof.
  induction prev as [|x t IH]; intros lf cur; cbn [Bang_Model.split_blocks]; [split; [apply incl_refl|intros b []]|].
  destruct (Bang_Model.is_sparse data 0 0 x) eqn:Ex.
  - destruct (IH (lf ++ [x]) cur) as [A B]. split; [exact A|]. intros b [<-|Hb] Hs; [congruence|auto].
  - destruct (IH lf (cur ++ [fst (Bang_Model.split x d); snd (Bang_Model.split x d)])) as [A B].
    split; [intros z Hz; apply A, in_or_app; now left|].
    intros b [<-|Hb] Hs; [|auto]. split; apply A, in_or_app; right; cbn; auto.
Qed.

Lemma build_levels_alive : forall levs prev dir, (exists b, In b prev /\ alive b) ->
  (forall x, In x (Bang_Model.level_blocks dir) -> x <> []) ->
  forall x, In x (Bang_Model.level_blocks (Bang_Model.build_levels data levels 0 0 D levs prev dir)) -> x <> [].
Proof.
  induction levs as [|lev t IH]; intros prev dir (b & Hb & Ab) Hx; cbn [Bang_Model.build_levels]; [exact Hx|].
  unfold Bang_Model.build_level. pose proof (split_keeps (lev mod D) prev (Bang_Model.leafs dir) []) as [_ K].
  specialize (K b Hb (alive_dense b Ab)).
  destruct (Bang_Model.split_blocks data 0 0 (lev mod D) prev (Bang_Model.leafs dir) []) as [lf cur]. cbn [snd] in K. apply IH.
  - pose proof (Nat.mod_upper_bound lev D ltac:(lia)). destruct (alive_half (lev mod D) b ltac:(lia) Ab) as [A|A]; eexists; (split; [|exact A]); tauto.
  - intros x. unfold Bang_Model.store_level. cbn [Bang_Model.level_blocks]. intro Hin. apply in_app_or in Hin.
    destruct Hin as [Hin|[<-|[]]]; [auto|]. destruct K as [K _]. destruct cur; [destruct K|discriminate].
Qed.
End Default.

(** With the thresholds 0 of the constructor the animation is complete exactly if
    not all points are the same (or there is one level only). *)
Theorem C203_default_thresholds (data : list point) (levels : nat) d :
  Bang_Props.valid data 2 levels 0 -> Bang_Model.create_directory data levels 0 0 = Ok d ->
  ((exists ps, animate data d = Ok ps) <-> levels = 1 \/ exists p q i, In p data /\ In q data /\ i < 2 /\ ~ (coord p i == coord q i)%Q).
Proof.
  intros V Ed. pose proof V as (Hd & HD & Hne & Hl & Ht). destruct (C203_animation data levels 0 0 d V Ed) as [C1 C2].
  pose proof Ed as Ed'. unfold Bang_Model.create_directory in Ed'.
  destruct (Small_Proofs.data_corners_spec data None 2 Hne Hd ltac:(discriminate)) as (c & Ec & (L1 & L2 & Htight)). rewrite Ec in Ed'. cbn [bind] in Ed'.
  assert (H0 : length (nth 0 data ([] : point)) = 2) by (apply Hd, nth_In; destruct data; [congruence|cbn; lia]).
  rewrite H0 in Ed'. cbn [Nat.eqb] in Ed'. set (root := Bang_Model.mkBlk (snd c) (fst c) 0 0) in *.
  assert (Wr : Bang_Proofs.wf 2 root).
  { split; [exact L2|]. split; [exact L1|]. intros i Hi. apply (Small_Proofs.tight_le data i). apply Htight. exact Hi. }
  assert (Ir : forall p, In p data -> Bang_Proofs.inside p root).
  { intros p Hp i Hi. rewrite (Hd p Hp) in Hi. destruct (Htight i Hi) as (_ & _ & H). apply H. exact Hp. }
  destruct (Nat.eqb_spec levels 1) as [E1|E1].
  - split; [intros _; now left|]. intros _. injection Ed' as <-. eexists. apply C1. cbn. intros x [<-|[]]. discriminate.
  - injection Ed' as Ed'. split.
    + intros (ps & Eps). right. destruct (Qlt_le_dec 0 (Bang_Model.side root 0)) as [S0|S0].
      * destruct (Htight 0 ltac:(lia)) as ((q & Hq & Eq) & (p & Hp & Epp) & _). exists p, q, 0. split; [exact Hp|]. split; [exact Hq|]. split; [lia|].
        unfold Bang_Model.side, root in S0. cbn [Bang_Model.bmax Bang_Model.bmin] in S0. rewrite <- Eq, <- Epp in S0. intro. lra.
      * destruct (Qlt_le_dec 0 (Bang_Model.side root 1)) as [S1|S1].
        -- destruct (Htight 1 ltac:(lia)) as ((q & Hq & Eq) & (p & Hp & Epp) & _). exists p, q, 1. split; [exact Hp|]. split; [exact Hq|]. split; [lia|].
           unfold Bang_Model.side, root in S1. cbn [Bang_Model.bmax Bang_Model.bmin] in S1. rewrite <- Eq, <- Epp in S1. intro. lra.
        -- exfalso. rewrite C2 in Eps; [discriminate|]. rewrite <- Ed'. cbn [Bang_Model.level_blocks].
           assert (Z : forall i, i < 2 -> Qeq_bool (Bang_Model.side root i) 0 = true).
           { intros i Hi. apply Qeq_bool_iff. pose proof (proj2 (proj2 Wr) i Hi). unfold Bang_Model.side in *.
             destruct i as [|[|]]; [lra|lra|lia]. }
           assert (Sp : Bang_Model.is_sparse data 0 0 root = true).
           { unfold Bang_Model.is_sparse, Bang_Model.density, Bang_Model.volume. cbn [root Bang_Model.bmax] in *. fold root. rewrite L2.
             cbn [seq fold_left]. rewrite !Z by lia. reflexivity. }
           destruct (levels - 1) as [|k] eqn:Ek; [lia|]. cbn [seq Bang_Model.build_levels]. unfold Bang_Model.build_level.
           cbn [Bang_Model.split_blocks Bang_Model.leafs app]. rewrite Sp. cbn [Bang_Model.split_blocks].
           assert (M : forall levs prev dir x, In x (Bang_Model.level_blocks dir) -> In x (Bang_Model.level_blocks (Bang_Model.build_levels data levels 0 0 2 levs prev dir))).
           { induction levs as [|lev t IH]; intros prev dir x Hx; cbn [Bang_Model.build_levels]; [exact Hx|].
             unfold Bang_Model.build_level. destruct (Bang_Model.split_blocks _ _ _ _ _ _ _). apply IH. unfold Bang_Model.store_level. cbn [Bang_Model.level_blocks].
             apply in_or_app. now left. }
           apply M. left. reflexivity.
    + intros [H|(p & q & i & Hp & Hq & Hi & Hpq)]; [contradiction|]. eexists. apply C1. rewrite <- Ed'. cbn [Bang_Model.level_blocks].
      apply (build_levels_alive data 2 levels HD p Hp (Hd p Hp)); [|intros x []].
      exists root. split; [now left|]. split; [exact Wr|]. split; [|apply Ir, Hp]. exists i. split; [exact Hi|].
      pose proof (Ir p Hp i ltac:(rewrite (Hd p Hp); exact Hi)) as A. pose proof (Ir q Hq i ltac:(rewrite (Hd q Hq); exact Hi)) as B. unfold Bang_Model.side.
      destruct (Qlt_le_dec 0 (coord (Bang_Model.bmax root) i - coord (Bang_Model.bmin root) i)) as [S|S]; [exact S|]. exfalso. apply Hpq. lra.
Qed.
Print Assumptions C203_default_thresholds.
