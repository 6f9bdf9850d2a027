(** Properties of the drawing of clusters (C185-C189). *)
From Coq Require Import String.
From Verif Require Import Base Canvas_Model Canvas_Proofs.
Open Scope nat_scope.

(** ** C185: the picture shows exactly what was appended *)

(** When all calls returned normally, the axes drawn by show are those of the
    canvases with clusters, in order, each with the title of the canvas and
    with one mark for every point of every cluster and attribute, in the order
    of the calls; all clusters of a canvas have its dimension. *)
Theorem C185_drawn (n row shift : nat) (titles : option (list (option string))) (calls : list call) (v : visualizer) grid axs :
  run (vis_init n row titles) calls = Ok v -> show v shift = Ok (grid, axs) ->
  Forall2 (fun c a => exists d, 1 <= d <= 3 /\
             Forall (fun r => dimension_of (content_of r) = Some d) (appended calls c) /\
             ax_cell a = c + shift /\ ax_3d a = (d =? 3) /\ ax_marks a = expected calls c d /\
             ax_title a = title_of (length (titles_of n titles)) (nth c (titles_of n titles) None) calls c)
    (filter (fun c => negb (length (appended calls c) =? 0)) (seq 0 n)) axs.
Proof.
  intros Hr H. apply run_inv in Hr. unfold show in H.
  destruct (vi_row v =? 0); [discriminate|].
  destruct ((vi_number v + shift + (vi_row v - 1)) / vi_row v =? 0); [discriminate|].
  destruct (show_canvases v shift (seq 0 (length (vi_clusters v)))) as [l|] eqn:E; cbn in H; [|discriminate].
  injection H as _ <-. rewrite (i_len _ _ _ _ _ Hr) in E.
  eapply show_canvases_ok in E; [|exact Hr|apply Forall_forall; intros k Hk; apply in_seq in Hk; lia].
  revert E. generalize (filter (fun c => negb (length (appended calls c) =? 0)) (seq 0 n)).
  intros ks E. induction E as [|c a ks axs Ha E IH]; constructor; [|exact IH].
  destruct Ha as (d & Hd & Hf & ->). exists d. auto 10.
Qed.
Print Assumptions C185_drawn.

(** append_clusters is one call of append_cluster for each cluster, so the
    theorems about calls speak about it, too. *)
Theorem C185_append_clusters (cs : list content) (canvas : Z) (m : string) (size : option Q) : forall v v',
  append_clusters v cs canvas m size = (v', Ok tt) <-> run v (map (fun c => Append c canvas m size None) cs) = Ok v'.
Proof.
  induction cs as [|c cs IH]; intros v v'; cbn [append_clusters map run step].
  - split; intro H; [injection H as ->|injection H as ->]; reflexivity.
  - destruct (append_cluster v c canvas m size None) as [w [o|e]]; [apply IH|]. split; discriminate.
Qed.
Print Assumptions C185_append_clusters.

(** A cluster that can be drawn with d coordinates. *)
Definition fits (d : nat) (x : content) : Prop :=
  match x with
  | Points l => Forall (fun p => d <= length p) l
  | Indexes l data => Forall (fun i => i < length data /\ d <= length (nth i data [])) l
  end.

Lemma draw_layer_succeeds d la : 1 <= d <= 3 -> fits d (la_content la) -> exists ms, draw_layer (Some d) la = Ok ms.
Proof.
  intros Hd Hf. unfold draw_layer. destruct (la_content la) as [l|l data]; cbn [items fits] in *;
    rewrite draw_all_map; apply draw_all_succeeds; rewrite Forall_forall in Hf.
  - intros p Hp. apply draw_item_succeeds; auto.
  - intros i Hi. destruct (Hf i Hi) as [H1 H2]. rewrite (nth_error_lt data i [] H1). apply draw_item_succeeds; auto.
Qed.

(** It does show: with a title for every canvas (the default), points that have
    the coordinates of the canvas and indexes inside the data, show returns. *)
Theorem C185_shows (n row shift : nat) (titles : option (list (option string))) (calls : list call) (v : visualizer) :
  0 < n -> 0 < row -> n <= length (titles_of n titles) ->
  run (vis_init n row titles) calls = Ok v ->
  (forall c d r, c < n -> In r (appended calls c) -> dimension_of (content_of r) = Some d -> fits d (content_of r)) ->
  (forall c d k r a, c < n -> In r (appended calls c) -> dimension_of (content_of r) = Some d ->
     In a (attached calls c k) -> Forall (fun p => d <= length p) (fst (fst a))) ->
  exists picture, show v shift = Ok picture.
Proof.
  intros Hn Hrow Ht Hr Hf Ha. apply run_inv in Hr. unfold show.
  rewrite (i_row _ _ _ _ _ Hr), (i_number _ _ _ _ _ Hr), (i_len _ _ _ _ _ Hr).
  destruct (Nat.eqb_spec row 0); [lia|].
  destruct (Nat.eqb_spec ((n + shift + (row - 1)) / row) 0) as [E|E].
  { exfalso. apply Nat.div_small_iff in E; lia. }
  assert (Hs : forall ks, Forall (fun k => k < n) ks -> exists l, show_canvases v shift ks = Ok l).
  2:{ destruct (Hs (seq 0 n)) as [l ->]; [apply Forall_forall; intros k Hk; apply in_seq in Hk; lia|]. cbn. eauto. }
  induction ks as [|k ks IH]; intro Hks; cbn [show_canvases]; [eauto|].
  inversion_clear Hks as [|? ? Hk Hks']. destruct (IH Hks') as [more Hm].
  destruct (i_entries _ _ _ _ _ Hr k Hk) as [L1 L2].
  destruct (nth k (vi_clusters v) []) as [|e es] eqn:En; [eauto|].
  assert (Hne : exists r, In r (appended calls k)).
  { destruct (appended calls k) as [|r ?]; [discriminate|]. exists r. now left. }
  destruct Hne as [r Hin]. destruct (i_dims _ _ _ _ _ Hr k r Hk Hin) as (d & H1 & Hd & H3). rewrite H3 in *.
  destruct (draw_all_succeeds (draw_entry (Some d)) (e :: es)) as [ms Hms].
  { intros x Hx. apply In_nth_error in Hx. destruct Hx as [j Hj].
    assert (Hjl : j < length (appended calls k)) by (rewrite <- L1; apply nth_error_Some; congruence).
    destruct (nth_error (appended calls k) j) as [r'|] eqn:Er; [|apply nth_error_None in Er; lia].
    rewrite (L2 d j r' eq_refl Er) in Hj. injection Hj as <-.
    apply nth_error_In in Er. destruct (i_dims _ _ _ _ _ Hr k r' Hk Er) as (d' & G1 & _ & G3).
    assert (d' = d) by congruence. subst d'.
    unfold draw_entry. cbn [en_layer en_attributes].
    destruct (draw_layer_succeeds d (layer_of d j r') Hd) as [m1 ->].
    { destruct r' as [[[x m] s] col]. apply (Hf k d _ Hk Er G1). }
    cbn [bind]. rewrite draw_all_map.
    destruct (draw_all_succeeds (fun a => draw_layer (Some d) (attribute_of (layer_of d j r') a)) (attached calls k j)) as [m2 ->].
    2:{ cbn. eauto. }
    intros [[l m] s] Hl. apply draw_layer_succeeds; [exact Hd|]. cbn [attribute_of la_content fits].
    apply (Ha k d j r' _ Hk Er G1 Hl). }
  rewrite Hms. cbn [bind].
  assert (Hkt : k < length (vi_titles v)) by (rewrite (i_tlen _ _ _ _ _ Hr); lia).
  rewrite (nth_error_lt _ _ None Hkt), Hm. cbn. eauto.
Qed.
Print Assumptions C185_shows.

(** Two canvases, three clusters, an attribute and a title. *)
Example C185_example :
  let calls :=
    [Append (Indexes [0; 1] [[1%Q; 2%Q]; [3%Q; 4%Q]; [5%Q; 6%Q]]) 0 "." None None;
     Append (Indexes [] [[1%Q; 2%Q]]) 0 "." None None;
     Append (Indexes [2] [[1%Q; 2%Q]; [3%Q; 4%Q]; [5%Q; 6%Q]]) 0 "o" (Some 7%Q) None;
     Attach 0 0 [[9%Q; 9%Q]] (Some "*"%string) None;
     Append (Points [[1%Q; 2%Q; 3%Q]]) 1 "." None (Some "green"%string);
     Title "second" (-1)]%string in
  match run (vis_init 2 1 None) calls with
  | Ok v => show v 0
  | Raise e => Raise e
  end = Ok ((2, 1),
    [mkAxes 0 false [Plot 1 2 "red" "." (Some 5%Q); Plot 3 4 "red" "." (Some 5%Q); Plot 9 9 "red" "*" (Some 5%Q);
                     Plot 5 6 "blue" "o" (Some 7%Q)] None;
     mkAxes 1 true [Scatter 1 2 3 "green" "." (Some 30%Q)] (Some "second"%string)]).
Proof. reflexivity. Qed.

(** ** C186: a cluster that is refused does not appear *)

(** False: append_cluster raises ValueError for a cluster of another dimension,
    the canvas keeps it, and show draws it with the others. *)
Theorem C186_not_shown_refuted :
  exists (calls : list call) (v v' : visualizer) (bad : content) before after,
    run (vis_init 1 1 None) calls = Ok v /\
    append_cluster v bad 0 "." None None = (v', Raise ValueError) /\
    show v 0 = Ok ((1, 1), [before]) /\ show v' 0 = Ok ((1, 1), [after]) /\
    ax_marks before = [Plot 1 2 "red" "." (Some 5%Q)] /\
    ax_marks after = [Plot 1 2 "red" "." (Some 5%Q); Plot 7 8 "blue" "." None].
Proof.
  exists [Append (Points [[1%Q; 2%Q]]) 0 "." None None].
  eexists. eexists. exists (Points [[7%Q; 8%Q; 9%Q]]). eexists. eexists.
  repeat split; reflexivity.
Qed.
Print Assumptions C186_not_shown_refuted.

(** After refusing a cluster with fewer coordinates show does not work any
    more. *)
Theorem C186_still_works_refuted :
  exists (calls : list call) (v v' : visualizer) (bad : content) before,
    run (vis_init 1 1 None) calls = Ok v /\ show v 0 = Ok before /\
    append_cluster v bad 0 "." None None = (v', Raise ValueError) /\ show v' 0 = Raise IndexError.
Proof.
  exists [Append (Points [[1%Q; 2%Q]]) 0 "." None None]. eexists. eexists. exists (Points [[7%Q]]). eexists.
  repeat split; reflexivity.
Qed.
Print Assumptions C186_still_works_refuted.

(** It is always so: a cluster refused with ValueError stays on its canvas. *)
Theorem C186_stays (v v' : visualizer) (c : content) (canvas : Z) (marker : string) (size : option Q) (color : option string) :
  append_cluster v c canvas marker size color = (v', Raise ValueError) ->
  exists col, (0 <= canvas)%Z /\
    nth_error (vi_clusters v') (Z.to_nat canvas) =
      Some (nth (Z.to_nat canvas) (vi_clusters v) [] ++ [mkEntry (mkLayer c marker size col) []]).
Proof.
  unfold append_cluster. intro H.
  destruct (amount c =? 0); [discriminate|].
  destruct ((Z.of_nat (vi_number v) <? canvas)%Z || (canvas <? 0)%Z) eqn:Er; [discriminate|].
  apply orb_false_iff in Er. destruct Er as [_ Er]. apply Z.ltb_ge in Er.
  set (k := Z.to_nat canvas) in *.
  destruct (nth_error (vi_clusters v) k) as [entries|] eqn:En; [|discriminate].
  assert (Hk : k < length (vi_clusters v)) by (apply nth_error_Some; congruence).
  rewrite (nth_error_nth _ _ [] En).
  destruct (dimension_of c) as [d|]; [|discriminate].
  set (col := match color with Some x => x | None => nth (length entries mod length TITLES) TITLES EmptyString end) in *.
  exists col. split; [exact Er|].
  destruct (match nth k (vi_dims v) None with None => false | Some d' => negb (d' =? d) end).
  - injection H as <-. cbn [vi_clusters]. rewrite nth_error_upd, Nat.eqb_refl.
    destruct (Nat.ltb_spec k (length (vi_clusters v))); [reflexivity|lia].
  - destruct ((d <? 1) || (3 <? d)); [|discriminate].
    injection H as <-. cbn [vi_clusters]. rewrite nth_error_upd, Nat.eqb_refl.
    destruct (Nat.ltb_spec k (length (vi_clusters v))); [reflexivity|lia].
Qed.
Print Assumptions C186_stays.

(** A first cluster refused for its dimension blocks the canvas: afterwards no
    cluster at all is accepted there. *)
Theorem C186_blocked (n row : nat) titles (calls : list call) (v v' : visualizer) (bad : content) (c : nat) (m : string) s col :
  run (vis_init n row titles) calls = Ok v -> appended calls c = [] ->
  append_cluster v bad (Z.of_nat c) m s col = (v', Raise ValueError) ->
  forall good m' s' col', amount good <> 0 -> exists e, snd (append_cluster v' good (Z.of_nat c) m' s' col') = Raise e.
Proof.
  intros Hr Hnil H good m' s' col' Hg. apply run_inv in Hr.
  unfold append_cluster in H.
  destruct (amount bad =? 0); [discriminate|].
  destruct ((Z.of_nat (vi_number v) <? Z.of_nat c)%Z || (Z.of_nat c <? 0)%Z) eqn:Er; [discriminate|].
  rewrite Nat2Z.id in H.
  destruct (nth_error (vi_clusters v) c) as [entries|] eqn:En; [|discriminate].
  assert (Hk : c < length (vi_clusters v)) by (apply nth_error_Some; congruence).
  assert (Hc : c < n) by (rewrite <- (i_len _ _ _ _ _ Hr); auto).
  rewrite (i_none _ _ _ _ _ Hr c Hc Hnil) in H.
  destruct (dimension_of bad) as [d|]; [|discriminate].
  destruct ((d <? 1) || (3 <? d)) eqn:E3; [|discriminate]. injection H as <-.
  unfold append_cluster. apply Nat.eqb_neq in Hg. rewrite Hg. cbn [vi_number vi_clusters vi_dims]. rewrite Er, Nat2Z.id.
  rewrite nth_error_upd, Nat.eqb_refl. destruct (Nat.ltb_spec c (length (vi_clusters v))); [|lia]. cbn [andb].
  destruct (dimension_of good) as [d'|]; [|cbn; eauto].
  rewrite upd_nth_eq by (rewrite (i_dlen _ _ _ _ _ Hr); auto).
  destruct (negb (d =? d')) eqn:Ed; [cbn; eauto|].
  apply negb_false_iff, Nat.eqb_eq in Ed. subst d'. rewrite E3. cbn. eauto.
Qed.
Print Assumptions C186_blocked.

Example C186_blocked_example :
  exists v', append_cluster (vis_init 1 1 None) (Points [[1%Q; 2%Q; 3%Q; 4%Q]]) 0 "." None None = (v', Raise ValueError) /\
  snd (append_cluster v' (Points [[1%Q; 2%Q]]) 0 "." None None) = Raise ValueError.
Proof. eexists. split; reflexivity. Qed.

(** ** C187: a canvas that does not exist *)

(** The documented ValueError never comes: the index equal to the number of
    canvases gives IndexError, a larger or negative one TypeError. *)
Theorem C187_value_error_refuted :
  exists (v : visualizer) (c : content) (canvas : Z),
    run (vis_init 2 1 None) [] = Ok v /\ (canvas < 0 \/ 2 <= canvas)%Z /\
    snd (append_cluster v c canvas "." None None) <> Raise ValueError /\
    snd (set_canvas_title v "title" canvas) <> Raise ValueError.
Proof.
  exists (vis_init 2 1 None), (Points [[1%Q]]), 2%Z. split; [reflexivity|]. split; [lia|]. split; discriminate.
Qed.
Print Assumptions C187_value_error_refuted.

(** the points or the indexes of points that a cluster lists *)
Definition lists_nothing (c : content) : Prop := match c with Points [] => True | Indexes [] _ => True | _ => False end.
Lemma amount_zero c : amount c = 0 <-> lists_nothing c.
Proof. destruct c as [[|x l] | [|x l] d]; cbn; split; intro H; auto; try discriminate; contradiction. Qed.

(** What does hold: a non-empty cluster for a canvas that does not exist is
    refused with an exception, and nothing changes. *)
Theorem C187_refused (n row : nat) titles (calls : list call) (v : visualizer) (c : content) (canvas : Z) (m : string) s col :
  run (vis_init n row titles) calls = Ok v -> ~ lists_nothing c -> (canvas < 0 \/ Z.of_nat n <= canvas)%Z ->
  append_cluster v c canvas m s col = (v, Raise (if (canvas =? Z.of_nat n)%Z then IndexError else TypeError)).
Proof.
  intros Hr Hc Hcan. apply run_inv in Hr. unfold append_cluster. rewrite (i_number _ _ _ _ _ Hr).
  rewrite <- amount_zero in Hc. apply Nat.eqb_neq in Hc. rewrite Hc.
  destruct (Z.ltb_spec (Z.of_nat n) canvas); cbn [orb].
  - destruct (Z.eqb_spec canvas (Z.of_nat n)); [lia|reflexivity].
  - destruct (Z.ltb_spec canvas 0).
    + destruct (Z.eqb_spec canvas (Z.of_nat n)); [lia|reflexivity].
    + assert (canvas = Z.of_nat n) by lia. subst canvas. rewrite Nat2Z.id, Z.eqb_refl.
      destruct (nth_error (vi_clusters v) n) as [x|] eqn:E; [|reflexivity].
      exfalso. assert (n < length (vi_clusters v)) by (apply nth_error_Some; congruence).
      rewrite (i_len _ _ _ _ _ Hr) in *. lia.
Qed.
Print Assumptions C187_refused.

(** An empty cluster is ignored, whatever the canvas. *)
Theorem C187_empty (v : visualizer) (c : content) (canvas : Z) (m : string) s col :
  lists_nothing c -> append_cluster v c canvas m s col = (v, Ok None).
Proof. intro H. apply amount_zero in H. unfold append_cluster. apply Nat.eqb_eq in H. now rewrite H. Qed.
Print Assumptions C187_empty.

(** A title is set for -n ... n-1, negative indexes counting from the last
    canvas; everything else is refused and changes nothing. *)
Theorem C187_titles (n row : nat) (calls : list call) (v : visualizer) (text : string) (canvas : Z) :
  run (vis_init n row None) calls = Ok v ->
  ((- Z.of_nat n <= canvas < Z.of_nat n)%Z ->
     exists v', set_canvas_title v text canvas = (v', Ok tt) /\ vi_clusters v' = vi_clusters v) /\
  ((canvas < - Z.of_nat n \/ Z.of_nat n <= canvas)%Z ->
     exists e, set_canvas_title v text canvas = (v, Raise e)).
Proof.
  intro Hr. apply run_inv in Hr. unfold set_canvas_title. rewrite (i_number _ _ _ _ _ Hr).
  pose proof (i_tlen _ _ _ _ _ Hr) as Ht. cbn [titles_of] in Ht. rewrite repeat_length in Ht. rewrite Ht.
  split; intro H.
  - destruct (Z.ltb_spec (Z.of_nat n) canvas); [lia|].
    destruct (Z.ltb_spec canvas 0).
    + destruct (Z.ltb_spec (canvas + Z.of_nat n) 0); [lia|].
      destruct (Z.leb_spec (Z.of_nat n) (canvas + Z.of_nat n)); [lia|]. cbn [orb]. eexists. split; reflexivity.
    + destruct (Z.leb_spec (Z.of_nat n) canvas); [lia|]. rewrite (proj2 (Z.ltb_ge canvas 0)) by lia. cbn [orb].
      eexists. split; reflexivity.
  - destruct (Z.ltb_spec (Z.of_nat n) canvas); [eauto|].
    destruct (Z.ltb_spec canvas 0).
    + destruct (Z.ltb_spec (canvas + Z.of_nat n) 0); [|lia]. cbn [orb]. eauto.
    + destruct (Z.leb_spec (Z.of_nat n) canvas); [|lia]. rewrite orb_true_r. eauto.
Qed.
Print Assumptions C187_titles.

Example C187_example :
  append_cluster (vis_init 2 1 None) (Points [[1%Q]]) 2 "." None None = (vis_init 2 1 None, Raise IndexError) /\
  append_cluster (vis_init 2 1 None) (Points [[1%Q]]) 5 "." None None = (vis_init 2 1 None, Raise TypeError) /\
  append_cluster (vis_init 2 1 None) (Points [[1%Q]]) (-1) "." None None = (vis_init 2 1 None, Raise TypeError).
Proof. repeat split; reflexivity. Qed.

(** ** C188: colours *)

(** The colour that is reported for a cluster is the one given for it, or the
    colour of its place on the canvas. *)
Theorem C188_reported (n row : nat) titles (calls : list call) (v : visualizer) (c k : nat) x m s col :
  run (vis_init n row titles) calls = Ok v -> c < n ->
  nth_error (appended calls c) k = Some (x, m, s, col) ->
  get_cluster_color v k c = Ok (match col with Some name => name | None => get_color k end).
Proof.
  intros Hr Hc H. apply run_inv in Hr. destruct (i_entries _ _ _ _ _ Hr c Hc) as [L1 L2].
  destruct (i_dims _ _ _ _ _ Hr c _ Hc (nth_error_In _ _ H)) as (d & _ & _ & Hd).
  unfold get_cluster_color. rewrite (nth_error_lt (vi_clusters v) c []) by (rewrite (i_len _ _ _ _ _ Hr); auto).
  rewrite (L2 d k _ Hd H). cbn. destruct col; reflexivity.
Qed.
Print Assumptions C188_reported.

(** The index that append_cluster returns is the place of the cluster. *)
Theorem C188_index (n row : nat) titles (calls : list call) (v v' : visualizer) (c i : nat) x m s col :
  run (vis_init n row titles) calls = Ok v ->
  append_cluster v x (Z.of_nat c) m s col = (v', Ok (Some i)) ->
  i = length (appended calls c) /\
  get_cluster_color v' i c = Ok (match col with Some name => name | None => get_color i end).
Proof.
  intros Hr H.
  assert (Hr' : run (vis_init n row titles) (calls ++ [Append x (Z.of_nat c) m s col]) = Ok v').
  { rewrite run_app, Hr. cbn. now rewrite H. }
  pose proof (run_inv _ _ _ _ _ Hr) as I.
  assert (Hn : amount x =? 0 = false /\ c < n /\ i = length (appended calls c)).
  { unfold append_cluster in H. destruct (amount x =? 0); [discriminate|]. split; [reflexivity|].
    destruct ((Z.of_nat (vi_number v) <? Z.of_nat c)%Z || (Z.of_nat c <? 0)%Z); [discriminate|].
    rewrite Nat2Z.id in H.
    destruct (nth_error (vi_clusters v) c) as [entries|] eqn:En; [|discriminate].
    assert (Hk : c < n) by (rewrite <- (i_len _ _ _ _ _ I); apply nth_error_Some; congruence).
    split; [exact Hk|]. destruct (i_entries _ _ _ _ _ I c Hk) as [L1 _]. rewrite (nth_error_nth _ _ [] En) in L1. rewrite <- L1.
    destruct (dimension_of x) as [d|]; [|discriminate].
    destruct (match nth c (vi_dims v) None with None => false | Some d' => negb (d' =? d) end); [discriminate|].
    destruct ((d <? 1) || (3 <? d)); [discriminate|]. now injection H as _ <-. }
  destruct Hn as (Hn & Hc & ->). split; [reflexivity|].
  eapply C188_reported; [exact Hr'|exact Hc|]. rewrite appended_app, nth_error_app2, Nat.sub_diag by lia.
  cbn [appended flat_map]. rewrite Z.eqb_refl, Hn. reflexivity.
Qed.
Print Assumptions C188_index.

Lemma TITLES_distinct : NoDup TITLES.
Proof.
  unfold TITLES. repeat (constructor; [cbn; intro H; repeat (destruct H as [H|H]; [discriminate|]); exact H|]). constructor.
Qed.

(** Default colours of clusters fewer than 35 places apart differ. *)
Theorem C188_distinct (i j : nat) : i < j -> j < i + 35 -> get_color i <> get_color j.
Proof.
  intros H1 H2 H. unfold get_color in H. change (length TITLES) with 35 in H.
  assert (Hm : forall k, k mod 35 < length TITLES) by (intro k; apply Nat.mod_upper_bound; discriminate).
  pose proof (proj1 (NoDup_nth TITLES EmptyString) TITLES_distinct _ _ (Hm i) (Hm j) H) as E.
  pose proof (Nat.div_mod i 35 ltac:(lia)). pose proof (Nat.div_mod j 35 ltac:(lia)).
  assert (i / 35 <= j / 35) by (apply Nat.div_le_mono; lia). nia.
Qed.
Print Assumptions C188_distinct.

(** They repeat after 35. *)
Theorem C188_repeat (i : nat) : get_color (i + 35) = get_color i.
Proof.
  unfold get_color. change (length TITLES) with 35. f_equal.
  replace (i + 35) with (i + 1 * 35) by lia. apply Nat.mod_add. lia.
Qed.
Print Assumptions C188_repeat.

Example C188_example : get_color 0 = "red"%string /\ get_color 34 = "olive"%string /\ get_color 35 = "red"%string.
Proof. repeat split. Qed.

(** ** C189: every canvas has its own cell of the grid *)
Theorem C189_cells (n row shift : nat) titles (calls : list call) (v : visualizer) rows cols axs :
  run (vis_init n row titles) calls = Ok v -> show v shift = Ok ((rows, cols), axs) ->
  cols = row /\ n + shift <= rows * cols /\ rows * cols < n + shift + cols /\
  NoDup (map ax_cell axs) /\ Forall (fun a => shift <= ax_cell a < rows * cols) axs.
Proof.
  intros Hr H. pose proof (C185_drawn n row shift titles calls v _ _ Hr H) as HF. apply run_inv in Hr.
  unfold show in H. rewrite (i_row _ _ _ _ _ Hr), (i_number _ _ _ _ _ Hr) in H.
  destruct (Nat.eqb_spec row 0) as [|Hrow]; [discriminate|].
  destruct ((n + shift + (row - 1)) / row =? 0); [discriminate|].
  destruct (show_canvases v shift (seq 0 (length (vi_clusters v)))); cbn in H; [|discriminate].
  injection H as <- <- <-. split; [reflexivity|].
  pose proof (Nat.div_mod (n + shift + (row - 1)) row Hrow) as E.
  pose proof (Nat.mod_upper_bound (n + shift + (row - 1)) row Hrow) as E2.
  set (q := (n + shift + (row - 1)) / row) in *. split; [nia|]. split; [nia|].
  assert (Hcells : map ax_cell a = map (fun c => c + shift) (filter (fun c => negb (length (appended calls c) =? 0)) (seq 0 n))).
  { clear - HF. induction HF as [|c x ks l Hx HF IH]; [reflexivity|]. cbn [map]. rewrite IH. f_equal.
    destruct Hx as (d & _ & _ & Hcell & _). exact Hcell. }
  split.
  - rewrite Hcells. apply FinFun.Injective_map_NoDup; [intros x y; lia|]. apply NoDup_filter, seq_NoDup.
  - apply Forall_forall. intros x Hx.
    apply (in_map ax_cell) in Hx. rewrite Hcells in Hx. apply in_map_iff in Hx. destruct Hx as (c & <- & Hc).
    apply filter_In in Hc. destruct Hc as [Hc _]. apply in_seq in Hc. nia.
Qed.
Print Assumptions C189_cells.

(** Three canvases, two per row, on a figure with one axis: cells 1, 2, 3 of a
    2x2 grid. *)
Example C189_example :
  match run (vis_init 3 2 None) [Append (Points [[1%Q]]) 0 "." None None; Append (Points [[1%Q]]) 1 "." None None;
                                 Append (Points [[1%Q]]) 2 "." None None] with
  | Ok v => match show v 1 with Ok (g, axs) => Ok (g, map ax_cell axs) | Raise e => Raise e end
  | Raise e => Raise e
  end = Ok ((2, 2), [1; 2; 3]).
Proof. reflexivity. Qed.
