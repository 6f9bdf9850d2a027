(** Properties of the multi-dimensional visualizer and of draw_clusters
    (C190-C193). *)
From Coq Require Import String.
From Verif Require Import Base Canvas_Model Canvas_Proofs Canvas_Props Multivis_Model.
Open Scope nat_scope.

(** * Specification *)

(** The mark of a point on the axis of two coordinates (None: the only
    coordinate, on a line). *)
Definition md_mark (which : option (nat * nat)) (la : layer) (p : point) : mark :=
  match which with
  | Some (i, j) => Plot (coord p i) (coord p j) (la_color la) (la_marker la) (la_size la)
  | None => Plot (coord p 0) 0 (la_color la) (la_marker la) (la_size la)
  end.

(** All points of all clusters on that axis. *)
Definition md_picture (v : list layer) (which : option (nat * nat)) : list mark :=
  flat_map (fun la => map (md_mark which la) (points_of (la_content la))) v.

(** * Proofs *)

Lemma combinations2_in d i j : In (i, j) (combinations2 d) <-> i < j < d.
Proof.
  unfold combinations2. rewrite in_flat_map. split.
  - intros (k & Hk & H). apply in_map_iff in H. destruct H as (q & E & Hq). injection E as -> ->.
    apply in_seq in Hk, Hq. lia.
  - intro H. exists i. split; [apply in_seq; lia|]. apply in_map. apply in_seq. lia.
Qed.

Lemma NoDup_app' {A} (a b : list A) : NoDup a -> NoDup b -> (forall x, In x a -> ~ In x b) -> NoDup (a ++ b).
Proof.
  intros Ha Hb H. induction Ha as [|x a Hx Ha IH]; [exact Hb|]. cbn. constructor.
  - rewrite in_app_iff. intros [E|E]; [auto|]. apply (H x); [now left|exact E].
  - apply IH. intros y Hy. apply H. now right.
Qed.

Lemma combinations2_NoDup d : NoDup (combinations2 d).
Proof.
  unfold combinations2.
  assert (forall l, NoDup l -> NoDup (flat_map (fun i => map (pair i) (seq (S i) (d - S i))) l)) as H.
  2:{ apply H, seq_NoDup. }
  induction 1 as [|i l Hi Hl IH]; cbn [flat_map]; [constructor|].
  apply NoDup_app'; [|exact IH|].
  - apply FinFun.Injective_map_NoDup; [intros a b E; now injection E|apply seq_NoDup].
  - intros [a b] H1 H2. apply in_map_iff in H1. destruct H1 as (q & E & _). injection E as <- _.
    apply in_flat_map in H2. destruct H2 as (k & Hk & H2). apply in_map_iff in H2. destruct H2 as (q' & E & _).
    injection E as -> _. contradiction.
Qed.

Lemma combinations2_length d : 2 * length (combinations2 d) = d * (d - 1).
Proof.
  unfold combinations2.
  assert (H : forall n s, s + n = d ->
    2 * length (flat_map (fun i => map (pair i) (seq (S i) (d - S i))) (seq s n)) = n * (n - 1)).
  { induction n as [|n IH]; intros s Hs; [reflexivity|].
    cbn [seq flat_map]. rewrite app_length, map_length, seq_length.
    pose proof (IH (S s) ltac:(lia)) as E. destruct n as [|n]; nia. }
  apply (H d 0). lia.
Qed.

Lemma fetch_coord p k : k < length p -> fetch p k = Ok (coord p k).
Proof. intro H. unfold fetch, coord. now rewrite (nth_error_lt p k 0%Q H). Qed.

Lemma md_item_ok which la r p ms :
  (forall q, r = Ok q -> q = p) -> md_item which la r = Ok ms -> ms = [md_mark which la p].
Proof.
  intros Hr H. unfold md_item in H. destruct r as [q|]; cbn [bind] in H; [|discriminate].
  rewrite <- (Hr q eq_refl). destruct which as [[i j]|].
  - destruct (fetch q i) eqn:E0; cbn [bind] in H; [|discriminate].
    destruct (fetch q j) eqn:E1; cbn [bind] in H; [|discriminate].
    injection H as <-. cbn. now rewrite (fetch_ok _ _ _ E0), (fetch_ok _ _ _ E1).
  - destruct (fetch q 0) eqn:E0; cbn [bind] in H; [|discriminate].
    injection H as <-. cbn. now rewrite (fetch_ok _ _ _ E0).
Qed.

Lemma draw_items_ok (f : res point -> res (list mark)) (g : point -> mark) c ms :
  (forall r p m, (forall q, r = Ok q -> q = p) -> f r = Ok m -> m = [g p]) ->
  draw_all f (items c) = Ok ms -> ms = map g (points_of c).
Proof.
  intros Hf H. destruct c as [l|l data]; cbn [items points_of] in *.
  - rewrite draw_all_map in H. rewrite <- flat_map_single.
    refine (draw_all_ok _ _ _ _ _ H). intros p m _ Hm. eapply Hf; [|exact Hm]. intros q Hq. now injection Hq.
  - rewrite draw_all_map in H. rewrite map_map, <- flat_map_single.
    refine (draw_all_ok _ _ _ _ _ H). intros i m _ Hm. eapply Hf; [|exact Hm].
    intros q Hq. destruct (nth_error data i) eqn:E; [|discriminate]. injection Hq as <-. symmetry. now apply nth_error_nth.
Qed.

Lemma md_cluster_ok la storage out :
  md_cluster la storage = Ok out ->
  out = map (fun s => (fst s, snd s ++ map (md_mark (fst s) la) (points_of (la_content la)))) storage.
Proof.
  revert out. induction storage as [|[w ms] rest IH]; intros out H; cbn [md_cluster] in H.
  - now injection H as <-.
  - destruct (draw_all (md_item w la) (items (la_content la))) as [more|] eqn:E; cbn [bind] in H; [|discriminate].
    destruct (md_cluster la rest) as [others|]; cbn [bind] in H; [|discriminate].
    injection H as <-. cbn [map fst snd]. rewrite <- (IH others eq_refl). do 3 f_equal.
    eapply draw_items_ok; [|exact E]. intros r p m Hr Hm. eapply md_item_ok; eauto.
Qed.

Lemma md_clusters_ok v : forall storage out,
  md_clusters v storage = Ok out -> out = map (fun s => (fst s, snd s ++ md_picture v (fst s))) storage.
Proof.
  induction v as [|la v IH]; intros storage out H; cbn [md_clusters] in H.
  - injection H as <-. symmetry. transitivity (map (fun s => s) storage); [|apply map_id].
    apply map_ext. intros [w ms]. cbn. now rewrite app_nil_r.
  - destruct (md_cluster la storage) as [s|] eqn:E; cbn [bind] in H; [|discriminate].
    apply IH in H. apply md_cluster_ok in E. subst s. rewrite map_map in H. subst out.
    apply map_ext. intros [w ms]. cbn [fst snd]. unfold md_picture. cbn [flat_map]. now rewrite app_assoc.
Qed.

Lemma md_show_ok v pf max_row grid axs :
  md_show v pf max_row = Ok (grid, axs) ->
  exists first rest d, v = first :: rest /\ dimension_of (la_content first) = Some d /\
    axs = map (fun w => (w, md_picture v w)) (if 1 <? d then map Some (create_pairs d pf) else [None]) /\
    grid_spec (length axs) max_row = Ok grid.
Proof.
  intro H. unfold md_show in H. destruct v as [|first rest]; [discriminate|].
  destruct (dimension_of (la_content first)) as [d|] eqn:Ed; [|discriminate].
  set (which := if 1 <? d then map Some (create_pairs d pf) else [None]) in *.
  destruct (grid_spec (length which) max_row) as [g|] eqn:Eg; cbn [bind] in H; [|discriminate].
  destruct (md_clusters (first :: rest) (map (fun w => (w, [])) which)) as [a|] eqn:Ea; cbn [bind] in H; [|discriminate].
  injection H as <- <-. exists first, rest, d. apply md_clusters_ok in Ea. rewrite map_map in Ea. cbn [fst snd app] in Ea.
  repeat split; auto. rewrite Ea, map_length. exact Eg.
Qed.

(** ** C190: every pair of coordinates once *)

(** Without a filter there is exactly one axis for every two coordinates i < j,
    and it shows every point of every cluster at (x_i, x_j) in the colour of its
    cluster. *)
Theorem C190_all_pairs (v : list layer) (max_row : nat) (pf : option (list (nat * nat))) grid axs (d : nat) first rest :
  v = first :: rest -> dimension_of (la_content first) = Some d -> 2 <= d ->
  pf = None \/ pf = Some [] -> md_show v pf max_row = Ok (grid, axs) ->
  2 * length axs = d * (d - 1) /\
  NoDup (map fst axs) /\
  (forall w ms, In (w, ms) axs <-> exists i j, i < j < d /\ w = Some (i, j) /\ ms = md_picture v (Some (i, j))).
Proof.
  intros Hv Hd Hd2 Hpf H. apply md_show_ok in H.
  destruct H as (f' & r' & d' & Hv' & Hd' & -> & _). rewrite Hv in Hv'. injection Hv' as <- <-.
  rewrite Hd in Hd'. injection Hd' as <-.
  destruct (Nat.ltb_spec 1 d); [|lia].
  assert (Hp : create_pairs d pf = combinations2 d) by (destruct Hpf as [-> | ->]; reflexivity). rewrite Hp.
  split; [|split].
  - rewrite !map_length. apply combinations2_length.
  - rewrite map_map. cbn [fst]. rewrite map_id. apply FinFun.Injective_map_NoDup; [intros a b E; now injection E|].
    apply combinations2_NoDup.
  - intros w ms. rewrite map_map, in_map_iff. split.
    + intros ([i j] & E & Hin). injection E as <- <-. apply combinations2_in in Hin. eauto 6.
    + intros (i & j & Hij & -> & ->). exists (i, j). split; [reflexivity|]. now apply combinations2_in.
Qed.
Print Assumptions C190_all_pairs.

(** With a filter the axes are the pairs of the filter, in its order. *)
Theorem C190_filter (v : list layer) (max_row : nat) (pf : list (nat * nat)) grid axs (d : nat) first rest :
  v = first :: rest -> dimension_of (la_content first) = Some d -> 2 <= d -> pf <> [] ->
  md_show v (Some pf) max_row = Ok (grid, axs) ->
  axs = map (fun w => (Some w, md_picture v (Some w))) pf.
Proof.
  intros Hv Hd Hd2 Hpf H. apply md_show_ok in H.
  destruct H as (f' & r' & d' & Hv' & Hd' & -> & _). rewrite Hv in Hv'. injection Hv' as <- <-.
  rewrite Hd in Hd'. injection Hd' as <-.
  destruct (Nat.ltb_spec 1 d); [|lia].
  assert (Hp : create_pairs d (Some pf) = pf) by (destruct pf; [contradiction|reflexivity]). rewrite Hp.
  now rewrite map_map.
Qed.
Print Assumptions C190_filter.

(** One-dimensional data are drawn on a line, whatever the filter. *)
Theorem C190_line (v : list layer) (max_row : nat) pf grid axs first rest :
  v = first :: rest -> dimension_of (la_content first) = Some 1 ->
  md_show v pf max_row = Ok (grid, axs) -> axs = [(None, md_picture v None)].
Proof.
  intros Hv Hd H. apply md_show_ok in H.
  destruct H as (f' & r' & d' & Hv' & Hd' & -> & _). rewrite Hv in Hv'. injection Hv' as <- <-.
  rewrite Hd in Hd'. injection Hd' as <-. reflexivity.
Qed.
Print Assumptions C190_line.

Lemma md_items_succeed which la c k :
  (match which with Some (i, j) => i < k /\ j < k | None => 0 < k end) -> fits k c ->
  exists ms, draw_all (md_item which la) (items c) = Ok ms.
Proof.
  intros Hw Hf. destruct c as [l|l data]; cbn [items fits] in *; rewrite draw_all_map; apply draw_all_succeeds;
    rewrite Forall_forall in Hf.
  - intros p Hp. specialize (Hf p Hp). unfold md_item. cbn [bind]. destruct which as [[i j]|];
      [rewrite !fetch_coord by lia|rewrite fetch_coord by lia]; cbn; eauto.
  - intros i Hi. destruct (Hf i Hi) as [H1 H2]. rewrite (nth_error_lt data i [] H1). unfold md_item. cbn [bind].
    destruct which as [[a b]|]; [rewrite !fetch_coord by lia|rewrite fetch_coord by lia]; cbn; eauto.
Qed.

(** It does show: with clusters whose points all have the d coordinates of the
    first one, at least one axis per row and a filter inside the dimensions. *)
Theorem C190_shows (v : list layer) (max_row : nat) (pf : option (list (nat * nat))) (d : nat) first rest :
  v = first :: rest -> dimension_of (la_content first) = Some d -> 1 <= d -> 0 < max_row ->
  Forall (fun la => fits d (la_content la)) v ->
  (forall l i j, pf = Some l -> In (i, j) l -> i < d /\ j < d) ->
  exists picture, md_show v pf max_row = Ok picture.
Proof.
  intros Hv Hd Hd1 Hm Hf Hpf. unfold md_show. rewrite Hv, Hd, <- Hv.
  set (which := if 1 <? d then map Some (create_pairs d pf) else [None]).
  assert (Hw : forall w, In w which -> match w with Some (i, j) => i < d /\ j < d | None => 0 < d end).
  { intros w Hw. unfold which in Hw. destruct (1 <? d).
    - apply in_map_iff in Hw. destruct Hw as ([i j] & <- & Hw). unfold create_pairs in Hw.
      destruct pf as [[|p l]|].
      + apply combinations2_in in Hw. lia.
      + apply (Hpf _ _ _ eq_refl Hw).
      + apply combinations2_in in Hw. lia.
    - destruct Hw as [<-|[]]. lia. }
  assert (Hlen : length which <> 0).
  { unfold which. destruct (Nat.ltb_spec 1 d); [|discriminate]. rewrite map_length. unfold create_pairs.
    destruct pf as [[|p l]|]; cbn [length]; try lia; pose proof (combinations2_length d); nia. }
  assert (Hg : exists g, grid_spec (length which) max_row = Ok g).
  { unfold grid_spec. destruct (Nat.ltb_spec max_row (length which)).
    - destruct (Nat.eqb_spec max_row 0); [lia|]. eauto.
    - destruct (Nat.eqb_spec (length which) 0); [lia|]. eauto. }
  destruct Hg as [g ->]. cbn [bind].
  assert (Hs : forall (l : list layer) storage, Forall (fun la => fits d (la_content la)) l ->
     (forall s, In s storage -> In (fst s) which) -> exists out, md_clusters l storage = Ok out).
  { induction l as [|la l IH]; intros storage Hl Hst; cbn [md_clusters]; [eauto|].
    inversion_clear Hl as [|? ? Hla Hl'].
    assert (Hc : exists out, md_cluster la storage = Ok out).
    { clear IH. induction storage as [|[w ms] st IHs]; cbn [md_cluster]; [eauto|].
      destruct (md_items_succeed w la (la_content la) d (Hw w (Hst (w, ms) (or_introl eq_refl))) Hla) as [m ->]. cbn [bind].
      destruct IHs as [o ->]; [intros s Hs; apply Hst; now right|]. cbn. eauto. }
    destruct Hc as [out Hout]. rewrite Hout. cbn [bind]. apply IH; [exact Hl'|].
    apply md_cluster_ok in Hout. subst out. intros s Hs. apply in_map_iff in Hs. destruct Hs as (s0 & <- & Hs0). cbn. auto. }
  destruct (Hs v (map (fun w => (w, [])) which) Hf) as [out ->].
  { intros s Hin. apply in_map_iff in Hin. destruct Hin as (w & <- & Hw'). exact Hw'. }
  cbn. eauto.
Qed.
Print Assumptions C190_shows.

Example C190_example :
  match md_append [] (Points [[1%Q; 2%Q; 3%Q]]) "." None None with
  | (v, Ok _) => md_show v None 2
  | _ => Raise TypeError
  end = Ok ((2, 2), [(Some (0, 1), [Plot 1 2 "red" "." (Some 5%Q)]); (Some (0, 2), [Plot 1 3 "red" "." (Some 5%Q)]);
                     (Some (1, 2), [Plot 2 3 "red" "." (Some 5%Q)])]).
Proof. reflexivity. Qed.

(** ** C191: the grid of the multi-dimensional visualizer *)

(** The grid has a cell for every axis, no empty row, and no row longer than
    max_row. *)
Theorem C191_grid (v : list layer) pf (max_row : nat) rows cols axs :
  md_show v pf max_row = Ok ((rows, cols), axs) ->
  0 < cols <= max_row /\ length axs <= rows * cols /\ rows * cols < length axs + cols.
Proof.
  intro H. apply md_show_ok in H. destruct H as (_ & _ & _ & _ & _ & _ & H). revert H. generalize (length axs) as n.
  intros n H. unfold grid_spec in H. set (row := if max_row <? n then max_row else n) in *.
  destruct (Nat.eqb_spec row 0) as [|Hrow]; [discriminate|]. injection H as <- <-.
  assert (Hr : row <= max_row) by (unfold row; destruct (Nat.ltb_spec max_row n); lia).
  pose proof (Nat.div_mod (n + (row - 1)) row Hrow) as E.
  pose proof (Nat.mod_upper_bound (n + (row - 1)) row Hrow) as E2.
  set (q := (n + (row - 1)) / row) in *. repeat split; try lia; nia.
Qed.
Print Assumptions C191_grid.

(** ** C192: colours of the multi-dimensional visualizer, refusals *)

(** The k-th accepted cluster gets the colour given or the k-th default; an
    empty cluster is refused with ValueError and changes nothing. *)
Theorem C192_append (v : list layer) (c : content) (marker : string) (size : option Q) (color : option string) :
  (lists_nothing c -> md_append v c marker size color = (v, Raise ValueError)) /\
  (~ lists_nothing c -> exists la, md_append v c marker size color = (v ++ [la], Ok tt) /\
     la_content la = c /\ la_marker la = marker /\
     la_color la = match color with Some x => x | None => get_color (length v) end /\
     exists q, la_size la = Some q /\ (match size with Some s => (~ (s == 0)%Q -> q = s) /\ ((s == 0)%Q -> q = 5%Q) | None => q = 5%Q end)).
Proof.
  unfold md_append. rewrite <- amount_zero. split; intro H.
  - apply Nat.eqb_eq in H. now rewrite H.
  - apply Nat.eqb_neq in H. rewrite H. eexists. split; [reflexivity|]. cbn.
    repeat split; try (destruct color; reflexivity).
    eexists. split; [reflexivity|]. destruct size as [s|]; [|reflexivity].
    split; intro Hs; destruct (Qeq_bool s 0) eqn:E; try reflexivity; [apply Qeq_bool_iff in E; contradiction|].
    apply Qeq_bool_neq in E. contradiction.
Qed.
Print Assumptions C192_append.

(** append_clusters adds all clusters in order, each with the next colour, or
    stops at the first empty one and keeps those before it. *)
Theorem C192_append_all (cs : list content) (marker : string) (size : option Q) : forall v,
  exists k las, md_append_all v cs marker size = (v ++ las, if k =? length cs then Ok tt else Raise ValueError) /\
    k <= length cs /\ map la_content las = firstn k cs /\ Forall (fun c => ~ lists_nothing c) (firstn k cs) /\
    (k < length cs -> exists c, nth_error cs k = Some c /\ lists_nothing c) /\
    Forall (fun la => la_marker la = marker) las /\
    map la_color las = map (fun i => get_color (length v + i)) (seq 0 k).
Proof.
  induction cs as [|c cs IH]; intro v; cbn [md_append_all].
  - exists 0, []. rewrite app_nil_r. cbn. split; [reflexivity|]. repeat split; auto. lia.
  - destruct (C192_append v c marker size None) as [A B]. destruct (Nat.eq_dec (amount c) 0) as [E|E]; rewrite amount_zero in E.
    + rewrite (A E). exists 0, []. rewrite app_nil_r. cbn. split; [reflexivity|]. repeat split; auto; try lia. intros _. exists c. auto.
    + destruct (B E) as (la & Ea & L1 & L2 & L3 & _). rewrite Ea. destruct (IH (v ++ [la])) as (k & las & E1 & K1 & K2 & K3 & K4 & K5 & K6).
      exists (S k), (la :: las). rewrite E1. cbn [length Nat.eqb firstn map seq]. rewrite <- app_assoc. split; [reflexivity|]. split; [lia|].
      split; [now rewrite L1, K2|]. split; [constructor; auto|]. split; [intro Hk; apply K4; lia|]. split; [constructor; auto|].
      rewrite L3, K6, Nat.add_0_r. f_equal. rewrite <- seq_shift, map_map. apply map_ext. intro i. f_equal. rewrite app_length. cbn. lia.
Qed.
Print Assumptions C192_append_all.

(** Showing nothing is refused. *)
Theorem C192_nothing pf max_row : md_show [] pf max_row = Raise ValueError.
Proof. reflexivity. Qed.
Print Assumptions C192_nothing.

(** A cluster of another dimension is accepted and show fails later. *)
Theorem C192_dimension_refuted :
  exists v v' c, md_append [] (Points [[1%Q; 2%Q; 3%Q]]) "." None None = (v, Ok tt) /\
    (exists picture, md_show v None 4 = Ok picture) /\
    md_append v c "." None None = (v', Ok tt) /\ md_show v' None 4 = Raise IndexError.
Proof.
  eexists. eexists. exists (Points [[1%Q; 2%Q]]). split; [reflexivity|]. split; [eexists; reflexivity|]. split; reflexivity.
Qed.
Print Assumptions C192_dimension_refuted.

(** ** C193: draw_clusters *)

(** The marks of draw_clusters. *)
Definition plain_mark (d : nat) (color marker : string) (p : point) : mark := mark_of d color marker None p.

Lemma plain_clusters_ok d marker cs : 1 <= d <= 3 -> forall k ms,
  plain_clusters d k marker cs = Ok ms ->
  ms = flat_map (fun i => map (plain_mark d (nth (k + i) COLORS EmptyString) marker) (points_of (nth i cs (Points []))))
         (seq 0 (length cs)).
Proof.
  intro Hd. induction cs as [|c cs IH]; intros k ms H; cbn [plain_clusters] in H.
  - now injection H as <-.
  - destruct (draw_all (plain_item d (nth k COLORS EmptyString) marker) (items c)) as [m|] eqn:E; cbn [bind] in H; [|discriminate].
    destruct (plain_clusters d (S k) marker cs) as [more|] eqn:E2; cbn [bind] in H; [|discriminate].
    injection H as <-. cbn [length seq flat_map nth]. rewrite Nat.add_0_r. f_equal.
    + eapply draw_items_ok; [|exact E]. intros r p x Hr Hx. unfold plain_item in Hx.
      eapply draw_item_ok in Hx; [exact Hx|exact Hd|exact Hr].
    + rewrite (IH _ _ E2), <- seq_shift, flat_map_map. apply flat_map_ext'. intros i _. now rewrite Nat.add_succ_r.
Qed.

(** Every point of cluster i is drawn in colour i, then the noise in white. *)
Theorem C193_drawn (c : collection) (noise : content) (marker : string) (own : bool) (d : nat) ms :
  collection_dimension c = Some d -> 1 <= d <= 3 -> draw_clusters c noise marker own = Ok ms ->
  length (contents c) <= 20 /\
  ms = flat_map (fun i => map (plain_mark d (nth i COLORS EmptyString) marker) (points_of (nth i (contents c) (Points []))))
         (seq 0 (length (contents c))) ++ map (plain_mark d "w" marker) (points_of noise).
Proof.
  intros Hd Hd3 H. unfold draw_clusters in H. rewrite Hd in H.
  destruct (Nat.ltb_spec (length COLORS) (length (contents c))) as [|Hl]; [discriminate|].
  destruct (own && negb ((d =? 1) || (d =? 2) || (d =? 3))); [discriminate|].
  destruct (plain_clusters d 0 marker (contents c)) as [m|] eqn:E; cbn [bind] in H; [|discriminate].
  destruct (draw_all (plain_item d "w" marker) (items noise)) as [ns|] eqn:E2; cbn [bind] in H; [|discriminate].
  injection H as <-. split; [exact Hl|]. f_equal.
  - apply plain_clusters_ok in E; [exact E|exact Hd3].
  - eapply draw_items_ok; [|exact E2]. intros r p x Hr Hx. unfold plain_item in Hx.
    eapply draw_item_ok in Hx; [exact Hx|exact Hd3|exact Hr].
Qed.
Print Assumptions C193_drawn.

(** Different clusters have different colours, and none is white. *)
Theorem C193_colours (i j : nat) :
  i < 20 -> j < 20 -> i <> j ->
  nth i COLORS EmptyString <> nth j COLORS EmptyString /\ nth i COLORS EmptyString <> "w"%string /\
  nth i COLORS EmptyString <> "white"%string.
Proof.
  intros Hi Hj Hij.
  assert (Hn : NoDup ("w" :: "white" :: COLORS)%string).
  { unfold COLORS. repeat (constructor; [cbn; intro H; repeat (destruct H as [H|H]; [discriminate|]); exact H|]). constructor. }
  pose proof (proj1 (NoDup_nth _ EmptyString) Hn) as U.
  split; [|split]; intro E.
  - assert (2 + i = 2 + j); [|lia]. apply U; cbn [length COLORS]; try lia. exact E.
  - assert (2 + i = 0); [|lia]. apply U; cbn [length COLORS]; try lia. exact E.
  - assert (2 + i = 1); [|lia]. apply U; cbn [length COLORS]; try lia. exact E.
Qed.
Print Assumptions C193_colours.

(** More than 20 clusters are refused; so are dimensions other than 1, 2, 3 -
    unless axes are given: then nothing is drawn. *)
Theorem C193_refused (c : collection) (noise : content) (marker : string) (own : bool) (d : nat) :
  collection_dimension c = Some d ->
  (20 < length (contents c) -> draw_clusters c noise marker own = Raise NameError) /\
  (length (contents c) <= 20 -> d = 0 \/ 3 < d ->
     draw_clusters c noise marker own = if own then Raise NameError else Ok []).
Proof.
  intro Hd. unfold draw_clusters. rewrite Hd. change (length COLORS) with 20. split; intro H.
  - destruct (Nat.ltb_spec 20 (length (contents c))); [reflexivity|lia].
  - intro Hd3. destruct (Nat.ltb_spec 20 (length (contents c))); [lia|].
    assert (E : (d =? 1) || (d =? 2) || (d =? 3) = false).
    { destruct (Nat.eqb_spec d 1); [lia|]. destruct (Nat.eqb_spec d 2); [lia|]. destruct (Nat.eqb_spec d 3); [lia|reflexivity]. }
    rewrite E. destruct own; [reflexivity|]. cbn [andb negb].
    assert (Hi : forall col r, plain_item d col marker r = Ok []).
    { intros col r. unfold plain_item, draw_item. destruct d as [|[|[|[|d']]]]; try lia; reflexivity. }
    assert (Ha : forall col l, draw_all (plain_item d col marker) l = Ok []).
    { intros col l. induction l as [|r l IH]; cbn [draw_all]; [reflexivity|]. rewrite Hi. cbn [bind]. rewrite IH. reflexivity. }
    assert (Hc : forall cs k, plain_clusters d k marker cs = Ok []).
    { induction cs as [|x cs IH]; intro k; cbn [plain_clusters]; [reflexivity|]. rewrite Ha. cbn [bind]. now rewrite IH. }
    rewrite Hc. cbn [bind]. now rewrite Ha.
Qed.
Print Assumptions C193_refused.

Example C193_example :
  draw_clusters (OfIndexes [[0]; [2; 1]] [[1%Q; 1%Q]; [2%Q; 2%Q]; [3%Q; 3%Q]; [4%Q; 4%Q]])
    (Indexes [3] [[1%Q; 1%Q]; [2%Q; 2%Q]; [3%Q; 3%Q]; [4%Q; 4%Q]]) "." true =
  Ok [Plot 1 1 "red" "." None; Plot 3 3 "blue" "." None; Plot 2 2 "blue" "." None; Plot 4 4 "w" "." None].
Proof. reflexivity. Qed.
