(** C193 and C223: where the marks of clusters, objects and neurons are. *)
From Coq Require Import String.
From Verif Require Import Base Canvas_Model Multivis_Model Multivis_Props.
Open Scope nat_scope.

(** the point as it is drawn: on a line at height 0 *)
Definition shown_at (p : point) (color marker : string) : mark :=
  match p with [x] => Plot x 0 color marker None | [x; y] => Plot x y color marker None | [x; y; z] => Scatter x y z color marker None | _ => Plot 0 0 color marker None end.
(** the points of the clusters, in their order *)
Definition cluster_points (c : collection) : list (list point) :=
  match c with OfPoints cs => cs | OfIndexes cs data => map (map (fun i => nth i data [])) cs end.
(** points of d coordinates; the first cluster of points is not empty, indexes are those of the data *)
Definition well_given (d : nat) (c : collection) : Prop :=
  match c with
  | OfPoints cs => (exists p ps rest, cs = (p :: ps) :: rest) /\ forall l p, In l cs -> In p l -> length p = d
  | OfIndexes cs data => data <> [] /\ (forall p, In p data -> length p = d) /\ forall l i, In l cs -> In i l -> i < length data
  end.
Definition well_noise (d : nat) (x : content) : Prop :=
  match x with Points l => forall p, In p l -> length p = d | Indexes l data => (forall p, In p data -> length p = d) /\ forall i, In i l -> i < length data end.
Definition noise_points (x : content) : list point := match x with Points l => l | Indexes l data => map (fun i => nth i data []) l end.

Lemma item_at d color marker p : 1 <= d <= 3 -> length p = d -> plain_item d color marker (Ok p) = Ok [shown_at p color marker].
Proof. intros Hd L. destruct d as [|[|[|[|d]]]]; try lia; destruct p as [|x [|y [|z [|? ?]]]]; try discriminate L; reflexivity. Qed.
Lemma items_well d x : well_noise d x -> exists ps, items x = map Ok ps /\ ps = noise_points x /\ forall p, In p ps -> length p = d.
Proof.
  destruct x as [l|l data]; cbn [well_noise items noise_points]; intros H; [exists l; auto|]. destruct H as [H1 H2]. exists (map (fun i => nth i data []) l). split; [|split; [reflexivity|]].
  - rewrite map_map. apply map_ext_in. intros i Hi. rewrite (nth_error_nth' data [] (H2 i Hi)). reflexivity.
  - intros p Hp. apply in_map_iff in Hp as (i & <- & Hi). apply H1, nth_In, H2, Hi.
Qed.
Lemma all_at d color marker : 1 <= d <= 3 -> forall ps, (forall p, In p ps -> length p = d) -> draw_all (plain_item d color marker) (map Ok ps) = Ok (map (fun p => shown_at p color marker) ps).
Proof.
  intros Hd. induction ps as [|p ps IH]; intros H; cbn [map draw_all]; [reflexivity|]. rewrite (item_at d color marker p Hd (H p (or_introl eq_refl))). cbn [bind]. rewrite IH by (intros; apply H; right; auto). reflexivity.
Qed.
Lemma drawn_well d color marker x : 1 <= d <= 3 -> well_noise d x -> draw_all (plain_item d color marker) (items x) = Ok (map (fun p => shown_at p color marker) (noise_points x)).
Proof. intros Hd H. destruct (items_well d x H) as (ps & -> & -> & L). apply all_at; auto. Qed.
Lemma clusters_well d marker : 1 <= d <= 3 -> forall cs k, (forall x, In x cs -> well_noise d x) ->
  plain_clusters d k marker cs = Ok (concat (map (fun i => map (fun p => shown_at p (nth (k + i) COLORS EmptyString) marker) (noise_points (nth i cs (Points [])))) (seq 0 (length cs)))).
Proof.
  intros Hd. induction cs as [|x cs IH]; intros k H; cbn [plain_clusters]; [reflexivity|]. rewrite (drawn_well d _ marker x Hd (H x (or_introl eq_refl))). cbn [bind]. rewrite (IH (S k)) by (intros; apply H; right; auto). cbn [bind length seq map concat nth]. rewrite Nat.add_0_r. f_equal. f_equal.
  rewrite <- seq_shift, map_map. f_equal. apply map_ext. intros i. cbn [nth]. rewrite Nat.add_succ_r. reflexivity.
Qed.
(** C193.  At most 20 clusters of points of one, two or three coordinates, given as points or as indexes of the data,
    are all drawn: every point of cluster i once, at its place, in colour number i, and then the noise in white. *)
Theorem C193_points c noise marker own d : 1 <= d <= 3 -> well_given d c -> well_noise d noise -> length (cluster_points c) <= 20 ->
  draw_clusters c noise marker own =
  Ok (concat (map (fun i => map (fun p => shown_at p (nth i COLORS EmptyString) marker) (nth i (cluster_points c) [])) (seq 0 (length (cluster_points c)))) ++
      map (fun p => shown_at p "w" marker) (noise_points noise)).
Proof.
  intros Hd Hw Hn Hl. assert (Ed : collection_dimension c = Some d).
  { destruct c as [cs|cs data]; cbn [well_given] in Hw.
    - destruct Hw as [(p & ps & rest & ->) H]. cbn. f_equal. apply (H (p :: ps) p); left; reflexivity.
    - destruct Hw as (Hne & H & _). destruct data as [|p data]; [congruence|]. cbn. f_equal. apply H. left. reflexivity. }
  assert (Lc : length (contents c) = length (cluster_points c)) by (destruct c; cbn; rewrite !map_length; reflexivity).
  unfold draw_clusters. rewrite Ed. destruct (Nat.ltb_spec (length COLORS) (length (contents c))) as [B|_]; [rewrite Lc in B; change (length COLORS) with 20 in B; lia|].
  replace (own && negb ((d =? 1) || (d =? 2) || (d =? 3))) with false by (destruct d as [|[|[|[|d]]]]; try lia; destruct own; reflexivity).
  rewrite (clusters_well d marker Hd).
  - cbn [bind]. rewrite (drawn_well d _ marker noise Hd Hn). cbn [bind]. rewrite Lc. f_equal. f_equal. f_equal. apply map_ext_in. intros i Hi. apply in_seq in Hi. cbn [Nat.add]. f_equal.
    destruct c as [cs|cs data]; cbn [contents cluster_points] in *.
    + rewrite (map_nth Points cs [] i). reflexivity.
    + rewrite map_length in Hi. rewrite (nth_indep _ (Points []) ((fun l => Indexes l data) [])) by (rewrite map_length; lia). rewrite (map_nth (fun l => Indexes l data)). cbn [noise_points].
      rewrite (nth_indep _ [] (map (fun i0 => nth i0 data []) [])) by (rewrite map_length; lia). rewrite (map_nth (map (fun i0 => nth i0 data []))). reflexivity.
  - intros x Hx. destruct c as [cs|cs data]; cbn [contents] in Hx; apply in_map_iff in Hx as (l & <- & Hin); cbn [well_noise well_given] in *.
    + intros p Hp. destruct Hw as [_ H]. apply (H l p); auto.
    + destruct Hw as (_ & H & V). split; [exact H|]. intros i Hi. apply (V l i); auto.
Qed.
Print Assumptions C193_points.
Example C193_points_case : let data := [[1%Q; 1%Q]; [2%Q; 2%Q]; [3%Q; 3%Q]; [4%Q; 4%Q]] in let c := OfIndexes [[0]; [2; 1]] data in
  well_given 2 c /\ well_noise 2 (Indexes [3] data) /\ draw_clusters c (Indexes [3] data) "." true = Ok [Plot 1 1 "red" "." None; Plot 3 3 "blue" "." None; Plot 2 2 "blue" "." None; Plot 4 4 "w" "." None].
Proof.
  cbv zeta. split; [|split; [|reflexivity]].
  - split; [discriminate|]. split; [intros p [<-|[<-|[<-|[<-|[]]]]]; reflexivity|]. intros l i [<-|[<-|[]]] Hi; simpl in Hi; simpl; intuition lia.
  - split; [intros p [<-|[<-|[<-|[<-|[]]]]]; reflexivity|]. intros i [<-|[]]. simpl. lia.
Qed.
