(** Theorems about image segmentation (nnet/syncsegm.py): C171 - C173. *)
From Verif Require Import Base Ensembles_Model Ensembles_Proofs Segm_Model.

(** * Specification *)

(** A simulation records at least one state, and every state has a phase for
    every oscillator. *)
Definition records {A : Type} (process : list A -> list (list Q)) : Prop :=
  forall l, process l <> [] /\ forall st, In st (process l) -> length st = length l.

(** The pixel in the column [x] of the row [y] of an image, rows one after
    another. *)
Definition pixel_at (width : nat) (xy : nat * nat) : nat := snd xy * width + fst xy.

Lemma records_last {A} (process : list A -> list (list Q)) (l : list A) n :
  records process -> length l = S n ->
  exists st, nth_error (process l) (length (process l) - 1) = Some st /\
             (forall s, In s (process l) -> length s = S n).
Proof.
  intros H Hl. destruct (H l) as [Hne Hs].
  destruct (nth_error (process l) (length (process l) - 1)) as [st|] eqn:E.
  - exists st. split; [reflexivity|]. intros s Hin. rewrite <- Hl. now apply Hs.
  - exfalso. apply nth_error_None in E. destruct (process l); [congruence | simpl in E; lia].
Qed.

Lemma NoDup_concat_filter (f : list nat -> bool) (gs : list (list nat)) :
  NoDup (concat gs) -> NoDup (concat (filter f gs)).
Proof.
  induction gs as [|g gs IH]; simpl; intro H; [constructor|].
  apply NoDup_app_inv in H. destruct H as (H1 & H2 & H3). specialize (IH H2).
  destruct (f g); [|exact IH]. simpl. apply NoDup_app_intro; auto.
  intros x Hx Hc. apply (H3 x Hx). apply in_concat in Hc. destruct Hc as (c & Hc1 & Hc2).
  apply filter_In in Hc1. apply in_concat. exists c. tauto.
Qed.

(** * C171: colour segments *)

(** Every pixel is in exactly one colour of the first layer; the reported
    segments are those with more than [noise_size] pixels; no pixel is
    reported twice, and nothing is lost if [noise_size] is 0. *)
Theorem C171_colors period color_process object_process width noise objects data eps noise_size :
  records color_process -> data <> [] ->
  exists a all reported,
    segm_process period color_process object_process width noise objects data = Ok a /\
    allocate_colors period a eps noise_size = Ok reported /\
    partitions (length data) all /\ no_empty all /\
    (forall s, In s reported <-> In s all /\ noise_size < length s) /\
    NoDup (concat reported) /\
    (noise_size = 0 -> partitions (length data) reported).
Proof.
  intros Hr Hd. destruct data as [|p data]; [congruence|]. clear Hd.
  assert (Hl : length (p :: data) = S (length data)) by reflexivity.
  destruct (records_last color_process (p :: data) (length data) Hr Hl) as (st & Est & Hst).
  assert (Ha : exists a, segm_process period color_process object_process width noise objects (p :: data) = Ok a /\
                         an_color a = color_process (p :: data)).
  { unfold segm_process. destruct objects; [|eexists; split; reflexivity].
    destruct (sync_ensembles_spec period (1 # 100) (color_process (p :: data)) None st (length data) Est Hst) as (cl & E & _).
    rewrite E. cbn [bind]. eexists; split; reflexivity. }
  destruct Ha as (a & Ea & Ec).
  destruct (sync_ensembles_spec period eps (color_process (p :: data)) None st (length data) Est Hst) as (cl & E & P & Hne & _).
  exists a, cl, (filter (fun c => noise_size <? length c) cl).
  split; [exact Ea|]. split; [unfold allocate_colors; rewrite Ec, E; reflexivity|].
  split; [exact P|]. split; [exact Hne|]. split; [|split].
  - intro s. rewrite filter_In, Nat.ltb_lt. reflexivity.
  - apply NoDup_concat_filter. eapply Permutation_NoDup; [symmetry; exact P | apply seq_NoDup].
  - intros ->. replace (filter (fun c => 0 <? length c) cl) with cl; [exact P|].
    clear - Hne. induction Hne as [|g cl Hg _ IH]; [reflexivity|]. simpl.
    destruct g as [|x g]; [congruence|]. simpl. now rewrite <- IH.
Qed.
Print Assumptions C171_colors.

(** * C172: coordinates of the pixels of a segment *)

(** The second layer sees every pixel of the segment at its own place in the
    image. *)
Theorem C172_coordinates (width height : nat) (segment : list nat) :
  (forall i, In i segment -> i < height * width) -> NoDup segment ->
  length (extract_location_coordinates width segment) = length segment /\
  map (pixel_at width) (extract_location_coordinates width segment) = segment /\
  NoDup (extract_location_coordinates width segment) /\
  Forall (fun xy => fst xy < width /\ snd xy < height) (extract_location_coordinates width segment).
Proof.
  intros Hin Hnd.
  assert (Hmap : map (pixel_at width) (extract_location_coordinates width segment) = segment).
  { unfold extract_location_coordinates. rewrite map_map. rewrite <- (map_id segment) at 2. apply map_ext_in. intros i Hi. unfold pixel_at. cbn [fst snd].
    assert (Hw : width <> 0) by (intro; subst; specialize (Hin i Hi); lia).
    assert (Hdm := Nat.mul_div_le i width Hw). lia. }
  split; [apply map_length|]. split; [exact Hmap|]. split.
  - apply (NoDup_map_inv (pixel_at width)). rewrite Hmap. exact Hnd.
  - apply Forall_forall. intros xy Hxy. unfold extract_location_coordinates in Hxy. apply in_map_iff in Hxy. destruct Hxy as (i & <- & Hi). cbn [fst snd].
    specialize (Hin i Hi). assert (Hw : width <> 0) by (intro; subst; lia).
    assert (Hdm := Nat.div_mod i width Hw). assert (Hmod := Nat.mod_upper_bound i width Hw).
    split; [lia|]. apply Nat.div_lt_upper_bound; lia.
Qed.
Print Assumptions C172_coordinates.

Example C172_case :
  extract_location_coordinates 3 [0; 4; 5] = [(0, 0); (1, 1); (2, 1)] /\
  (forall i, In i [0; 4; 5] -> i < 2 * 3) /\ NoDup [0; 4; 5].
Proof.
  split; [reflexivity|]. split; [simpl; intuition lia|].
  repeat constructor; simpl; intuition discriminate.
Qed.

(** * C173: objects *)

(** Python's value of [2 * pi]. *)
Definition two_pi : Q := (2 * (314159265359 # 100000000000))%Q.

Definition C173_color (data : list point) : list (list Q) :=
  [map (fun i => if Nat.even i then 1%Q else 2%Q) (seq 0 (length data))].
Definition C173_object (c : list (nat * nat)) : list (list Q) := [repeat 1%Q (length c)].

Lemma C173_records : records C173_color /\ records C173_object.
Proof.
  split; intro l; (split; [discriminate|]); intros st [<-|[]].
  - now rewrite map_length, seq_length.
  - now rewrite repeat_length.
Qed.

(** A picture of two by two pixels in two colours: an object of pixels of
    different colours is reported, and a pixel is lost. *)
Theorem C173_objects_refuted :
  exists color_process object_process width noise data a colors objects,
    records color_process /\ records object_process /\
    segm_process two_pi color_process object_process width noise true data = Ok a /\
    allocate_colors two_pi a (1 # 100) 0 = Ok colors /\
    allocate_objects two_pi a (1 # 100) 0 = Ok objects /\
    noise = 0 /\ partitions (length data) colors /\
    (exists o, In o objects /\ ~ exists c, In c colors /\ incl o c) /\
    (exists i, i < length data /\ ~ In i (concat objects)).
Proof.
  exists C173_color, C173_object, 2, 0, [[0]; [9]; [0]; [9]]%Q.
  eexists. exists [[0; 2]; [1; 3]], [[0; 2]; [0; 3]].
  split; [apply C173_records|]. split; [apply C173_records|].
  split; [vm_compute; reflexivity|]. split; [vm_compute; reflexivity|]. split; [vm_compute; reflexivity|].
  split; [reflexivity|]. split.
  { unfold partitions. simpl. constructor. apply perm_swap. }
  split.
  - exists [0; 3]. split; [simpl; auto|]. intros (c & Hc & Hi). simpl in Hc.
    destruct Hc as [<-|[<-|[]]]; [specialize (Hi 3)|specialize (Hi 0)]; simpl in Hi; intuition discriminate.
  - exists 1. split; [simpl; lia|]. simpl. intuition discriminate.
Qed.
Print Assumptions C173_objects_refuted.

(** A picture whose second colour is the last three pixels of six: the objects
    cannot be extracted at all. *)
Theorem C173_objects_fail_refuted :
  exists color_process object_process width noise data a,
    records color_process /\ records object_process /\
    segm_process two_pi color_process object_process width noise true data = Ok a /\
    allocate_objects two_pi a (1 # 100) 0 = Raise IndexError.
Proof.
  exists (fun data : list point => [map (fun i => if i <? 3 then 1%Q else 2%Q) (seq 0 (length data))]),
    (fun c : list (nat * nat) => [map (fun i => if i <? 2 then 1%Q else 2%Q) (seq 0 (length c))]), 3, 0, [[0]; [0]; [0]; [9]; [9]; [9]]%Q.
  eexists. split.
  { intro l. split; [discriminate|]. intros st [<-|[]]. now rewrite map_length, seq_length. }
  split; [|split; vm_compute; reflexivity].
  intro l. split; [discriminate|]. intros st [<-|[]]. now rewrite map_length, seq_length.
Qed.
Print Assumptions C173_objects_fail_refuted.

Lemma sync_loop_identity period state tolerance n : forall is cl,
  (forall i, In i is -> i < n) ->
  sync_loop period state tolerance (Some (seq 0 n)) cl is = sync_loop period state tolerance None cl is.
Proof.
  induction is as [|i is IH]; intros cl Hi; [reflexivity|]. cbn [sync_loop].
  assert (Es : sync_step period state tolerance (Some (seq 0 n)) cl i = sync_step period state tolerance None cl i).
  { unfold sync_step. destruct (sync_group period state tolerance i cl) as [[k|]|]; cbn [bind]; try reflexivity.
    assert (i < n) by (apply Hi; now left).
    rewrite seq_length. replace (i <? n) with true by (symmetry; apply Nat.ltb_lt; lia).
    rewrite seq_nth by lia. reflexivity. }
  rewrite Es. destruct (sync_step period state tolerance None cl i) as [c|]; cbn [bind]; [|reflexivity].
  apply IH. intros j Hj. apply Hi. now right.
Qed.

(** What is true: a picture of one colour is divided into objects. *)
Theorem C173_one_colour period color_process object_process width data eps noise_size n :
  records color_process -> records object_process -> length data = S n ->
  sync_ensembles period (color_process data) (1 # 100) None None = Ok [seq 0 (S n)] ->
  exists a all objects,
    segm_process period color_process object_process width 0 true data = Ok a /\
    allocate_objects period a eps noise_size = Ok objects /\
    partitions (S n) all /\ no_empty all /\
    (forall s, In s objects <-> In s all /\ noise_size < length s) /\
    NoDup (concat objects).
Proof.
  intros Hc Ho Hl E. unfold segm_process. rewrite E. cbn [bind analyse_segments].
  unfold analyse_color_segment.
  set (coords := extract_location_coordinates width (seq 0 (S n))).
  assert (Hlen : length coords = S n) by (unfold coords, extract_location_coordinates; now rewrite map_length, seq_length).
  replace (length coords <? 0) with false by (symmetry; apply Nat.ltb_ge; lia).
  destruct (records_last object_process coords n Ho Hlen) as (st & Est & Hst).
  destruct (sync_ensembles_spec period eps (object_process coords) None st n Est Hst) as (cl & Ecl & P & Hne & _).
  assert (Eid : sync_ensembles period (object_process coords) eps (Some (seq 0 (S n))) None = Ok cl).
  { rewrite <- Ecl. unfold sync_ensembles. destruct (object_process coords) as [|first t]; [reflexivity|].
    cbn zeta. destruct (length (first :: t) - 1 <? length (first :: t)); [|reflexivity].
    assert (Hf : length first = S n) by (apply Hst; now left). rewrite Hf.
    apply sync_loop_identity. intros i Hi. apply in_seq in Hi. lia. }
  eexists. exists cl, (filter (fun c => noise_size <? length c) cl).
  split; [reflexivity|]. unfold allocate_objects. cbn [an_objects object_segments]. rewrite Eid. cbn [bind].
  rewrite app_nil_r. split; [reflexivity|]. split; [exact P|]. split; [exact Hne|]. split.
  - intro s. rewrite filter_In, Nat.ltb_lt. reflexivity.
  - apply NoDup_concat_filter. eapply Permutation_NoDup; [symmetry; exact P | apply seq_NoDup].
Qed.
Print Assumptions C173_one_colour.

Example C173_case :
  let color := fun data : list point => [repeat 1%Q (length data)] in
  let object := fun c : list (nat * nat) => [map (fun xy => inject_Z (Z.of_nat (fst xy))) c] in
  records color /\ records object /\
  sync_ensembles two_pi (color [[7]; [7]; [7]; [7]]%Q) (1 # 100) None None = Ok [seq 0 4] /\
  exists a, segm_process two_pi color object 2 0 true [[7]; [7]; [7]; [7]]%Q = Ok a /\
    allocate_objects two_pi a (1 # 10) 1 = Ok [[0; 2]; [1; 3]].
Proof.
  split; [|split; [|split]].
  - intro l. split; [discriminate|]. intros st [<-|[]]. apply repeat_length.
  - intro l. split; [discriminate|]. intros st [<-|[]]. apply map_length.
  - vm_compute. reflexivity.
  - eexists. split; vm_compute; reflexivity.
Qed.

(** Without an object radius, or for colours smaller than the noise size, no
    objects are looked for. *)
Theorem C173_skipped period color_process object_process width noise data a eps noise_size :
  (segm_process period color_process object_process width noise false data = Ok a ->
   allocate_objects period a eps noise_size = Ok []) /\
  (records color_process -> data <> [] -> length data < noise ->
   segm_process period color_process object_process width noise true data = Ok a ->
   allocate_objects period a eps noise_size = Ok []).
Proof.
  split.
  - intro H. unfold segm_process in H. apply Ok_inj in H. subst. reflexivity.
  - intros Hr Hd Hn H. unfold segm_process in H.
    destruct data as [|p data]; [congruence|].
    assert (Hl : length (p :: data) = S (length data)) by reflexivity.
    destruct (records_last color_process (p :: data) (length data) Hr Hl) as (st & Est & Hst).
    destruct (sync_ensembles_spec period (1 # 100) (color_process (p :: data)) None st (length data) Est Hst) as (cl & E & P & Hne & _).
    rewrite E in H. cbn [bind] in H. apply Ok_inj in H. subst a. unfold allocate_objects. cbn [an_objects].
    assert (Hall : forall s, In s cl -> length s <= S (length data)).
    { intros s Hs. assert (Hle : length s <= length (concat cl)).
      { clear - Hs. induction cl as [|c cl IH]; simpl in *; [contradiction|]. rewrite app_length.
        destruct Hs as [->|Hs]; [lia|]. specialize (IH Hs). lia. }
      unfold partitions in P. apply Permutation_length in P. rewrite seq_length in P. lia. }
    assert (En : analyse_segments object_process width noise cl = []).
    { clear - Hall Hn Hl. rewrite Hl in Hn. induction cl as [|c cl IH]; [reflexivity|]. cbn [analyse_segments].
      unfold analyse_color_segment, extract_location_coordinates. rewrite map_length.
      replace (length c <? noise) with true
        by (symmetry; apply Nat.ltb_lt; specialize (Hall c (or_introl eq_refl)); lia).
      apply IH. intros s Hs. apply Hall. now right. }
    rewrite En. reflexivity.
Qed.
Print Assumptions C173_skipped.
