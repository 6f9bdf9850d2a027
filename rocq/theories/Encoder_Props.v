(** C07, C08, C53, C54: the cluster encoder. *)
From Verif Require Import Base Encoder_Model Encoder_Proofs.

(** C07: index lists become labels describing them ... *)
Theorem C07_index_to_label_describes :
  forall (A : Type) (data : list A) cl, clustering (length data) cl ->
  exists labels, index_to_label A data cl = Ok labels /\ labels_describe (length data) cl labels.
Proof. exact (@index_to_label_spec). Qed.
Print Assumptions C07_index_to_label_describes.

(** ... labels become the ascending index lists they describe ... *)
Theorem C07_label_to_index_describes :
  forall (A : Type) (data : list A) labels, length labels = length data -> first_labelled labels ->
  exists cl, label_to_index A data labels = Ok cl /\ clustering (length data) cl /\ ascending cl /\
    labels_describe (length data) cl labels.
Proof. exact (@label_to_index_spec). Qed.
Print Assumptions C07_label_to_index_describes.

(** ... and the two conversions are mutually inverse. *)
Theorem C07_label_index_label_roundtrip :
  forall (A : Type) (data : list A) labels, length labels = length data -> first_labelled labels ->
  (do cl <- label_to_index A data labels; index_to_label A data cl) = Ok labels.
Proof. exact (@labels_index_labels). Qed.
Print Assumptions C07_label_index_label_roundtrip.

Theorem C07_index_label_index_roundtrip :
  forall (A : Type) (data : list A) cl, clustering (length data) cl -> ascending cl ->
  In 0 (concat cl) -> last cl [] <> [] ->
  (do l <- index_to_label A data cl; label_to_index A data l) = Ok cl.
Proof. exact (@index_labels_index). Qed.
Print Assumptions C07_index_label_index_roundtrip.

(** C53: the unconditional round trip fails: a noise point at index 0 makes [max(labels)] NaN. *)
Theorem C53_index_roundtrip_refuted :
  exists (data : list nat) cl, clustering (length data) cl /\ ascending cl /\ last cl [] <> [] /\
    (do l <- index_to_label nat data cl; label_to_index nat data l) = Raise TypeError.
Proof.
  exists [10; 11; 12], [[1; 2]]. vm_compute. repeat split; repeat constructor; try (intros H; repeat destruct H as [H|H]; auto; discriminate); discriminate.
Qed.
Print Assumptions C53_index_roundtrip_refuted.

(** C53: a trailing empty cluster is lost. *)
Theorem C53_trailing_empty_refuted :
  exists (data : list nat) cl, clustering (length data) cl /\ ascending cl /\ In 0 (concat cl) /\
    (do l <- index_to_label nat data cl; label_to_index nat data l) <> Ok cl.
Proof.
  exists [10; 11], [[0; 1]; []]. vm_compute. repeat split; repeat constructor; try (intros H; repeat destruct H as [H|H]; auto; discriminate); auto.
Qed.
Print Assumptions C53_trailing_empty_refuted.

(** C53: exactly the label vectors that start with NaN (or are empty) cannot be converted. *)
Theorem C53_label_to_index_failures :
  forall (A : Type) (data : list A) labels, length labels = length data ->
  forall e, label_to_index A data labels = Raise e <->
     (labels = [] /\ e = ValueError) \/ (exists t, labels = None :: t /\ e = TypeError).
Proof. exact (@label_to_index_error). Qed.
Print Assumptions C53_label_to_index_failures.

(** C08: objects, duplicates included, survive the round trip and no index is used twice. *)
Theorem C08_object_roundtrip :
  forall (A : Type) (eqb : A -> A -> bool) (K : Type) (keqb : K -> K -> bool) (str : A -> K),
  (forall x, eqb x x = true) ->
  (forall x y, eqb x y = true <-> keqb (str x) (str y) = true) ->
  (forall x y, eqb x y = eqb y x) ->
  (forall x y z, eqb x y = true -> eqb y z = true -> eqb x z = true) ->
  forall data cl, clustering (length data) cl ->
  exists obs cl', index_to_object A data cl = Ok obs /\ objects_at data cl obs /\
    object_to_index A eqb K keqb str data obs = Ok cl' /\ clustering (length data) cl' /\
    Forall2 (Forall2 (fun i o => exists x, nth_error data i = Some x /\ eqb x o = true)) cl' obs.
Proof. exact object_round_trip. Qed.
Print Assumptions C08_object_roundtrip.

(** C08: without duplicates the round trip is the identity. *)
Theorem C08_object_roundtrip_distinct :
  forall (A : Type) (eqb : A -> A -> bool) (K : Type) (keqb : K -> K -> bool) (str : A -> K),
  (forall x, eqb x x = true) ->
  (forall x y, eqb x y = true <-> keqb (str x) (str y) = true) ->
  (forall x y, eqb x y = eqb y x) ->
  (forall x y z, eqb x y = true -> eqb y z = true -> eqb x z = true) ->
  forall data cl, clustering (length data) cl -> all_distinct A eqb data ->
  (do obs <- index_to_object A data cl; object_to_index A eqb K keqb str data obs) = Ok cl.
Proof. exact object_round_trip_distinct. Qed.
Print Assumptions C08_object_roundtrip_distinct.

(** C54: the six conversions commute, on every input and with the same errors. *)
Theorem C54_label_object_commutes :
  forall (A : Type) (data : list A) labels,
  label_to_object A data labels = (do cl <- label_to_index A data labels; index_to_object A data cl).
Proof. exact (@label_object_commutes). Qed.
Print Assumptions C54_label_object_commutes.

Theorem C54_object_label_commutes :
  forall (A : Type) (eqb : A -> A -> bool) (K : Type) (keqb : K -> K -> bool) (str : A -> K) data cl,
  object_to_label A eqb K keqb str data cl =
  (do r <- object_to_index A eqb K keqb str data cl; index_to_label A data r).
Proof. exact object_label_commutes. Qed.
Print Assumptions C54_object_label_commutes.

(** C08: objects that are equal but print differently ([1] and [1.0]) break it: one index is
    reported twice.  An object is (value, text). *)
Theorem C08_equal_with_different_text_refuted :
  exists (data : list (nat * nat)) cl obs cl', clustering (length data) cl /\
    index_to_object _ data cl = Ok obs /\
    object_to_index _ (fun x y => fst x =? fst y) nat Nat.eqb snd data obs = Ok cl' /\
    ~ NoDup (concat cl').
Proof.
  exists [(1, 1); (1, 10)], [[0]; [1]], [[(1, 1)]; [(1, 10)]], [[0]; [0]].
  split; [split; repeat constructor; simpl; intuition discriminate|].
  split; [reflexivity|]. split; [reflexivity|].
  simpl. intros H. inversion H as [|a b Ha Hb]; subst. apply Ha. simpl. auto.
Qed.
Print Assumptions C08_equal_with_different_text_refuted.

(** The same for the public method: [set_encoding] reaches every representation, by any path. *)
Section SetEncoding.
Variable A : Type.
Variable eqb : A -> A -> bool.
Variable K : Type.
Variable keqb : K -> K -> bool.
Variable str : A -> K.
Notation set_encoding := (set_encoding A eqb K keqb str).

Theorem C07_set_encoding_labels : forall data labels, length labels = length data -> first_labelled labels ->
  exists cl, set_encoding data (Labels labels) EIndices = Ok (Indices cl) /\ ascending cl /\ clustering (length data) cl /\
    labels_describe (length data) cl labels /\ set_encoding data (Indices cl) ELabels = Ok (Labels labels).
Proof.
  intros data labels Hl Hf. destruct (label_to_index_spec data labels Hl Hf) as (cl & E & H1 & H2 & H3). exists cl. unfold Encoder_Model.set_encoding.
  rewrite E. cbn [bind]. split; auto. split; auto. split; auto. split; auto.
  pose proof (labels_index_labels data labels Hl Hf) as R. rewrite E in R. cbn [bind] in R. rewrite R. reflexivity.
Qed.

Theorem C07_set_encoding_indices : forall data cl, clustering (length data) cl ->
  exists labels, set_encoding data (Indices cl) ELabels = Ok (Labels labels) /\ labels_describe (length data) cl labels /\
    (ascending cl -> In 0 (concat cl) -> last cl [] <> [] -> set_encoding data (Labels labels) EIndices = Ok (Indices cl)).
Proof.
  intros data cl Hc. destruct (index_to_label_spec data cl Hc) as (l & E & H). exists l. unfold Encoder_Model.set_encoding. rewrite E. cbn [bind]. split; auto. split; auto.
  intros H1 H2 H3. pose proof (index_labels_index data cl Hc H1 H2 H3) as R. rewrite E in R. cbn [bind] in R. rewrite R. reflexivity.
Qed.

Theorem C08_set_encoding_objects :
  (forall x, eqb x x = true) -> (forall x y, eqb x y = true <-> keqb (str x) (str y) = true) ->
  (forall x y, eqb x y = eqb y x) -> (forall x y z, eqb x y = true -> eqb y z = true -> eqb x z = true) ->
  forall data cl, clustering (length data) cl ->
  exists obs cl', set_encoding data (Indices cl) EObjects = Ok (Objects obs) /\ objects_at data cl obs /\
    set_encoding data (Objects obs) EIndices = Ok (Indices cl') /\ clustering (length data) cl' /\
    Forall2 (Forall2 (fun i o => exists x, nth_error data i = Some x /\ eqb x o = true)) cl' obs /\
    (all_distinct A eqb data -> cl' = cl).
Proof.
  intros R1 R2 R3 R4 data cl Hc. destruct (object_round_trip A eqb K keqb str R1 R2 R3 R4 data cl Hc) as (obs & cl' & E & H1 & E' & H2 & H3).
  exists obs, cl'. unfold Encoder_Model.set_encoding. rewrite E, E'. cbn [bind]. split; auto. split; auto. split; auto. split; auto. split; auto.
  intros Hd. pose proof (object_round_trip_distinct A eqb K keqb str R1 R2 R3 R4 data cl Hc Hd) as R. rewrite E in R. cbn [bind] in R. rewrite E' in R. apply Ok_inj in R. auto.
Qed.

(** C54: going to a representation through the index lists is the same as going there directly, and a
    representation already reached is kept. *)
Theorem C54_set_encoding_path : forall data r e,
  set_encoding data r e = match encoding_of A r, e with
                          | ELabels, EObjects | EObjects, ELabels => do r' <- set_encoding data r EIndices; set_encoding data r' e
                          | _, _ => if match encoding_of A r, e with ELabels, ELabels | EIndices, EIndices | EObjects, EObjects => true | _, _ => false end
                                    then Ok r else set_encoding data r e
                          end.
Proof.
  intros data [l|c|o] []; cbn [encoding_of]; auto; unfold Encoder_Model.set_encoding.
  - rewrite label_object_commutes. destruct (label_to_index A data l); reflexivity.
  - rewrite object_label_commutes. destruct (object_to_index A eqb K keqb str data o); reflexivity.
Qed.
End SetEncoding.

(** *** Concrete cases *)
Example C07_ex : index_to_label nat [5; 6; 7; 8] [[0; 2]; [3]] = Ok [Some 0; None; Some 0; Some 1] /\
  label_to_index nat [5; 6; 7; 8] [Some 0; None; Some 0; Some 1] = Ok [[0; 2]; [3]].
Proof. split; reflexivity. Qed.
Example C07_ex_meets : clustering 4 [[0; 2]; [3]] /\ ascending [[0; 2]; [3]] /\
  first_labelled [Some 0; None; Some 0; Some 1].
Proof.
  split; [split; repeat constructor; simpl; intuition discriminate|].
  split; [repeat constructor|]. eexists; eexists; reflexivity.
Qed.
Example C08_ex_duplicates : index_to_object nat [7; 7; 8] [[1]; [0; 2]] = Ok [[7]; [7; 8]] /\
  object_to_index nat Nat.eqb nat Nat.eqb (fun x => x) [7; 7; 8] [[7]; [7; 8]] = Ok [[0]; [1; 2]].
Proof. split; reflexivity. Qed.
Example C08_ex_distinct : all_distinct nat Nat.eqb [7; 9; 8].
Proof.
  intros [|[|[|[|i]]]] [|[|[|[|j]]]] x y Hx Hy E; simpl in *; try congruence;
  injection Hx as <-; injection Hy as <-; discriminate.
Qed.
Print Assumptions C07_set_encoding_labels.
Print Assumptions C07_set_encoding_indices.
Print Assumptions C08_set_encoding_objects.
Print Assumptions C54_set_encoding_path.
