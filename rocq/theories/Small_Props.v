(** C47, C48, C50 *)
From Verif Require Import Base Small_Model Small_Proofs.

Theorem C47_phase_normalised period teta : (0 < period)%Q ->
  exists fuel, forall f, fuel <= f ->
    exists r, phase_normalization period f teta = Ok r /\ (0 <= r <= period)%Q /\ congruent period r teta.
Proof. exact (phase_normalization_spec period teta). Qed.
Print Assumptions C47_phase_normalised.

(** a phase that is already normalised is returned unchanged *)
Theorem C47_phase_idempotent period teta f : (0 <= teta <= period)%Q ->
  phase_normalization period f teta = Ok teta.
Proof.
  intros H. assert (E1 : Qltb period teta = false) by (apply Qltb_false; lra).
  assert (E2 : Qltb teta 0 = false) by (apply Qltb_false; lra).
  destruct f; cbn [phase_normalization]; rewrite E1, E2; reflexivity.
Qed.
Print Assumptions C47_phase_idempotent.

Example C47_case : phase_normalization (13 # 2) 5 (20 # 1) = Ok (20 - (13 # 2) - (13 # 2) - (13#2))%Q
  /\ phase_normalization (13 # 2) 5 (-20 # 1) = Ok ((-20 # 1) + (13 # 2) + (13 # 2) + (13 # 2) + (13#2))%Q.
Proof. split; reflexivity. Qed.

Theorem C48_data_corners_tight data filt dims :
  data <> [] -> (forall p, In p data -> length p = dims) ->
  (forall f, filt = Some f -> f <> [] /\ forall i, In i f -> i < length data) ->
  exists lo hi, data_corners data filt = Ok (lo, hi) /\ length lo = dims /\ length hi = dims /\
    forall d, d < dims ->
      tight (match filt with None => data | Some f => map (fun i => nth i data []) f end) d (coord lo d) (coord hi d).
Proof.
  intros H1 H2 H3. destruct (data_corners_spec data filt dims H1 H2 H3) as [[lo hi] [E (A & B & C)]].
  exists lo, hi. auto.
Qed.
Print Assumptions C48_data_corners_tight.

Theorem C48_dimension_info_tight data dims :
  data <> [] -> (forall p, In p data -> length p = dims) ->
  exists lo hi w c, dimension_minmax data = Ok (lo, hi) /\ dimension_width data = Ok w /\ dimension_center data = Ok c /\
    length lo = dims /\ length hi = dims /\ length w = dims /\ length c = dims /\
    forall d, d < dims -> tight data d (coord lo d) (coord hi d) /\
      (coord lo d + coord w d == coord hi d)%Q /\
      (coord c d - coord lo d == coord hi d - coord c d)%Q.
Proof.
  intros H1 H2. destruct (dimension_minmax_spec data dims H1 H2) as [[lo hi] [E (A & B & C)]].
  assert (Hh : length (hd [] data) = dims) by (destruct data; [congruence|apply H2; simpl; auto]).
  exists lo, hi. do 2 eexists. unfold dimension_width, dimension_center. rewrite E, Hh. cbn [bind fst snd].
  do 3 (split; [reflexivity|]). rewrite !map_length, !seq_length. do 4 (split; auto).
  intros d Hd. split; [apply C; auto|]. rewrite !coord_map by auto. split; field.
Qed.
Print Assumptions C48_dimension_info_tight.

Example C48_case :
  data_corners [[1; 5]; [3; 2]; [-1; 9]]%Q (Some [1; 0]) = Ok ([1; 2], [3; 5])%Q /\
  dimension_minmax [[1; 5]; [3; 2]; [-1; 9]]%Q = Ok ([-1; 2], [3; 9])%Q.
Proof. split; reflexivity. Qed.

(** C50 is false: every non-empty data is taken for the vector representation *)
Theorem C50_graph_recognised_refuted :
  exists data, zero_one_square data /\ data <> [] /\ graph_type data = GRAPH_VECTOR_DESCR.
Proof.
  exists [[0; 1]; [1; 0]]%Z. split; [|split; [discriminate|reflexivity]].
  repeat (apply Forall_cons || apply Forall_nil || split); simpl; auto.
Qed.
Print Assumptions C50_graph_recognised_refuted.

Theorem C50_graph_actual data :
  graph_type data = match data with [] => GRAPH_MATRIX_DESCR | _ => GRAPH_VECTOR_DESCR end.
Proof. exact (graph_type_actual data). Qed.
Print Assumptions C50_graph_actual.

(** the half that holds: nothing but a zero-one matrix is taken for a matrix *)
Theorem C50_matrix_sound data : graph_type data = GRAPH_MATRIX_DESCR -> zero_one_square data.
Proof. rewrite graph_type_actual. destruct data; [constructor|discriminate]. Qed.
Print Assumptions C50_matrix_sound.
