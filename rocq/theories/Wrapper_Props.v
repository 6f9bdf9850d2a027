(** The way to the C++ library and back: C249 seeds, C250 parameters of networks, C251 requests, answers and memory,
    C252 messages, C253 the answer of DBSCAN, C254 metrics. *)
From Coq Require Import String Ascii.
From Verif Require Import Base Codec_Model Codec_Proofs Ccore_Model Wrapper_Model.
Local Open Scope nat_scope.

(** ** Specification *)
(** points as python lists *)
Definition points (data : list (list Q)) : value := VList (map (fun p => VList (map VFloat p)) data).
Definition indexes (l : list Z) : value := VList (map VInt l).
(** the package holds these data *)
Definition carries (a : carg) (v : value) : Prop := exists p, a = APackage p /\ extract p = Ok v.
Definition size_range (z : Z) : Prop := (0 <= z < 2 ^ 64)%Z.
Definition long_range (z : Z) : Prop := (- 2 ^ 63 <= z < 2 ^ 63)%Z.
Definition uint_range (z : Z) : Prop := (0 <= z < 2 ^ 32)%Z.

Lemma size_id z : size_range z -> size_arg z = ASize z.
Proof. intros H. unfold size_arg, wrap_unsigned. rewrite Z.mod_small; auto. Qed.
Lemma uint_id z : uint_range z -> uint_arg z = AUInt z.
Proof. intros H. unfold uint_arg, wrap_unsigned. rewrite Z.mod_small; auto. Qed.
Lemma long_id z : long_range z -> longlong_arg z = ALongLong z.
Proof. intros H. unfold longlong_arg. rewrite wrap_signed_id; auto; lia. Qed.
Lemma row_packed : forall p, exists k, doubles (VList (map VFloat p)) = Ok k /\ extract k = Ok (VList (map VFloat p)).
Proof.
  intros [|q p]; [eexists; split; reflexivity|].
  assert (M : forall l, mapM (store c_double) (map VFloat l) = Ok (map CellDouble l)) by (induction l as [|x l IH]; auto; cbn [map]; rewrite mapM_cons, IH; reflexivity).
  exists (Package (length (map VFloat (q :: p))) TDouble (map CellDouble (q :: p)) []). split.
  - unfold doubles. cbn [map create_package is_container scalar_type]. change (VFloat q :: map VFloat p) with (map VFloat (q :: p)). rewrite M. reflexivity.
  - rewrite extract_eq. cbn [map length]. rewrite !map_length, Nat.eqb_refl. cbn [map]. rewrite map_map. reflexivity.
Qed.
Lemma points_packed data : exists k, doubles (points data) = Ok k /\ extract k = Ok (points data).
Proof.
  destruct data as [|p data]; [eexists; split; reflexivity|].
  assert (M : forall l, exists ks, mapM (create_package (Some c_double)) (map (fun p => VList (map VFloat p)) l) = Ok ks /\ length ks = length l /\ mapM extract ks = Ok (map (fun p => VList (map VFloat p)) l)).
  { induction l as [|x l (ks & E1 & E2 & E3)]; [exists []; auto|]. destruct (row_packed x) as (k & F1 & F2). unfold doubles in F1. exists (k :: ks). cbn [map]. rewrite !mapM_cons, F1, E1, F2, E3. simpl. auto. }
  destruct (M (p :: data)) as (ks & E1 & E2 & E3). exists (Package (length (p :: data)) TList [] ks). split.
  - unfold doubles, points. cbn [map create_package is_container]. change (VList (map VFloat p) :: map (fun p => VList (map VFloat p)) data) with (map (fun p => VList (map VFloat p)) (p :: data)). rewrite E1. cbn [bind]. rewrite map_length. reflexivity.
  - rewrite extract_eq. cbn [length]. rewrite E2. cbn [length]. rewrite Nat.eqb_refl. unfold extract_all. rewrite E3. reflexivity.
Qed.

(** ** C249.  A seed other than 0 (in the range of a long long) arrives at the library; without a seed -1 arrives, which stands for the time. *)
Theorem C249_seed lib data centers k1 k2 k3 a b c crit metric start som rows cols conn z : z <> 0%Z -> long_range z ->
  (exists args, fst (w_gmeans lib (points data) k1 a k2 k3 (Some z)) = [Called "gmeans_algorithm" (args ++ [ALongLong z]); Freed "gmeans_algorithm"]) /\
  (exists args name, fst (w_elbow lib (points data) k1 k2 k3 start (Some z)) = [Called name (args ++ [ALongLong z]); Freed name]) /\
  (exists args, fst (w_ksearch lib (points data) k1 k2 k3 (Some z)) = [Called "silhouette_ksearch_algorithm" (args ++ [ALongLong z]); Freed "silhouette_ksearch_algorithm"]) /\
  (exists args, fst (w_xmeans lib (points data) (points centers) k1 a crit b c k2 (Some z) metric) = [Called "xmeans_algorithm" (args ++ [ALongLong z; metric]); Freed "xmeans_algorithm"]) /\
  (random_state som = Some z -> exists args fields, som_create rows cols conn som = [Called "som_create" (args ++ [AStruct (fields ++ [("random_state"%string, VInt z)])])]).
Proof.
  intros Hz Hr. destruct (points_packed data) as (d & E & _). destruct (points_packed centers) as (e & E' & _). assert (S1 : longlong_arg (seed (Some z)) = ALongLong z) by (unfold seed; destruct (Z.eqb_spec z 0); [contradiction|]; apply long_id; auto).
  split; [|split; [|split; [|split]]].
  - unfold w_gmeans. rewrite E. cbn [prepared answered fst ask]. rewrite S1. eexists [_; _; _; _; _]. reflexivity.
  - unfold w_elbow. rewrite E. cbn [prepared answered fst ask]. rewrite S1. eexists [_; _; _; _]. eexists. reflexivity.
  - unfold w_ksearch. rewrite E. cbn [prepared answered fst ask]. rewrite S1. eexists [_; _; _; _]. reflexivity.
  - unfold w_xmeans. rewrite E. cbn [prepared]. rewrite E'. cbn [prepared answered fst ask]. rewrite S1. eexists [_; _; _; _; _; _; _; _]. reflexivity.
  - intros R. unfold som_create. rewrite R. unfold longlong_arg in S1. assert (S2 : wrap_signed 64 (seed (Some z)) = z) by congruence. rewrite S2. eexists [_; _; _]. eexists [_; _; _; _]. reflexivity.
Qed.
Print Assumptions C249_seed.
(** The seed 0 is lost: the library is asked exactly what it is asked without a seed, and what it is asked with the seed -1. *)
Theorem C249_zero lib data centers k1 k2 k3 a b c crit metric start som rows cols conn : forall none, none = None \/ none = Some (-1)%Z ->
  w_gmeans lib data k1 a k2 k3 (Some 0%Z) = w_gmeans lib data k1 a k2 k3 none /\
  w_elbow lib data k1 k2 k3 start (Some 0%Z) = w_elbow lib data k1 k2 k3 start none /\
  w_ksearch lib data k1 k2 k3 (Some 0%Z) = w_ksearch lib data k1 k2 k3 none /\
  w_xmeans lib data centers k1 a crit b c k2 (Some 0%Z) metric = w_xmeans lib data centers k1 a crit b c k2 none metric /\
  som_create rows cols conn (mkSom (init_type som) (init_radius som) (init_learn_rate som) (adaptation_threshold som) (Some 0%Z)) =
  som_create rows cols conn (mkSom (init_type som) (init_radius som) (init_learn_rate som) (adaptation_threshold som) none).
Proof. intros none [-> | ->]; repeat split. Qed.
Print Assumptions C249_zero.
Theorem C249_zero_refuted : exists lib data k1 a k2 k3 args,
  fst (w_gmeans lib (points data) k1 a k2 k3 (Some 0%Z)) = [Called "gmeans_algorithm" (args ++ [ALongLong (-1)]); Freed "gmeans_algorithm"].
Proof. exists (fun _ _ => AValue (VList [])), [[0%Q]; [1%Q]], 1%Z, 1%Q, 3%Z, (-1)%Z. eexists [_; _; _; _; _]. reflexivity. Qed.
Print Assumptions C249_zero_refuted.
Example C249_example : (5 <> 0)%Z /\ long_range 5.
Proof. split; [discriminate|split; [discriminate|reflexivity]]. Qed.

(** ** C250.  The documented parameters of the networks *)
Definition pcnn_documented : list string := ["VF"; "VL"; "VT"; "AF"; "AL"; "AT"; "W"; "M"; "B"; "FAST_LINKING"]%string.
Definition legion_documented : list string := ["eps"; "alpha"; "gamma"; "betta"; "lamda"; "teta"; "teta_x"; "teta_p"; "teta_xz"; "teta_zx"; "T"; "mu"; "Wz"; "Wt"; "fi"; "ro"; "I"; "ENABLE_POTENTIONAL"]%string.
Definition hhn_documented : list string := ["nu"; "gNa"; "gK"; "gL"; "vNa"; "vK"; "vL"; "vRest"; "Icn1"; "Icn2"; "Vsyninh"; "Vsynexc"; "alfa_inhibitory"; "betta_inhibitory"; "alfa_excitatory"; "betta_excitatory"; "w1"; "w2"; "w3"; "deltah"; "threshold"; "eps"]%string.
(** an object with these attributes *)
Definition object_of (names : list string) (params : list (string * value)) : Prop := map fst params = names.
(** the structure that a request holds *)
Definition sent (ev : list event) : list (string * value) :=
  match ev with [Called _ args] => match last args (ASize 0) with AStruct f => f | _ => [] end | _ => [] end.

Lemma attribute_in : forall params f v, NoDup (map fst params) -> In (f, v) params -> attribute params f = v.
Proof.
  intros params f v N H. unfold attribute. induction params as [|(g, w) l IH]; [destruct H|]. cbn [find fst]. inversion N as [|x l' N1 N2]; subst. destruct (String.eqb_spec g f) as [->|Ne].
  - destruct H as [H|H]; [injection H as ->; auto|]. exfalso. apply N1. change f with (fst (f, v)). apply in_map; auto.
  - apply IH; auto. destruct H as [H|H]; auto. injection H; congruence.
Qed.
Lemma structure_in fields assigned params f v : NoDup (map fst params) -> In (f, v) params -> In f fields -> In f assigned -> In (f, v) (structure fields assigned params).
Proof.
  intros N H I A. unfold structure. apply in_map_iff. exists f. split; auto. rewrite (proj2 (existsb_exists _ _)) by (exists f; split; auto; apply String.eqb_refl). rewrite (attribute_in params f v); auto.
Qed.
Ltac nodup := repeat (constructor; [simpl; intuition discriminate|]); constructor.
Theorem C250_parameters size conn height width params :
  (object_of pcnn_documented params -> forall f v, In (f, v) params -> f <> "B"%string -> In (f, v) (sent (pcnn_create size conn height width params))) /\
  (object_of legion_documented params -> forall f v, In (f, v) params -> f <> "teta_zx"%string -> In (f, v) (sent (legion_create size conn params))) /\
  (object_of hhn_documented params -> forall f v, In (f, v) params -> In (f, v) (sent (hhn_create size params))).
Proof.
  assert (I : forall names f v, object_of names params -> In (f, v) params -> In f names) by (intros names f v <- H; change f with (fst (f, v)); apply in_map; auto).
  split; [|split]; intros O f v H; [intros Ne|intros Ne|]; cbn [sent pcnn_create legion_create hhn_create last]; assert (J := I _ f v O H); apply structure_in; auto; try (rewrite O; nodup);
    simpl in J |- *; intuition congruence.
Qed.
Print Assumptions C250_parameters.
(** the linking strength of a PCNN and teta_zx of a LEGION arrive as 0 whatever they are *)
Theorem C250_lost size conn height width params v : In ("B"%string, v) (sent (pcnn_create size conn height width params)) \/ In ("teta_zx"%string, v) (sent (legion_create size conn params)) -> v = VFloat 0.
Proof.
  intros [H|H]; cbn [sent pcnn_create legion_create last] in H; unfold structure in H; apply in_map_iff in H as (f & E & _); injection E as -> <-; reflexivity.
Qed.
Print Assumptions C250_lost.
Theorem C250_linking_refuted : exists params, object_of pcnn_documented params /\ In ("B"%string, VFloat (1 # 10)) params /\ ~ In ("B"%string, VFloat (1 # 10)) (sent (pcnn_create 9 0 3 3 params)).
Proof.
  exists (map (fun f => (f, VFloat (1 # 10))) pcnn_documented). split; [reflexivity|]. split; [simpl; tauto|]. intros H. assert (E := C250_lost 9 0 3 3 (map (fun f => (f, VFloat (1 # 10))) pcnn_documented) _ (or_introl H)). discriminate.
Qed.
Print Assumptions C250_linking_refuted.
Theorem C250_teta_zx_refuted : exists params, object_of legion_documented params /\ In ("teta_zx"%string, VFloat (1 # 10)) params /\ ~ In ("teta_zx"%string, VFloat (1 # 10)) (sent (legion_create 9 0 params)).
Proof.
  exists (map (fun f => (f, VFloat (1 # 10))) legion_documented). split; [reflexivity|]. split; [simpl; tauto|]. intros H. assert (E := C250_lost 9 0 0 0 (map (fun f => (f, VFloat (1 # 10))) legion_documented) _ (or_intror H)). discriminate.
Qed.
Print Assumptions C250_teta_zx_refuted.
Example C250_example : object_of hhn_documented (map (fun f => (f, VFloat 1)) hhn_documented).
Proof. reflexivity. Qed.
