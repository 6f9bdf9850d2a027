(** C260: networks of the C++ library are made, trained and simulated with what the user gave; C253: the request of DBSCAN. *)
From Coq Require Import String Ascii.
From Verif Require Import Base Codec_Model Codec_Proofs Ccore_Model Wrapper_Model Wrapper_Props Wrapmore_Props Netreq_Model.
Local Open Scope nat_scope.

(** ** specification *)
(** exactly one call, with these arguments *)
Definition one_call (w : wrapped carg) (name : string) (args : list carg) : Prop := w = ([Called name args], Ok (APointer name)).
Definition numbers (l : list Q) : value := VList (map VFloat l).

(** ** making *)
Theorem C260_sync n weight frequency conn phases : uint_range n -> uint_range conn -> uint_range phases ->
  one_call (sync_create n weight frequency conn phases) "sync_create_network" [AUInt n; ADouble weight; ADouble frequency; AUInt conn; AUInt phases] /\
  one_call (syncpr_create n weight frequency) "syncpr_create" [AUInt n; ADouble weight; ADouble frequency].
Proof. intros H1 H2 H3. unfold one_call, sync_create, syncpr_create, made. rewrite !uint_id by assumption. split; reflexivity. Qed.
Print Assumptions C260_sync.

(** size and structure of the networks whose parameters are those of C250 *)
Theorem C260_sizes n conn height width params : uint_range n -> uint_range conn -> uint_range height -> uint_range width ->
  (exists s, pcnn_create n conn height width params = [Called "pcnn_create" [AUInt n; AUInt conn; AUInt height; AUInt width; AStruct s]]) /\
  (exists s, legion_create n conn params = [Called "legion_create" [AUInt n; AUInt conn; AStruct s]]) /\
  (exists s, hhn_create n params = [Called "hhn_create" [ASize n; AStruct s]]).
Proof.
  intros H1 H2 H3 H4. unfold pcnn_create, legion_create, hhn_create. rewrite !uint_id by assumption. rewrite size_id by (unfold uint_range, size_range in *; lia).
  repeat split; eexists; reflexivity.
Qed.
Print Assumptions C260_sizes.

Theorem C260_syncnet sample radius phases weighted : sample <> [] -> uint_range phases ->
  exists d, carries d (points sample) /\ one_call (syncnet_create sample (Some radius) phases weighted) "syncnet_create_network" [d; ADouble radius; ABool weighted; AUInt phases].
Proof.
  intros Hs Hp. destruct (doubles_carry sample) as (k & E & C). exists (APackage k). split; [exact C|]. unfold one_call, syncnet_create. destruct sample as [|p t]; [congruence|]. cbn [length Nat.eqb].
  unfold points in E. rewrite E. cbn [prepared double_arg]. unfold made. rewrite uint_id by exact Hp. reflexivity.
Qed.
Print Assumptions C260_syncnet.

(** no more neighbours than there are other points *)
Theorem C260_hsyncnet sample clusters phases neighbors increase : sample <> [] -> uint_range (Z.of_nat (length sample)) -> uint_range clusters -> uint_range phases -> (0 <= neighbors)%Z ->
  exists d, carries d (points sample) /\ one_call (hsyncnet_create sample clusters phases neighbors increase) "hsyncnet_create_network"
    [d; AUInt clusters; AUInt phases; AUInt (Z.min neighbors (Z.of_nat (length sample) - 1)); ADouble increase].
Proof.
  intros Hs Hl Hc Hp Hn. destruct (doubles_carry sample) as (k & E & C). exists (APackage k). split; [exact C|]. unfold one_call, hsyncnet_create. unfold points in E. rewrite E. cbn [prepared]. unfold made.
  assert (1 <= Z.of_nat (length sample))%Z by (destruct sample; [congruence|cbn [length]; lia]). unfold uint_range in Hl.
  assert (N : (if (Z.of_nat (length sample) <=? neighbors)%Z then (Z.of_nat (length sample) - 1)%Z else neighbors) = Z.min neighbors (Z.of_nat (length sample) - 1)).
  { destruct (Z.leb_spec (Z.of_nat (length sample)) neighbors); lia. }
  rewrite N. rewrite (uint_id clusters Hc), (uint_id phases Hp), uint_id by (unfold uint_range; lia). reflexivity.
Qed.
Print Assumptions C260_hsyncnet.

(** hsyncnet does not refuse empty data when the library works: it asks for a network with 2^32 - 1 neighbours *)
Theorem C260_empty_refuted : exists clusters phases neighbors increase args, (0 <= neighbors)%Z /\
  fst (syncnet_create [] (Some 1%Q) phases false) = [] /\ snd (syncnet_create [] (Some 1%Q) phases false) = Raise ValueError /\
  fst (hsyncnet_create [] clusters phases neighbors increase) = [Called "hsyncnet_create_network" (args ++ [AUInt 4294967295; ADouble increase])].
Proof. exists 2%Z, 0%Z, 3%Z, (3 # 20)%Q. eexists [_; _; _]. split; [lia|]. split; [reflexivity|]. split; reflexivity. Qed.
Print Assumptions C260_empty_refuted.

(** without a radius a syncnet of python has no connections; the library cannot be asked for one *)
Theorem C260_radius_refuted : exists sample phases weighted, sample <> [] /\ syncnet_create sample None phases weighted = ([], Raise TypeError).
Proof. exists [[0%Q]; [1%Q]], 0%Z, false. split; [discriminate|reflexivity]. Qed.
Print Assumptions C260_radius_refuted.

(** ** simulation *)
Theorem C260_simulation steps time order solution collect step int_step threshold : uint_range steps -> uint_range solution ->
  one_call (sync_simulate_static steps time solution collect) "sync_simulate_static" [APointer "sync_create_network"; AUInt steps; ADouble time; AUInt solution; ABool collect] /\
  one_call (sync_simulate_dynamic order solution collect step int_step threshold) "sync_simulate_dynamic"
    [APointer "sync_create_network"; ADouble order; AUInt solution; ABool collect; ADouble step; ADouble int_step; ADouble threshold] /\
  one_call (syncnet_process order solution collect) "syncnet_process" [APointer "syncnet_create_network"; ADouble order; AUInt solution; ABool collect] /\
  one_call (hsyncnet_process order solution collect) "hsyncnet_process" [APointer "hsyncnet_create_network"; ADouble order; AUInt solution; ABool collect].
Proof.
  intros H1 H2. unfold one_call, sync_simulate_static, sync_simulate_dynamic, syncnet_process, hsyncnet_process, made. rewrite !uint_id by assumption. repeat split.
Qed.
Print Assumptions C260_simulation.

Lemma numbers_carry l : exists k, doubles (numbers l) = Ok k /\ carries (APackage k) (numbers l).
Proof. destruct (row_packed l) as (k & E & F). exists k. split; [exact E|]. exists k. auto. Qed.

Theorem C260_legion steps time solver collect stimulus : uint_range steps -> uint_range solver ->
  exists s, carries s (numbers stimulus) /\
  one_call (legion_simulate steps time solver collect (map VFloat stimulus)) "legion_simulate" [APointer "legion_create"; AUInt steps; ADouble time; AUInt solver; ABool collect; s].
Proof.
  intros H1 H2. destruct (numbers_carry stimulus) as (k & E & C). exists (APackage k). split; [exact C|]. unfold one_call, legion_simulate. unfold numbers in E. rewrite E. cbn [prepared]. unfold made. rewrite !uint_id by assumption. reflexivity.
Qed.
Print Assumptions C260_legion.

(** the stimulus must have one number per oscillator of the network in the library *)
Theorem C260_pcnn size steps stimulus : uint_range steps ->
  let asked := Called "pcnn_get_size" [APointer "pcnn_create"] in
  (Z.of_nat (length stimulus) = size -> exists s, carries s (numbers stimulus) /\
     pcnn_simulate size steps (map VFloat stimulus) = ([asked; Called "pcnn_simulate" [APointer "pcnn_create"; AUInt steps; s]], Ok (APointer "pcnn_simulate"))) /\
  (Z.of_nat (length stimulus) <> size -> pcnn_simulate size steps (map VFloat stimulus) = ([asked], Raise NameError)).
Proof.
  intros H asked. unfold pcnn_simulate. rewrite map_length. split; intro L.
  - rewrite (proj2 (Z.eqb_eq _ _) L). cbn [negb]. destruct (numbers_carry stimulus) as (k & E & C). exists (APackage k). split; [exact C|]. unfold numbers in E. rewrite E. cbn [prepared]. unfold made. rewrite uint_id by exact H. reflexivity.
  - rewrite (proj2 (Z.eqb_neq _ _) L). reflexivity.
Qed.
Print Assumptions C260_pcnn.

(** of one simulation the membrane potentials are recorded and read, and the recording is destroyed *)
Theorem C260_hhn lib steps time solution stimulus : size_range steps -> size_range solution -> solution <> 0%Z ->
  let d := APointer "hhn_dynamic_create" in
  exists s, carries s (numbers stimulus) /\ hhn_simulate lib steps time solution (map VFloat stimulus) =
    ([Called "hhn_dynamic_create" [ABool true; ABool false; ABool false; ABool false];
      Called "hhn_simulate" [APointer "hhn_create"; ASize steps; ADouble time; ASize solution; s; d];
      Called "hhn_dynamic_get_peripheral_evolution" [d; ASize 0]; Freed "hhn_dynamic_get_peripheral_evolution";
      Called "hhn_dynamic_get_central_evolution" [d; ASize 0]; Freed "hhn_dynamic_get_central_evolution";
      Called "hhn_dynamic_get_time" [d]; Freed "hhn_dynamic_get_time";
      Called "hhn_dynamic_destroy" [d]],
     Ok (lib "hhn_dynamic_get_time"%string [d], lib "hhn_dynamic_get_peripheral_evolution"%string [d; ASize 0], lib "hhn_dynamic_get_central_evolution"%string [d; ASize 0])).
Proof.
  intros H1 H2 H3 d. destruct (numbers_carry stimulus) as (k & E & C). exists (APackage k). split; [exact C|]. unfold hhn_simulate. rewrite (proj2 (Z.eqb_neq _ _) H3). unfold numbers in E. rewrite E.
  rewrite (size_id steps H1), (size_id solution H2), (size_id 0) by (split; [lia|reflexivity]). reflexivity.
Qed.
Print Assumptions C260_hhn.

(** ** patterns *)
Definition feature (z : Z) : Prop := z = 1%Z \/ z = (-1)%Z.
Lemma ints_row l : (forall z, In z l -> feature z) -> exists k, ints (indexes l) = Ok k /\ extract k = Ok (indexes l).
Proof.
  destruct l as [|z l]; intros H; [eexists; split; reflexivity|].
  assert (M : forall l, (forall z, In z l -> feature z) -> mapM (store c_int) (map VInt l) = Ok (map CellInt l)).
  { clear. induction l as [|x l IH]; intros H; auto. cbn [map]. rewrite mapM_cons, IH by (intros; apply H; right; auto). cbn [store]. rewrite wrap_signed_id; [reflexivity|lia|]. destruct (H x (or_introl eq_refl)) as [-> | ->]; cbn; lia. }
  exists (Package (length (map VInt (z :: l))) TInt (map CellInt (z :: l)) []). split.
  - unfold ints, indexes. cbn [map create_package is_container scalar_type]. change (VInt z :: map VInt l) with (map VInt (z :: l)). rewrite M by auto. reflexivity.
  - rewrite extract_eq. cbn [map length]. rewrite !map_length, Nat.eqb_refl. cbn [map]. rewrite map_map. reflexivity.
Qed.
Lemma ints_rows ls : (forall l z, In l ls -> In z l -> feature z) -> exists k, ints (VList (map indexes ls)) = Ok k /\ extract k = Ok (VList (map indexes ls)).
Proof.
  destruct ls as [|p ls]; intros H; [eexists; split; reflexivity|].
  assert (M : forall l, (forall g z, In g l -> In z g -> feature z) -> exists ks, mapM (create_package (Some c_int)) (map indexes l) = Ok ks /\ length ks = length l /\ mapM extract ks = Ok (map indexes l)).
  { clear. induction l as [|x l IH]; intros H; [exists []; auto|]. destruct IH as (ks & E1 & E2 & E3); [intros g z Hg; apply H; right; auto|]. destruct (ints_row x) as (k & F1 & F2); [intros z Hz; apply (H x); [left; auto|auto]|]. unfold ints in F1. exists (k :: ks). cbn [map]. rewrite !mapM_cons, F1, E1, F2, E3. simpl. auto. }
  destruct (M (p :: ls) H) as (ks & E1 & E2 & E3). exists (Package (length (p :: ls)) TList [] ks). split.
  - unfold ints. change (create_package (Some c_int) (VList (map indexes (p :: ls)))) with (do subs <- mapM (create_package (Some c_int)) (map indexes (p :: ls)); Ok (Package (length (map indexes (p :: ls))) TList [] subs)). rewrite E1. cbn [bind]. rewrite map_length. reflexivity.
  - rewrite extract_eq. cbn [length]. rewrite E2. cbn [length]. rewrite Nat.eqb_refl. unfold extract_all. rewrite E3. reflexivity.
Qed.

Lemma check_ints size p : Z.of_nat (length p) = size -> (forall z, In z p -> feature z) -> check_pattern size (map VInt p) = Ok tt.
Proof.
  intros L H. unfold check_pattern. rewrite map_length, (proj2 (Z.eqb_eq _ _) L). cbn [negb]. rewrite (proj2 (forallb_forall _ _)); [reflexivity|].
  intros v Hv. apply in_map_iff in Hv as (z & <- & Hz). destruct (H z Hz) as [-> | ->]; reflexivity.
Qed.

(** patterns of the integers 1 and -1, as long as the network *)
Theorem C260_train size samples : (forall p, In p samples -> Z.of_nat (length p) = size /\ forall z, In z p -> feature z) ->
  exists k, carries k (VList (map indexes samples)) /\
  syncpr_train size (map (map VInt) samples) = (repeat size_asked (length samples) ++ [Called "syncpr_train" [APointer "syncpr_create"; k]], Ok tt).
Proof.
  intro H. destruct (ints_rows samples) as (k & E & F); [intros l z Hl; apply (proj2 (H l Hl))|]. exists (APackage k). split; [exists k; auto|].
  assert (W : check_patterns size (map (map VInt) samples) = (repeat size_asked (length samples), Ok tt)).
  { clear E F k. induction samples as [|p t IH]; [reflexivity|]. cbn [map check_patterns length repeat]. destruct (H p (or_introl eq_refl)) as (L & Hp). rewrite (check_ints size p L Hp), IH by (intros; apply H; right; assumption). reflexivity. }
  unfold syncpr_train. rewrite W. cbn [fst snd]. replace (VList (map VList (map (map VInt) samples))) with (VList (map indexes samples)) by (rewrite map_map; reflexivity). rewrite E. reflexivity.
Qed.
Print Assumptions C260_train.

Theorem C260_recognition lib size steps time order solution collect step pattern : uint_range steps -> uint_range solution -> Z.of_nat (length pattern) = size -> (forall z, In z pattern -> feature z) ->
  exists k, carries k (indexes pattern) /\
  syncpr_simulate_static size steps time (map VInt pattern) solution collect =
    ([size_asked; Called "syncpr_simulate_static" [APointer "syncpr_create"; AUInt steps; ADouble time; k; AUInt solution; ABool collect]], Ok (APointer "syncpr_simulate_static")) /\
  syncpr_simulate_dynamic size (map VInt pattern) order solution collect step =
    ([size_asked; Called "syncpr_simulate_dynamic" [APointer "syncpr_create"; k; ADouble order; AUInt solution; ABool collect; ADouble step]], Ok (APointer "syncpr_simulate_dynamic")) /\
  syncpr_memory_order lib size (map VInt pattern) =
    ([size_asked; Called "syncpr_memory_order" [APointer "syncpr_create"; k]], Ok (lib "syncpr_memory_order"%string [APointer "syncpr_create"; k])).
Proof.
  intros H1 H2 L H. destruct (ints_row pattern H) as (k & E & F). exists (APackage k). split; [exists k; auto|]. unfold indexes in E.
  unfold syncpr_simulate_static, syncpr_simulate_dynamic, syncpr_memory_order, with_pattern. rewrite (check_ints size pattern L H), E. unfold made. rewrite !uint_id by assumption. repeat split.
Qed.
Print Assumptions C260_recognition.

(** a pattern of a wrong length, or with a feature that is neither 1 nor -1, is refused before the library is asked for anything but its size *)
Definition wrong (size : Z) (pattern : list Z) : Prop := Z.of_nat (length pattern) <> size \/ exists z, In z pattern /\ ~ feature z.
Lemma check_wrong size pattern : wrong size pattern -> check_pattern size (map VInt pattern) = Raise NameError.
Proof.
  intro H. unfold check_pattern. rewrite map_length. destruct (Z.eqb_spec (Z.of_nat (length pattern)) size) as [E|E]; cbn [negb]; [|reflexivity]. destruct H as [H | (z & Hz & F)]; [congruence|].
  destruct (forallb is_feature (map VInt pattern)) eqn:A; [|reflexivity]. exfalso. apply F. pose proof (proj1 (forallb_forall _ _) A (VInt z) (in_map VInt _ _ Hz)) as B. cbn [is_feature] in B. apply orb_true_iff in B as [B|B]; apply Z.eqb_eq in B; [left|right]; exact B.
Qed.
Theorem C260_wrong_pattern lib size steps time order solution collect step pattern samples : wrong size pattern ->
  syncpr_simulate_static size steps time (map VInt pattern) solution collect = ([size_asked], Raise NameError) /\
  syncpr_simulate_dynamic size (map VInt pattern) order solution collect step = ([size_asked], Raise NameError) /\
  syncpr_memory_order lib size (map VInt pattern) = ([size_asked], Raise NameError) /\
  (In pattern samples -> snd (syncpr_train size (map (map VInt) samples)) = Raise NameError /\ forall e, In e (fst (syncpr_train size (map (map VInt) samples))) -> e = size_asked).
Proof.
  intro H. pose proof (check_wrong size pattern H) as C. split; [|split; [|split]].
  1-3: unfold syncpr_simulate_static, syncpr_simulate_dynamic, syncpr_memory_order, with_pattern; rewrite C; reflexivity.
  intro I. assert (W : snd (check_patterns size (map (map VInt) samples)) = Raise NameError /\ forall e, In e (fst (check_patterns size (map (map VInt) samples))) -> e = size_asked).
  { induction samples as [|p t IH]; [destruct I|]. cbn [map check_patterns]. destruct (check_pattern size (map VInt p)) as [u|e] eqn:Ep.
    - cbn [fst snd]. destruct I as [-> | I]; [congruence|]. destruct (IH I) as (A & B). split; [exact A|]. intros x [<- | Hx]; auto.
    - cbn [fst snd]. split.
      + unfold check_pattern in Ep. destruct (negb _) in Ep; [congruence|]. destruct (forallb _ _) in Ep; congruence.
      + intros x [<- | []]; reflexivity. }
  destruct W as (A & B). unfold syncpr_train. rewrite A. cbn [fst snd]. split; [reflexivity|exact B].
Qed.
Print Assumptions C260_wrong_pattern.

Lemma store_float l q : In (VFloat q) l -> exists e, mapM (store c_int) l = Raise e.
Proof.
  induction l as [|v l IH]; [intros []|]. intros [-> | H]; rewrite mapM_cons; [cbn [store bind]; eauto|]. destruct (IH H) as (e & ->). destruct (store c_int v); cbn [bind]; eauto.
Qed.
Lemma store_int_raise l e : mapM (store c_int) l = Raise e -> e = TypeError.
Proof.
  induction l as [|v l IH]; [discriminate|]. rewrite mapM_cons. destruct v; cbn [store bind]; try congruence. destruct (mapM (store c_int) l); cbn [bind]; try discriminate. intro E. apply IH. congruence.
Qed.

(** a pattern in which a feature is a float is accepted by the check of patterns and refused by ctypes *)
Theorem C260_float_pattern lib size steps time order solution collect step pattern q : check_pattern size pattern = Ok tt -> In (VFloat q) pattern ->
  syncpr_simulate_static size steps time pattern solution collect = ([size_asked], Raise TypeError) /\
  syncpr_simulate_dynamic size pattern order solution collect step = ([size_asked], Raise TypeError) /\
  syncpr_memory_order lib size pattern = ([size_asked], Raise TypeError).
Proof.
  intros C H. assert (P : ints (VList pattern) = Raise TypeError).
  { unfold ints. destruct pattern as [|v t] eqn:E; [destruct H|]. cbn [create_package]. assert (S0 : is_container v = false).
    { unfold check_pattern in C. destruct (negb _); [discriminate|]. destruct (forallb is_feature (v :: t)) eqn:F; [|discriminate]. cbn [forallb] in F. destruct v; [reflexivity|reflexivity|discriminate]. }
    rewrite S0. cbn [scalar_type]. destruct (store_float (v :: t) q H) as (e & R). rewrite R. cbn [bind]. now rewrite (store_int_raise _ _ R). }
  unfold syncpr_simulate_static, syncpr_simulate_dynamic, syncpr_memory_order, with_pattern. rewrite C, P. repeat split.
Qed.
Print Assumptions C260_float_pattern.
Theorem C260_float_pattern_refuted : exists size pattern, check_pattern size pattern = Ok tt /\ pattern = [VFloat 1; VFloat (-1)] /\
  syncpr_train size [pattern] = ([size_asked], Raise TypeError) /\ forall steps time solution collect, snd (syncpr_simulate_static size steps time pattern solution collect) = Raise TypeError.
Proof. exists 2%Z, [VFloat 1; VFloat (-1)]. repeat split. Qed.
Print Assumptions C260_float_pattern_refuted.

Example C260_example : uint_range 5 /\ size_range 100 /\ (forall p, In p [[1; -1]; [-1; -1]]%Z -> Z.of_nat (length p) = 2%Z /\ forall z, In z p -> feature z) /\
  check_pattern 2 [VInt 1; VFloat (-1)] = Ok tt /\ In (VFloat (-1)) [VInt 1; VFloat (-1)] /\ wrong 2 [1; 0]%Z.
Proof.
  split; [split; [lia|reflexivity]|]. split; [split; [lia|reflexivity]|]. split; [|split; [reflexivity|split; [right; left; reflexivity|right; exists 0%Z; split; [right; left; reflexivity|intros [E | E]; discriminate E]]]].
  intros p [<- | [<- | []]]; (split; [reflexivity|]); intros z [<- | [<- | []]]; unfold feature; auto.
Qed.

(** ** C253.  The request of DBSCAN, and noise and clusters of its answer *)
Theorem C253_dbscan lib data eps neighbors matrix : size_range neighbors ->
  exists d, carries d (points data) /\ let args := [d; ADouble eps; ASize neighbors; type_arg matrix] in
  fst (w_dbscan lib (points data) eps neighbors (Some matrix)) = [Called "dbscan_algorithm" args; Freed "dbscan_algorithm"] /\
  (forall clusters noise, lib "dbscan_algorithm"%string args = clusters ++ [noise] -> (forall c, In c clusters -> c <> []) -> NoDup (concat clusters ++ noise) ->
     snd (w_dbscan lib (points data) eps neighbors (Some matrix)) = Ok (clusters, noise)).
Proof.
  intro H. destruct (doubles_carry data) as (k & E & C). exists (APackage k). split; [exact C|]. intro args. unfold w_dbscan. rewrite E. cbn [prepared convert_data_type fst snd]. rewrite size_id by exact H. split; [reflexivity|].
  intros clusters noise A N D. unfold args in A. unfold type_arg in A. rewrite A. apply C253_split; assumption.
Qed.
Print Assumptions C253_dbscan.
