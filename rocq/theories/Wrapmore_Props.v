(** The way to the C++ library and back, continued: C251 requests and answers, C252 messages, C253 the answer of DBSCAN,
    C254 metrics, C255 memory. *)
From Coq Require Import String Ascii.
From Verif Require Import Base Codec_Model Codec_Proofs Ccore_Model Wrapper_Model Wrapper_Props.
Local Open Scope nat_scope.

Lemma indexes_packed l : (forall z, In z l -> size_range z) -> exists k, sizes (indexes l) = Ok k /\ extract k = Ok (indexes l).
Proof.
  destruct l as [|z l]; intros H; [eexists; split; reflexivity|].
  assert (M : forall l, (forall z, In z l -> size_range z) -> mapM (store c_size_t) (map VInt l) = Ok (map CellInt l)).
  { clear. induction l as [|x l IH]; intros H; auto. cbn [map]. rewrite mapM_cons, IH by (intros; apply H; right; auto). cbn [store]. unfold wrap_unsigned. rewrite Z.mod_small by (apply H; left; auto). reflexivity. }
  exists (Package (length (map VInt (z :: l))) TSizeT (map CellInt (z :: l)) []). split.
  - unfold sizes, indexes. cbn [map create_package is_container scalar_type]. change (VInt z :: map VInt l) with (map VInt (z :: l)). rewrite M by auto. reflexivity.
  - rewrite extract_eq. cbn [map length]. rewrite !map_length, Nat.eqb_refl. cbn [map]. rewrite map_map. reflexivity.
Qed.
Lemma groups_packed ls : (forall l z, In l ls -> In z l -> size_range z) -> exists k, sizes (VList (map indexes ls)) = Ok k /\ extract k = Ok (VList (map indexes ls)).
Proof.
  destruct ls as [|p ls]; intros H; [eexists; split; reflexivity|].
  assert (M : forall l, (forall g z, In g l -> In z g -> size_range z) -> exists ks, mapM (create_package (Some c_size_t)) (map indexes l) = Ok ks /\ length ks = length l /\ mapM extract ks = Ok (map indexes l)).
  { clear. induction l as [|x l IH]; intros H; [exists []; auto|]. destruct IH as (ks & E1 & E2 & E3); [intros g z Hg; apply H; right; auto|]. destruct (indexes_packed x) as (k & F1 & F2); [intros z Hz; apply (H x); [left; auto|auto]|]. unfold sizes in F1. exists (k :: ks). cbn [map]. rewrite !mapM_cons, F1, E1, F2, E3. simpl. auto. }
  destruct (M (p :: ls) H) as (ks & E1 & E2 & E3). exists (Package (length (p :: ls)) TList [] ks). split.
  - unfold sizes. change (create_package (Some c_size_t) (VList (map indexes (p :: ls)))) with (do subs <- mapM (create_package (Some c_size_t)) (map indexes (p :: ls)); Ok (Package (length (map indexes (p :: ls))) TList [] subs)). rewrite E1. cbn [bind]. rewrite map_length. reflexivity.
  - rewrite extract_eq. cbn [length]. rewrite E2. cbn [length]. rewrite Nat.eqb_refl. unfold extract_all. rewrite E3. reflexivity.
Qed.
Lemma doubles_carry data : exists k, doubles (points data) = Ok k /\ carries (APackage k) (points data).
Proof. destruct (points_packed data) as (k & E & F). exists k. split; auto. exists k. auto. Qed.
Lemma sizes_carry l : (forall z, In z l -> size_range z) -> exists k, sizes (indexes l) = Ok k /\ carries (APackage k) (indexes l).
Proof. intros H. destruct (indexes_packed l H) as (k & E & F). exists k. split; auto. exists k. auto. Qed.
Lemma groups_carry ls : (forall l z, In l ls -> In z l -> size_range z) -> exists k, sizes (VList (map indexes ls)) = Ok k /\ carries (APackage k) (VList (map indexes ls)).
Proof. intros H. destruct (groups_packed ls H) as (k & E & F). exists k. split; auto. exists k. auto. Qed.

(** ** C251.  The library gets the data, the numbers and the metric of the user in its order, and the parts of its answer become the results. *)
Definition type_arg (matrix : bool) : carg := ASize (if matrix then 1 else 0).
Theorem C251_kmeans lib data centers tol itermax observe metric : size_range itermax ->
  exists d c, carries d (points data) /\ carries c (points centers) /\ let args := [d; c; ADouble tol; ASize itermax; ABool observe; metric] in
  let w := kmeans_by_library lib (points data) (points centers) tol itermax observe metric in
  fst w = [Called "kmeans_algorithm" args; Freed "kmeans_algorithm"] /\
  forall cl ce ecl ece e, lib "kmeans_algorithm"%string args = AValue (VList [cl; ce; ecl; ece; VList [e]]) ->
    snd w = Ok (AValue cl, AValue ce, if observe then Some (AValue ecl, AValue ece) else None, AValue e).
Proof.
  intros H. destruct (doubles_carry data) as (d & E & Cd). destruct (doubles_carry centers) as (c & E' & Cc). exists (APackage d), (APackage c). split; auto. split; auto. unfold kmeans_by_library, w_kmeans. rewrite E. cbn [prepared]. rewrite E'. cbn [prepared]. rewrite size_id by auto. split; [reflexivity|].
  intros cl ce ecl ece e L. unfold answered, ask. cbn [fst snd]. rewrite L. destruct observe; reflexivity.
Qed.
Print Assumptions C251_kmeans.
Theorem C251_kmedians lib data centers tol itermax metric : size_range itermax ->
  exists d c, carries d (points data) /\ carries c (points centers) /\ let args := [d; c; ADouble tol; ASize itermax; metric] in
  let w := w_kmedians lib (points data) (points centers) tol itermax metric in
  fst w = [Called "kmedians_algorithm" args; Freed "kmedians_algorithm"] /\
  forall cl ce rest, lib "kmedians_algorithm"%string args = AValue (VList (cl :: ce :: rest)) -> snd w = Ok (AValue cl, AValue ce).
Proof.
  intros H. destruct (doubles_carry data) as (d & E & Cd). destruct (doubles_carry centers) as (c & E' & Cc). exists (APackage d), (APackage c). split; auto. split; auto. unfold w_kmedians. rewrite E. cbn [prepared]. rewrite E'. cbn [prepared]. rewrite size_id by auto. split; [reflexivity|].
  intros cl ce rest L. unfold answered, ask. cbn [fst snd]. rewrite L. reflexivity.
Qed.
Print Assumptions C251_kmedians.
Theorem C251_kmedoids lib data medoids tol itermax metric matrix : size_range itermax -> (forall z, In z medoids -> size_range z) ->
  exists d c, carries d (points data) /\ carries c (indexes medoids) /\ let args := [d; c; ADouble tol; ASize itermax; metric; type_arg matrix] in
  let w := w_kmedoids lib (points data) (indexes medoids) tol itermax metric (Some matrix) in
  fst w = [Called "kmedoids_algorithm" args; Freed "kmedoids_algorithm"] /\
  forall cl me i dev, lib "kmedoids_algorithm"%string args = AValue (VList [cl; me; VList [i]; VList [dev]]) -> snd w = Ok (AValue cl, AValue me, AValue i, AValue dev).
Proof.
  intros H Hm. destruct (doubles_carry data) as (d & E & Cd). destruct (sizes_carry medoids Hm) as (c & E' & Cc). exists (APackage d), (APackage c). split; auto. split; auto. unfold w_kmedoids. rewrite E. cbn [prepared]. rewrite E'. cbn [prepared convert_data_type]. rewrite size_id by auto. split; [reflexivity|].
  intros cl me i dev L. unfold answered, ask. cbn [fst snd]. unfold type_arg in L. rewrite L. reflexivity.
Qed.
Print Assumptions C251_kmedoids.
Theorem C251_pam_build lib data amount metric matrix : size_range amount ->
  exists d, carries d (points data) /\ let args := [d; ASize amount; metric; type_arg matrix] in let w := w_pam_build lib (points data) amount metric (Some matrix) in
  fst w = [Called "pam_build_algorithm" args; Freed "pam_build_algorithm"] /\ forall me, lib "pam_build_algorithm"%string args = AValue (VList [me]) -> snd w = Ok (AValue me).
Proof.
  intros H. destruct (doubles_carry data) as (d & E & Cd). exists (APackage d). split; auto. unfold w_pam_build. rewrite E. cbn [prepared convert_data_type]. rewrite size_id by auto. split; [reflexivity|]. intros me L. unfold answered, ask. cbn [fst snd]. unfold type_arg in L. rewrite L. reflexivity.
Qed.
Print Assumptions C251_pam_build.
Theorem C251_sequential lib data amount t t2 metric name : size_range amount ->
  exists d, carries d (points data) /\
  (let args := [d; ASize amount; ADouble t; metric] in let w := w_bsas lib name (points data) amount t metric in
   fst w = [Called name args; Freed name] /\ forall cl re, lib name args = AValue (VList [cl; re]) -> snd w = Ok (AValue cl, AValue re)) /\
  (let args := [d; ADouble t; ADouble t2; metric] in let w := w_ttsas lib (points data) t t2 metric in
   fst w = [Called "ttsas_algorithm" args; Freed "ttsas_algorithm"] /\ forall cl re, lib "ttsas_algorithm"%string args = AValue (VList [cl; re]) -> snd w = Ok (AValue cl, AValue re)).
Proof.
  intros H. destruct (doubles_carry data) as (d & E & Cd). exists (APackage d). split; auto. unfold w_bsas, w_ttsas. rewrite E. cbn [prepared]. rewrite size_id by auto.
  split; (split; [reflexivity|]); intros cl re L; unfold answered, ask; cbn [fst snd]; rewrite L; reflexivity.
Qed.
Print Assumptions C251_sequential.
Theorem C251_clique lib data intervals threshold : size_range intervals -> size_range threshold ->
  exists d, carries d (points data) /\ let args := [d; ASize intervals; ASize threshold] in let w := w_clique lib (points data) intervals threshold in
  fst w = [Called "clique_algorithm" args; Freed "clique_algorithm"] /\
  forall cl no lo ma mi pt, lib "clique_algorithm"%string args = AValue (VList [cl; no; lo; ma; mi; pt]) -> snd w = Ok (map AValue [cl; no; lo; ma; mi; pt]).
Proof.
  intros H H'. destruct (doubles_carry data) as (d & E & Cd). exists (APackage d). split; auto. unfold w_clique. rewrite E. cbn [prepared]. rewrite !size_id by auto. split; [reflexivity|]. intros cl no lo ma mi pt L. unfold answered, ask. cbn [fst snd]. rewrite L. reflexivity.
Qed.
Print Assumptions C251_clique.
Theorem C251_elbow lib data kmin kmax kstep st z : size_range kmin -> size_range kmax -> size_range kstep -> z <> 0%Z -> long_range z ->
  exists d, carries d (points data) /\ let args := [d; ASize kmin; ASize kmax; ASize kstep; ALongLong z] in
  let name := match st with LibraryPlusPlus => "elbow_method_ikpp" | LibraryRandom => "elbow_method_irnd" end%string in let w := w_elbow lib (points data) kmin kmax kstep st (Some z) in
  fst w = [Called name args; Freed name] /\ forall a e, lib name args = AValue (VList [VList [a]; e]) -> snd w = Ok (AValue a, AValue e).
Proof.
  intros H H' H'' Hz Hr. destruct (doubles_carry data) as (d & E & Cd). exists (APackage d). split; auto. unfold w_elbow. rewrite E. cbn [prepared]. rewrite !size_id by auto. assert (S1 : longlong_arg (seed (Some z)) = ALongLong z) by (unfold seed; destruct (Z.eqb_spec z 0); [contradiction|]; apply long_id; auto). rewrite S1.
  split; [reflexivity|]. intros a e L. unfold answered, ask. cbn [fst snd]. rewrite L. reflexivity.
Qed.
Print Assumptions C251_elbow.
Theorem C251_optics lib data radius minpts amount matrix : size_range minpts -> (forall a, amount = Some a -> size_range a) ->
  exists d, carries d (points data) /\ let args := [d; ADouble radius; ASize minpts; ASize match amount with None => 0 | Some a => a end; type_arg matrix] in
  let w := w_optics lib (points data) radius minpts amount (Some matrix) in
  fst w = [Called "optics_algorithm" args; Freed "optics_algorithm"] /\
  forall cl no od r ix co re, lib "optics_algorithm"%string args = AValue (VList [cl; no; od; VList [r]; ix; co; re]) -> snd w = Ok (map AValue [cl; no; od; r; ix; co; re]).
Proof.
  intros H Ha. destruct (doubles_carry data) as (d & E & Cd). exists (APackage d). split; auto. unfold w_optics. rewrite E. cbn [prepared convert_data_type]. rewrite (size_id minpts) by auto.
  assert (A : size_arg match amount with None => 0%Z | Some a => a end = ASize match amount with None => 0 | Some a => a end) by (destruct amount; apply size_id; [apply Ha; auto|split; [discriminate|reflexivity]]). rewrite A.
  split; [reflexivity|]. intros cl no od r ix co re L. unfold answered, ask. cbn [fst snd]. unfold type_arg in L. rewrite L. reflexivity.
Qed.
Print Assumptions C251_optics.
(** the objects of OPTICS: a negative distance of the library is None *)
Theorem C251_optics_objects : forall ix co re l, optics_objects ix co re = Ok l -> length l = length ix /\
  forall k, k < length ix -> exists i a b, nth_error l k = Some (i, a, b) /\ nth_error ix k = Some i /\
    (exists c, nth_error co k = Some c /\ ((c < 0)%Q /\ a = None \/ (0 <= c)%Q /\ a = Some c)) /\ (exists r, nth_error re k = Some r /\ ((r < 0)%Q /\ b = None \/ (0 <= r)%Q /\ b = Some r)).
Proof.
  induction ix as [|i ix IH]; intros co re l H; cbn [optics_objects] in H; [apply Ok_inj in H; subst l; split; auto; simpl; lia|]. destruct co as [|c co]; [discriminate|]. destruct re as [|r re]; [discriminate|].
  destruct (optics_objects ix co re) as [t|] eqn:E; [|discriminate]. apply Ok_inj in H. subst l. destruct (IH _ _ _ E) as [L K]. split; [simpl; auto|]. intros [|k] Hk; [|simpl in Hk |- *; apply K; lia].
  unfold optics_object. eexists i, _, _. split; [reflexivity|]. split; [reflexivity|]. split.
  - exists c. split; auto. destruct (Qltb c 0) eqn:Q; [left; split; auto; apply Qltb_true; auto|right; split; auto; apply Qltb_false; auto].
  - exists r. split; auto. destruct (Qltb r 0) eqn:Q; [left; split; auto; apply Qltb_true; auto|right; split; auto; apply Qltb_false; auto].
Qed.
Print Assumptions C251_optics_objects.
Theorem C251_silhouette lib data clusters metric matrix : (forall l z, In l clusters -> In z l -> size_range z) ->
  exists d c, carries d (points data) /\ carries c (VList (map indexes clusters)) /\ let args := [d; c; metric; type_arg matrix] in
  w_silhouette lib (points data) (VList (map indexes clusters)) metric (Some matrix) = ([Called "silhouette_algorithm" args; Freed "silhouette_algorithm"], Ok (lib "silhouette_algorithm"%string args)).
Proof.
  intros H. destruct (doubles_carry data) as (d & E & Cd). destruct (groups_carry clusters H) as (c & E' & Cc). exists (APackage d), (APackage c). split; auto. split; auto. unfold w_silhouette. rewrite E. cbn [prepared]. rewrite E'. reflexivity.
Qed.
Print Assumptions C251_silhouette.
Theorem C251_ksearch lib data kmin kmax al z : size_range kmin -> size_range kmax -> size_range al -> z <> 0%Z -> long_range z ->
  exists d, carries d (points data) /\ let args := [d; ASize kmin; ASize kmax; ASize al; ALongLong z] in let name := "silhouette_ksearch_algorithm"%string in
  let w := w_ksearch lib (points data) kmin kmax al (Some z) in
  fst w = [Called name args; Freed name] /\ forall a s l, lib name args = AValue (VList [VList [a]; VList [s]; l]) -> snd w = Ok (AValue a, AValue s, AValue l).
Proof.
  intros H H' H'' Hz Hr. destruct (doubles_carry data) as (d & E & Cd). exists (APackage d). split; auto. unfold w_ksearch. rewrite E. cbn [prepared]. rewrite !size_id by auto. assert (S1 : longlong_arg (seed (Some z)) = ALongLong z) by (unfold seed; destruct (Z.eqb_spec z 0); [contradiction|]; apply long_id; auto). rewrite S1.
  split; [reflexivity|]. intros a s l L. unfold answered, ask. cbn [fst snd]. rewrite L. reflexivity.
Qed.
Print Assumptions C251_ksearch.
(** get_scores() of the search: the scores of kmin, kmin + 1, ... in the order of the answer *)
Theorem C251_scores kmin scores : map snd (ksearch_scores kmin scores) = scores /\ map fst (ksearch_scores kmin scores) = seq kmin (length scores).
Proof.
  unfold ksearch_scores. rewrite !map_map. cbn [fst snd]. split.
  - apply nth_ext with (d := 0%Q) (d' := 0%Q); [rewrite map_length, seq_length; auto|]. intros n Hn. rewrite map_length, seq_length in Hn. rewrite (nth_indep _ 0%Q (nth 0 scores 0%Q)) by (rewrite map_length, seq_length; auto). rewrite (map_nth (fun i => nth i scores 0%Q)), seq_nth by auto. reflexivity.
  - revert kmin. induction (length scores) as [|n IH]; intros k; auto. cbn [seq map]. rewrite Nat.add_0_r. f_equal. rewrite <- seq_shift, map_map. rewrite <- (IH (S k)). apply map_ext. intros; lia.
Qed.
Print Assumptions C251_scores.
Theorem C251_gmeans lib data kinit tol rep kmax z : size_range kinit -> size_range rep -> long_range kmax -> z <> 0%Z -> long_range z ->
  exists d, carries d (points data) /\ let args := [d; ASize kinit; ADouble tol; ASize rep; ALongLong kmax; ALongLong z] in let w := w_gmeans lib (points data) kinit tol rep kmax (Some z) in
  fst w = [Called "gmeans_algorithm" args; Freed "gmeans_algorithm"] /\ forall cl ce e, lib "gmeans_algorithm"%string args = AValue (VList [cl; ce; VList [e]]) -> snd w = Ok (AValue cl, AValue ce, AValue e).
Proof.
  intros H H' H'' Hz Hr. destruct (doubles_carry data) as (d & E & Cd). exists (APackage d). split; auto. unfold w_gmeans. rewrite E. cbn [prepared]. rewrite !size_id by auto. assert (S1 : longlong_arg (seed (Some z)) = ALongLong z) by (unfold seed; destruct (Z.eqb_spec z 0); [contradiction|]; apply long_id; auto). rewrite S1, long_id by auto.
  split; [reflexivity|]. intros cl ce e L. unfold answered, ask. cbn [fst snd]. rewrite L. reflexivity.
Qed.
Print Assumptions C251_gmeans.
Theorem C251_xmeans lib data centers kmax tol crit alpha beta rep z metric : size_range kmax -> uint_range crit -> size_range rep -> z <> 0%Z -> long_range z ->
  exists d c, carries d (points data) /\ carries c (points centers) /\
  let args := [d; c; ASize kmax; ADouble tol; AUInt crit; ADouble alpha; ADouble beta; ASize rep; ALongLong z; metric] in
  let w := xmeans_by_library lib (points data) (points centers) kmax tol crit alpha beta rep (Some z) metric in
  fst w = [Called "xmeans_algorithm" args; Freed "xmeans_algorithm"] /\ forall cl ce e, lib "xmeans_algorithm"%string args = AValue (VList [cl; ce; VList [e]]) -> snd w = Ok (AValue cl, AValue ce, AValue e).
Proof.
  intros H H' H'' Hz Hr. destruct (doubles_carry data) as (d & E & Cd). destruct (doubles_carry centers) as (c & E' & Cc). exists (APackage d), (APackage c). split; auto. split; auto. unfold xmeans_by_library, w_xmeans. rewrite E. cbn [prepared]. rewrite E'. cbn [prepared]. rewrite !size_id by auto. assert (S1 : longlong_arg (seed (Some z)) = ALongLong z) by (unfold seed; destruct (Z.eqb_spec z 0); [contradiction|]; apply long_id; auto). rewrite S1, uint_id by auto.
  split; [reflexivity|]. intros cl ce e L. unfold answered, ask. cbn [fst snd]. rewrite L. reflexivity.
Qed.
Print Assumptions C251_xmeans.
Theorem C251_fcm lib data centers m tol itermax : size_range itermax ->
  exists d c, carries d (points data) /\ carries c (points centers) /\ let args := [d; c; ADouble m; ADouble tol; ASize itermax] in let w := fcm_by_library lib (points data) (points centers) m tol itermax in
  fst w = [Called "fcm_algorithm" args; Freed "fcm_algorithm"] /\ forall cl ce me, lib "fcm_algorithm"%string args = AValue (VList [cl; ce; me]) -> snd w = Ok (AValue cl, AValue ce, AValue me).
Proof.
  intros H. destruct (doubles_carry data) as (d & E & Cd). destruct (doubles_carry centers) as (c & E' & Cc). exists (APackage d), (APackage c). split; auto. split; auto. unfold fcm_by_library, w_fcm. rewrite E. cbn [prepared]. rewrite E'. cbn [prepared]. rewrite size_id by auto. split; [reflexivity|].
  intros cl ce me L. unfold answered, ask. cbn [fst snd]. rewrite L. reflexivity.
Qed.
Print Assumptions C251_fcm.
Theorem C251_lists lib data amount link eps threshold : size_range amount -> size_range link ->
  exists d, carries d (points data) /\
  (let args := [d; ASize amount; ASize link] in w_agglomerative lib (points data) amount link = ([Called "agglomerative_algorithm" args; Freed "agglomerative_algorithm"], Ok (lib "agglomerative_algorithm"%string args))) /\
  (let args := [d; ADouble eps; ASize amount; ADouble threshold] in w_rock lib (points data) eps amount threshold = ([Called "rock_algorithm" args; Freed "rock_algorithm"], Ok (lib "rock_algorithm"%string args))).
Proof.
  intros H H'. destruct (doubles_carry data) as (d & E & Cd). exists (APackage d). split; auto. unfold w_agglomerative, w_rock. rewrite E. cbn [prepared]. rewrite !size_id by auto. split; reflexivity.
Qed.
Print Assumptions C251_lists.
Theorem C251_cure lib data amount represent compression : size_range amount -> size_range represent ->
  exists d, carries d (points data) /\ exists p, let w := cure_by_library lib (points data) amount represent compression in
  fst w = [Called "cure_algorithm" [d; ASize amount; ASize represent; ADouble compression]; Called "cure_get_clusters" [p]; Freed "cure_get_clusters";
           Called "cure_get_representors" [p]; Freed "cure_get_representors"; Called "cure_get_means" [p]; Freed "cure_get_means"; Called "cure_data_destroy" [p]] /\
  snd w = Ok (lib "cure_get_clusters"%string [p], lib "cure_get_representors"%string [p], lib "cure_get_means"%string [p]).
Proof.
  intros H H'. destruct (doubles_carry data) as (d & E & Cd). exists (APackage d). split; auto. exists (APointer "cure_algorithm"). unfold cure_by_library. rewrite E. cbn [prepared]. rewrite !size_id by auto. split; reflexivity.
Qed.
Print Assumptions C251_cure.
(** numbers outside the C types arrive as others: a negative number of iterations is a huge one *)
Theorem C251_negative_refuted : exists lib data centers args, fst (w_fcm lib (points data) (points centers) 2 1 (-1)) = [Called "fcm_algorithm" (args ++ [ASize 18446744073709551615]); Freed "fcm_algorithm"].
Proof. exists (fun _ _ => AValue (VList [])), [[0%Q]; [1%Q]], [[0%Q]]. eexists [_; _; _; _]. reflexivity. Qed.
Print Assumptions C251_negative_refuted.
Example C251_example : size_range 200 /\ uint_range 0 /\ long_range (-1) /\ snd (w_kmedoids (fun _ _ => AValue (VList [VList [indexes [0; 1]%Z]; indexes [1]%Z; indexes [2]%Z; VList [VFloat 1]])) (points [[0%Q]; [1%Q]]) (indexes [0%Z]) (1 # 1000) 200 (APointer "m") (Some false)) =
  Ok (AValue (VList [indexes [0; 1]%Z]), AValue (indexes [1]%Z), AValue (VInt 2), AValue (VFloat 1)).
Proof. repeat split; try discriminate; reflexivity. Qed.

(** ** C252.  A message of the library *)
Theorem C252_raised lib sample k1 k2 k3 metric t st s :
  (forall args, exists text, lib "clique_algorithm"%string args = AMessage text) -> (forall args, exists text, lib "pam_build_algorithm"%string args = AMessage text) ->
  (forall args, exists text, lib "elbow_method_ikpp"%string args = AMessage text) -> (forall args, exists text, lib "elbow_method_irnd"%string args = AMessage text) ->
  snd (w_clique lib (points sample) k1 k2) = Raise RuntimeError /\ snd (w_pam_build lib (points sample) k1 metric (Some t)) = Raise RuntimeError /\ snd (w_elbow lib (points sample) k1 k2 k3 st s) = Raise RuntimeError.
Proof.
  intros A B C D. destruct (doubles_carry sample) as (d & E & _). unfold w_clique, w_pam_build, w_elbow. rewrite E. cbn [prepared convert_data_type]. unfold answered, ask. cbn [snd]. split; [|split].
  - destruct (A [APackage d; size_arg k1; size_arg k2]) as (x & ->). reflexivity.
  - destruct (B [APackage d; size_arg k1; metric; ASize (if t then 1 else 0)]) as (x & ->). reflexivity.
  - destruct st; [destruct (C [APackage d; size_arg k1; size_arg k2; size_arg k3; longlong_arg (seed s)]) as (x & ->)|destruct (D [APackage d; size_arg k1; size_arg k2; size_arg k3; longlong_arg (seed s)]) as (x & ->)]; reflexivity.
Qed.
Print Assumptions C252_raised.
(** k-medoids never raises RuntimeError for a message: TypeError, or IndexError for less than three characters *)
Theorem C252_kmedoids lib data medoids tol itermax metric t : (forall z, In z medoids -> size_range z) -> (forall args, exists text, lib "kmedoids_algorithm"%string args = AMessage text) ->
  snd (w_kmedoids lib (points data) (indexes medoids) tol itermax metric (Some t)) = Raise TypeError \/ snd (w_kmedoids lib (points data) (indexes medoids) tol itermax metric (Some t)) = Raise IndexError.
Proof.
  intros Hm A. destruct (doubles_carry data) as (d & E & _). destruct (sizes_carry medoids Hm) as (c & E' & _). unfold w_kmedoids. rewrite E. cbn [prepared]. rewrite E'. cbn [prepared convert_data_type]. unfold answered, ask. cbn [snd].
  destruct (A [APackage d; APackage c; ADouble tol; size_arg itermax; metric; ASize (if t then 1 else 0)]) as (x & ->). unfold first_of, item. destruct x as [|a [|b [|e x]]]; simpl; auto.
Qed.
Print Assumptions C252_kmedoids.
Theorem C252_message_refuted : exists lib data medoids, (forall name args, lib name args = AMessage "Medoid is out of range.") /\
  snd (w_kmedoids lib (points data) (indexes medoids) 1 200 (APointer "m") (Some false)) = Raise TypeError.
Proof. exists (fun _ _ => AMessage "Medoid is out of range."), [[0%Q]; [1%Q]], [0%Z]. split; [reflexivity|reflexivity]. Qed.
Print Assumptions C252_message_refuted.
(** BSAS and the like would take the codes of the first two letters for clusters and representatives *)
Example C252_bsas : w_bsas (fun _ _ => AMessage "Oops") "bsas_algorithm" (points [[0%Q]]) 2 1 (APointer "m") = ([Called "bsas_algorithm" [APackage (Package 1 TList [] [Package 1 TDouble [CellDouble 0] []]); ASize 2; ADouble 1; APointer "m"]; Freed "bsas_algorithm"], Ok (AValue (VInt 79), AValue (VInt 111))).
Proof. reflexivity. Qed.

(** ** C253.  The last list of the answer of DBSCAN is the noise, the others are the clusters *)
Lemma remove_last {A} (eqb : A -> A -> bool) (x : A) l : eqb x x = true -> (forall y, In y l -> eqb y x = false) -> remove_value eqb x (l ++ [x]) = l.
Proof. intros R. induction l as [|y l IH]; intros H; simpl; [rewrite R; auto|]. rewrite H by (left; auto). rewrite IH; auto. intros; apply H; right; auto. Qed.
Theorem C253_split clusters noise : (forall c, In c clusters -> c <> []) -> NoDup (concat clusters ++ noise) -> split_noise (clusters ++ [noise]) = Ok (clusters, noise).
Proof.
  intros Hne N. unfold split_noise. rewrite rev_app_distr. cbn [rev app]. rewrite remove_last; [reflexivity|destruct (list_eq_dec Nat.eq_dec noise noise); congruence|].
  intros y Hy. destruct (list_eq_dec Nat.eq_dec y noise) as [->|]; auto. exfalso. specialize (Hne noise Hy). destruct noise as [|i noise]; [congruence|]. apply NoDup_app_inv in N as (_ & _ & D). apply (D i); [|left; auto]. apply in_concat. exists (i :: noise). split; auto. left; auto.
Qed.
Print Assumptions C253_split.
Example C253_example : split_noise [[0; 2]; [1; 3]; [4]] = Ok ([[0; 2]; [1; 3]], [4]) /\ split_noise [[0; 1]; []] = Ok ([[0; 1]], []).
Proof. split; reflexivity. Qed.

(** ** C254.  The metric: type and arguments reach the library *)
Theorem C254_metric t deg range : t <> USER_DEFINED -> (t = MINKOWSKI -> deg <> None) -> (t = GOWER -> range <> None) ->
  exists a, carries a (VList (map VFloat match t with MINKOWSKI => match deg with Some q => [q] | None => [] end | GOWER => match range with Some l => l | None => [] end | _ => [] end)) /\
    create_metric (mkMetric t deg range) = ([Called "metric_create" [ASize match t with EUCLIDEAN => 0 | EUCLIDEAN_SQUARE => 1 | MANHATTAN => 2 | CHEBYSHEV => 3 | MINKOWSKI => 4 | CANBERRA => 5 | CHI_SQUARE => 6 | GOWER => 7 | USER_DEFINED => 1000 end; a]], Ok (APointer "metric_create")).
Proof.
  intros Hu Hm Hg. assert (G : forall l, mapM (fun o => match o with Some q => Ok (VFloat q) | None => Raise TypeError end) (map Some l) = Ok (map VFloat l)) by (induction l as [|x l IH]; auto; cbn [map]; rewrite mapM_cons, IH; reflexivity).
  assert (K : forall l code, exists a, carries a (VList (map VFloat l)) /\ prepared (pack_arguments (Some (map Some l))) (fun p => ([Called "metric_create" [size_arg code; APackage p]], Ok (APointer "metric_create"))) = ([Called "metric_create" [size_arg code; a]], Ok (APointer "metric_create"))).
  { intros l code. destruct (row_packed l) as (k & E & F). exists (APackage k). split; [exists k; auto|]. unfold pack_arguments. rewrite G. cbn [bind]. rewrite E. reflexivity. }
  unfold create_metric, metric_arguments. cbn [mtype Wrapper_Model.degree max_range].
  destruct t; try congruence; try (destruct (K [] 0%Z) as (a & A & B); exists a; split; [exact A|]; unfold prepared in *; cbn [map pack_arguments mapM bind doubles create_package] in *; injection B as <-; reflexivity).
  - destruct deg as [q|]; [|exfalso; apply Hm; auto]. destruct (K [q] 4%Z) as (a & A & B). exists a. split; [exact A|]. exact B.
  - destruct range as [l|]; [|exfalso; apply Hg; auto]. destruct (K l 7%Z) as (a & A & B). exists a. split; [exact A|]. exact B.
Qed.
Print Assumptions C254_metric.
(** the degree of a Minkowski metric is optional (2) in python; without it the library cannot be asked *)
Theorem C254_minkowski_refuted : exists m, mtype m = MINKOWSKI /\ create_metric m = ([], Raise TypeError).
Proof. exists (mkMetric MINKOWSKI None None). split; reflexivity. Qed.
Print Assumptions C254_minkowski_refuted.
Example C254_example : create_metric (mkMetric MINKOWSKI (Some 4%Q) None) = ([Called "metric_create" [ASize 4; APackage (Package 1 TDouble [CellDouble 4] [])]], Ok (APointer "metric_create")).
Proof. reflexivity. Qed.

(** ** C255.  Packages are given back: once, whatever the answer is *)
Definition given_back (ev : list event) : Prop := ev = [] \/ exists name args, ev = [Called name args; Freed name].
Lemma given_prepared {X A} (r : res X) (k : X -> wrapped A) : (forall x, given_back (fst (k x))) -> given_back (fst (prepared r k)).
Proof. intros H. destruct r; simpl; auto. left. reflexivity. Qed.
Lemma given_asked {A} lib name args (k : answer -> res A) : given_back (fst (answered (ask lib name args) k)).
Proof. right. exists name, args. reflexivity. Qed.
Theorem C255_given_back lib s c q1 q2 z1 z2 z3 z4 b m t st seed_ name args :
  given_back (fst (w_kmeans lib s c q1 z1 b m)) /\ given_back (fst (w_kmedians lib s c q1 z1 m)) /\ given_back (fst (w_kmedoids lib s c q1 z1 m t)) /\ given_back (fst (w_pam_build lib s z1 m t)) /\
  given_back (fst (w_bsas lib name s z1 q1 m)) /\ given_back (fst (w_ttsas lib s q1 q2 m)) /\ given_back (fst (w_clique lib s z1 z2)) /\ given_back (fst (w_elbow lib s z1 z2 z3 st seed_)) /\
  given_back (fst (w_optics lib s q1 z1 seed_ t)) /\ given_back (fst (w_silhouette lib s c m t)) /\ given_back (fst (w_ksearch lib s z1 z2 z3 seed_)) /\ given_back (fst (w_agglomerative lib s z1 z2)) /\
  given_back (fst (w_gmeans lib s z1 q1 z2 z3 seed_)) /\ given_back (fst (w_xmeans lib s c z1 q1 z2 q1 q2 z4 seed_ m)) /\ given_back (fst (w_rock lib s q1 z1 q2)) /\ given_back (fst (w_fcm lib s c q1 q2 z1)) /\
  given_back (fst (getter lib name args)).
Proof. repeat split; repeat (apply given_prepared; intros); apply given_asked. Qed.
Print Assumptions C255_given_back.
(** the maps keep theirs: weights, awards, captured objects and neighbours *)
Theorem C255_som_refuted : exists lib, forall name, In name ["som_get_capture_objects"; "som_get_weights"; "som_get_awards"; "som_get_neighbors"]%string ->
  ~ given_back (fst (som_getter lib name)) /\ ~ In (Freed name) (fst (som_getter lib name)).
Proof. exists (fun _ _ => AValue (VList [])). intros name _. split; [intros [H|(n & a & H)]; discriminate|intros [H|[]]; discriminate]. Qed.
Print Assumptions C255_som_refuted.
Example C255_example : fst (w_rock (fun _ _ => AMessage "no") (points [[0%Q]]) 1 2 (1 # 2)) = [Called "rock_algorithm" [APackage (Package 1 TList [] [Package 1 TDouble [CellDouble 0] []]); ADouble 1; ASize 2; ADouble (1 # 2)]; Freed "rock_algorithm"].
Proof. reflexivity. Qed.
