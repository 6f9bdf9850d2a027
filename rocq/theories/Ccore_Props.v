(** C244: when the C++ library is used and when python; C245: what the classes make of it;
    C246: stored DBSCAN objects. *)
From Coq Require Import String.
From Verif Require Import Base Dbscan_Model Ccore_Model.
Open Scope nat_scope.

(** ** Specification *)
(** the machine has a library that fits *)
Definition fits (m : machine) : Prop :=
  known m = true /\ present m = true /\ (exists n, description m = Some n /\ 0 < n) /\ version m = Some "0.11.0"%string.
(** a file that is there can be loaded *)
Definition can_load (m : machine) : Prop := known m = true -> present m = true -> loadable m = true.
(** the answers of the library are asked for again and again, on a machine that may change between the calls *)
Fixpoint ask_again (ms : list machine) (l : library) : list (list warning * option bool) :=
  match ms with [] => [] | m :: t => let '(l', w, r) := workable m l in (w, r) :: ask_again t l' end.

(** ** C244 *)
Theorem C244_workable m : can_load m -> exists b w, (let '(_, w', r) := workable m fresh in w' = w /\ r = Some b) /\
  (b = true <-> fits m) /\ (b = true -> w = []) /\ (b = false -> length w = 1).
Proof.
  intro H. unfold workable, get, initialize, check_integrity, check_version, fits, can_load, wanted_version in *. cbn [initialized loaded fresh negb works].
  destruct m as [k p lo d v]. cbn [known present loadable description version] in *.
  destruct k; cbn [negb].
  2:{ exists false, [NotSupported]. repeat split; try reflexivity; try discriminate. intros (E & _). discriminate. }
  destruct p; cbn [negb].
  2:{ exists false, [NotFound]. repeat split; try reflexivity; try discriminate. intros (_ & E & _). discriminate. }
  rewrite (H eq_refl eq_refl). cbn [negb]. destruct d as [n|]; [destruct (Nat.ltb_spec 0 n) as [Hn|Hn]|]; cbn [works negb loaded initialized].
  - destruct v as [v|]; cbn [works negb].
    + destruct (String.eqb_spec v "0.11.0"%string) as [E|E]; cbn [works negb].
      * subst v. exists true, []. repeat split; try reflexivity; try discriminate. exists n. auto.
      * exists false, [OtherVersion "unknown" "0.11.0"]. repeat split; try reflexivity; try discriminate. intros (_ & _ & _ & [= E']). contradiction.
    + exists false, [OtherVersion "unknown" "0.11.0"]. repeat split; try reflexivity; try discriminate. intros (_ & _ & _ & E). discriminate.
  - exists false, [NotCompatible]. repeat split; try reflexivity; try discriminate. intros (_ & _ & (n' & [= <-] & W) & _). lia.
  - exists false, [NotCompatible]. repeat split; try reflexivity; try discriminate. intros (_ & _ & (n' & W & _) & _). discriminate.
Qed.
Print Assumptions C244_workable.

(** the first answer is kept, whatever happens to the machine, and only the first one comes with a warning *)
Lemma kept ms l : initialized l = true -> ask_again ms l = map (fun _ => ([], Some (works l))) ms.
Proof. intro H. induction ms as [|m t IH]; cbn [ask_again map]; [reflexivity|]. unfold workable. rewrite H. cbn [negb]. now rewrite IH. Qed.

Lemma initialize_marks m l : initialized (fst (fst (initialize m l))) = true.
Proof.
  unfold initialize, check_integrity, check_version. destruct m as [k p lo d v], l as [a b c]. cbn [known present loadable description version loaded works initialized].
  destruct k, p, lo; cbn [negb fst initialized]; try reflexivity.
  destruct d as [n|]; [destruct (0 <? n)|]; cbn [works negb fst initialized loaded]; try reflexivity; [| destruct b]; cbn [negb fst initialized]; try reflexivity; destruct v as [v|]; cbn [works negb fst]; try destruct (String.eqb v wanted_version); reflexivity.
Qed.

Theorem C244_kept m ms : can_load m -> exists b, ask_again (m :: ms) fresh = (snd (fst (workable m fresh)), Some b) :: map (fun _ => ([], Some b)) ms.
Proof.
  intro H. destruct (C244_workable m H) as (b & w & W & _). cbn [ask_again]. pose proof (initialize_marks m fresh) as I.
  unfold workable, get in *. cbn [initialized loaded fresh negb] in *. destruct (initialize m fresh) as [[l' w'] ok]. cbn [fst snd] in *.
  destruct ok; cbn [fst snd] in *; [|destruct W; discriminate]. destruct W as (-> & [= <-]). exists (works l'). now rewrite kept by exact I.
Qed.
Print Assumptions C244_kept.

(** a file that is no library for this machine: the first question ends in OSError, later ones are answered without a word *)
Theorem C244_broken_file_refuted : exists m, ~ fits m /\ ask_again [m; m] fresh = [([], None); ([], Some false)].
Proof. exists (mkMachine true true false None None). split; [intros (_ & _ & (n & H & _) & _); discriminate|reflexivity]. Qed.
Print Assumptions C244_broken_file_refuted.

(** the warning about another version does not say which *)
Theorem C244_version_refuted : exists m v, version m = Some v /\ v <> "0.11.0"%string /\ snd (fst (workable m fresh)) = [OtherVersion "unknown" "0.11.0"] /\ v <> "unknown"%string.
Proof. exists (mkMachine true true true (Some 5) (Some "0.10.1"%string)), "0.10.1"%string. repeat split; discriminate. Qed.
Print Assumptions C244_version_refuted.

Example C244_example : can_load (mkMachine true true true (Some 5) (Some "0.11.0"%string)) /\
  ask_again [mkMachine true true true (Some 5) (Some "0.11.0"%string); mkMachine true false false None None] fresh = [([], Some true); ([], Some true)] /\
  ask_again [mkMachine true false true None None; mkMachine true true true (Some 5) (Some "0.11.0"%string)] fresh = [([NotFound], Some false); ([], Some false)].
Proof. split; [intros _ _; reflexivity|]. split; reflexivity. Qed.

(** ** C245: the argument [ccore] *)
(** classes that can be given a metric *)
Definition has_metric (c : user_class) : Prop :=
  c = Kmeans \/ c = Kmedians \/ c = Kmedoids \/ c = PamBuild \/ c = Bsas \/ c = Mbsas \/ c = Ttsas \/ c = Silhouette \/ c = Xmeans.
(** the usual way: a class as initializer *)
Definition usual (c : user_class) : Prop := c <> Elbow StartPlusPlusObject /\ c <> Elbow StartRandomObject.

(** ccore=False or a metric of the user: python code, and the library is not even looked for *)
Theorem C245_python m l c ccore user_metric : usual c -> ccore = false \/ (has_metric c /\ user_metric = true) ->
  construct m l c ccore user_metric = (l, [], Some false).
Proof.
  intros (U1 & U2) H. assert (A : asks c ccore user_metric = false).
  { destruct H as [-> |(H & ->)]; [destruct c as [| | | | | | | [] | | | | | | | | | | | | | | | | | | | | | ]; try reflexivity; congruence|].
    unfold has_metric in H. intuition (subst c; cbn [asks]); apply Bool.andb_false_r. }
  unfold construct. rewrite A. reflexivity.
Qed.
Print Assumptions C245_python.

(** otherwise the library is used exactly if it fits *)
Theorem C245_library m c ccore user_metric : can_load m -> ccore = true -> (has_metric c -> user_metric = false) ->
  exists b, snd (construct m fresh c ccore user_metric) = Some b /\ (b = true <-> fits m).
Proof.
  intros Hm -> Hu. assert (A : asks c true user_metric = true).
  { destruct c as [| | | | | | | [] | | | | | | | | | | | | | | | | | | | | | ]; cbn [asks]; try reflexivity; rewrite Hu by (unfold has_metric; tauto); reflexivity. }
  unfold construct. rewrite A. destruct (C244_workable m Hm) as (b & w & W & E & _). exists b. split; [|exact E]. destruct (workable m fresh) as [[l' w'] r]. cbn [snd]. tauto.
Qed.
Print Assumptions C245_library.

(** elbow: what the user gave to choose the centres does not reach the library *)
Theorem C245_elbow_ignores_initializer_refuted : exists m, can_load m /\ fits m /\ snd (construct m fresh (Elbow StartClass) true false) = Some true /\
  elbow_start StartClass = LibraryRandom.
Proof. exists (mkMachine true true true (Some 5) (Some "0.11.0"%string)). split; [intros _ _; reflexivity|]. split; [repeat split; try reflexivity; exists 5; split; [reflexivity|lia]|]. split; reflexivity. Qed.
Print Assumptions C245_elbow_ignores_initializer_refuted.

(** elbow with an object as initializer uses the library though ccore=False *)
Theorem C245_elbow_object_refuted : exists m, snd (construct m fresh (Elbow StartPlusPlusObject) false false) = Some true.
Proof. exists (mkMachine true true true (Some 5) (Some "0.11.0"%string)). reflexivity. Qed.
Print Assumptions C245_elbow_object_refuted.

Example C245_example : usual Kmeans /\ has_metric Kmeans /\ usual (Elbow StartClass) /\
  construct (mkMachine true true true (Some 5) (Some "0.11.0"%string)) fresh Kmeans true true = (fresh, [], Some false) /\
  snd (construct (mkMachine true true true (Some 5) (Some "0.11.0"%string)) fresh Kmeans true false) = Some true.
Proof. split; [split; discriminate|]. split; [left; reflexivity|]. split; [split; discriminate|]. split; reflexivity. Qed.

(** ** C246: stored objects of DBSCAN *)
(** what a user can ask an object of DBSCAN for *)
Definition same_object (o o' : dbobject) : Prop :=
  db_data o' = db_data o /\ db_eps o' = db_eps o /\ db_minpts o' = db_minpts o /\ db_clusters o' = db_clusters o /\ db_noise o' = db_noise o.

(** the restored object has the results and parameters of the stored one; stored again it gives the same state but for the last
    attribute, ccore; without the library it continues as the stored one would *)
Theorem C246_restored m l o : can_load m -> l = fresh \/ initialized l = true -> exists o', snd (setstate m l (getstate o)) = Some o' /\ same_object o o' /\
  fst (getstate o') = fst (getstate o) /\ (snd (workable m l) = Some false -> db_process o' = ByPython (process_python o)).
Proof.
  intros Hm Hl. assert (W : exists b, snd (workable m l) = Some b).
  { destruct Hl as [-> |Hl]; [destruct (C244_workable m Hm) as (b & w & W & _); exists b; destruct (workable m fresh) as [[? ?] ?]; apply W|]. unfold workable. rewrite Hl. cbn. eauto. }
  destruct W as (b & W). unfold setstate, getstate. destruct (workable m l) as [[l' w] r]. cbn [snd] in *. subst r. eexists. split; [reflexivity|]. split; [repeat split; reflexivity|]. split; [reflexivity|].
  intros [= ->]. reflexivity.
Qed.
Print Assumptions C246_restored.

(** an object made with ccore=False works with the library after it was stored and loaded *)
Theorem C246_same_code_refuted : exists m o o', can_load m /\ db_ccore o = false /\ snd (setstate m fresh (getstate o)) = Some o' /\
  db_process o = ByPython (Ok ([[0; 1]], [2])) /\ db_process o' = ByLibrary (db_data o) (db_eps o) (db_minpts o).
Proof.
  exists (mkMachine true true true (Some 5) (Some "0.11.0"%string)), (mkDb (DbPoints [[0]; [1]; [5]]%Q) 1 1 [] [] [] [] false), (mkDb (DbPoints [[0]; [1]; [5]]%Q) 1 1 [] [] [] [] true).
  split; [intros _ _; reflexivity|]. split; [reflexivity|]. split; [reflexivity|]. split; [vm_compute; reflexivity|reflexivity].
Qed.
Print Assumptions C246_same_code_refuted.

Example C246_example : can_load (mkMachine true false true None None) /\
  match snd (setstate (mkMachine true false true None None) fresh (getstate (mkDb (DbPoints [[0]; [1]; [5]]%Q) 1 1 [] [] [[0; 1]] [2] false))) with
  | Some o' => db_clusters o' = [[0; 1]] /\ db_process o' = ByPython (Ok ([[0; 1]; [0; 1]], [2; 2])) | None => False end.
Proof. split; [intros _ _; reflexivity|]. split; [reflexivity|vm_compute; reflexivity]. Qed.
