(** core/*_wrapper.py: what the C++ library is asked and what is made of its answers.  The library itself is any function from requests to
    answers.  Memory is a log: each package that the library hands out and that is given back leaves an entry. *)
From Coq Require Import String Ascii.
From Verif Require Import Base Codec_Model Ccore_Model.

(** arguments of a foreign function: packages, numbers with their C type, pointers handed out by the library before;
    core/kmeans_wrapper.py:24-26 and the like *)
Inductive carg :=
| APackage (p : package) | ADouble (q : Q) | ASize (z : Z) | AUInt (z : Z) | ALongLong (z : Z) | ABool (b : bool)
| APointer (origin : string) | AStruct (fields : list (string * value)).
(** what package_extractor(package).extract() gives: nested lists of numbers, or the bytes of a message;
    core/pyclustering_package.py:265-303 *)
Inductive answer := AValue (v : value) | AMessage (text : string).
(** a call of the library, a package given back (free_pyclustering_package); core/kmeans_wrapper.py:24-29 and the like *)
Inductive event := Called (name : string) (args : list carg) | Freed (name : string).
(** the library: its answers; core/kmeans_wrapper.py:22-25 *)
Definition answers := string -> list carg -> answer.

(** core/kmeans_wrapper.py:22-29 and the like: call, extraction of the package, release of the package *)
Definition ask (lib : answers) (name : string) (args : list carg) : list event * answer := ([Called name args; Freed name], lib name args).
(** core/som_wrapper.py:178-184 and the like: the package is not given back *)
Definition ask_only (lib : answers) (name : string) (args : list carg) : list event * answer := ([Called name args], lib name args).

(** results[i] of a list, of bytes (the code of a character) or of a number; core/kmeans_wrapper.py:31 and the like *)
Definition item (a : answer) (i : nat) : res answer :=
  match a with
  | AValue (VList l) => match nth_error l i with Some v => Ok (AValue v) | None => Raise IndexError end
  | AValue _ => Raise TypeError
  | AMessage text => match String.get i text with Some c => Ok (AValue (VInt (Z.of_nat (nat_of_ascii c)))) | None => Raise IndexError end
  end.

(** c_size_t(x), c_uint(x), c_longlong(x) of a python int; core/gmeans_wrapper.py:24 *)
Definition size_arg (z : Z) : carg := ASize (wrap_unsigned 64 z).
(** c_uint(x); core/xmeans_wrapper.py:27 *)
Definition uint_arg (z : Z) : carg := AUInt (wrap_unsigned 32 z).
(** c_longlong(x); core/gmeans_wrapper.py:24 *)
Definition longlong_arg (z : Z) : carg := ALongLong (wrap_signed 64 z).
(** random_state or -1; core/gmeans_wrapper.py:18, core/xmeans_wrapper.py:19, core/elbow_wrapper.py:31, core/silhouette_wrapper.py:41,
    core/som_wrapper.py:61 *)
Definition seed (random_state : option Z) : Z := match random_state with None => (-1)%Z | Some z => if (z =? 0)%Z then (-1)%Z else z end.
(** package_builder(x, c_double).create(); core/kmeans_wrapper.py:19 *)
Definition doubles (v : value) : res package := create_package (Some c_double) v.
(** package_builder(x, c_size_t).create(); core/kmedoids_wrapper.py:21 *)
Definition sizes (v : value) : res package := create_package (Some c_size_t) v.
(** a wrapper: what happened, and the result; core/kmeans_wrapper.py:18-31 and the like *)
Definition wrapped (A : Type) : Type := (list event * res A)%type.
(** the preparation of arguments precedes the call: an exception there leaves no trace; core/kmeans_wrapper.py:19-20 *)
Definition prepared {X A : Type} (r : res X) (k : X -> wrapped A) : wrapped A := match r with Ok x => k x | Raise e => ([], Raise e) end.
(** the call and what is made of the answer; core/kmeans_wrapper.py:25-31 *)
Definition answered {A : Type} (c : list event * answer) (k : answer -> res A) : wrapped A := (fst c, k (snd c)).
(** isinstance(results, bytes); core/clique_wrapper.py:37-38, core/elbow_wrapper.py:47-48, core/pam_build_wrapper.py:30-31 *)
Definition refuse_message {A : Type} (a : answer) (k : answer -> res A) : res A := match a with AMessage _ => Raise RuntimeError | _ => k a end.
(** result[i][0]; core/kmedoids_wrapper.py:32 *)
Definition first_of (a : answer) (i : nat) : res answer := do x <- item a i; item x 0.
(** core/converter.py:15-18 convert_data_type; None stands for any other word *)
Definition convert_data_type (t : option bool) : res carg := match t with Some matrix => Ok (ASize (if matrix then 1 else 0)) | None => Raise TypeError end.

(** ** clustering *)
(** core/kmeans_wrapper.py:18-31 *)
Definition w_kmeans (lib : answers) (sample centers : value) (tolerance : Q) (itermax : Z) (observe : bool) (metric : carg) : wrapped answer :=
  prepared (doubles sample) (fun d => prepared (doubles centers) (fun c =>
  answered (ask lib "kmeans_algorithm" [APackage d; APackage c; ADouble tolerance; size_arg itermax; ABool observe; metric]) Ok)).
(** core/kmedians_wrapper.py:18-30 *)
Definition w_kmedians (lib : answers) (sample centers : value) (tolerance : Q) (itermax : Z) (metric : carg) : wrapped (answer * answer) :=
  prepared (doubles sample) (fun d => prepared (doubles centers) (fun c =>
  answered (ask lib "kmedians_algorithm" [APackage d; APackage c; ADouble tolerance; size_arg itermax; metric])
    (fun r => do a <- item r 0; do b <- item r 1; Ok (a, b)))).
(** core/kmedoids_wrapper.py:19-32 *)
Definition w_kmedoids (lib : answers) (sample medoids : value) (tolerance : Q) (itermax : Z) (metric : carg) (data_type : option bool) : wrapped (answer * answer * answer * answer) :=
  prepared (doubles sample) (fun d => prepared (sizes medoids) (fun c => prepared (convert_data_type data_type) (fun t =>
  answered (ask lib "kmedoids_algorithm" [APackage d; APackage c; ADouble tolerance; size_arg itermax; metric; t])
    (fun r => do a <- item r 0; do b <- item r 1; do i <- first_of r 2; do e <- first_of r 3; Ok (a, b, i, e))))).
(** core/pam_build_wrapper.py:19-33 *)
Definition w_pam_build (lib : answers) (sample : value) (amount : Z) (metric : carg) (data_type : option bool) : wrapped answer :=
  prepared (doubles sample) (fun d => prepared (convert_data_type data_type) (fun t =>
  answered (ask lib "pam_build_algorithm" [APackage d; size_arg amount; metric; t]) (fun r => refuse_message r (fun r => item r 0)))).
(** core/bsas_wrapper.py:18-29, core/mbsas_wrapper.py:18-29; [name] is "bsas_algorithm" or "mbsas_algorithm" *)
Definition w_bsas (lib : answers) (name : string) (sample : value) (amount : Z) (threshold : Q) (metric : carg) : wrapped (answer * answer) :=
  prepared (doubles sample) (fun d =>
  answered (ask lib name [APackage d; size_arg amount; ADouble threshold; metric]) (fun r => do a <- item r 0; do b <- item r 1; Ok (a, b))).
(** core/ttsas_wrapper.py:18-29 *)
Definition w_ttsas (lib : answers) (sample : value) (threshold1 threshold2 : Q) (metric : carg) : wrapped (answer * answer) :=
  prepared (doubles sample) (fun d =>
  answered (ask lib "ttsas_algorithm" [APackage d; ADouble threshold1; ADouble threshold2; metric]) (fun r => do a <- item r 0; do b <- item r 1; Ok (a, b))).
(** core/clique_wrapper.py:26-45: clusters, noise, logical locations, maximal corners, minimal corners, points of the blocks *)
Definition w_clique (lib : answers) (sample : value) (intervals threshold : Z) : wrapped (list answer) :=
  prepared (doubles sample) (fun d =>
  answered (ask lib "clique_algorithm" [APackage d; size_arg intervals; size_arg threshold]) (fun r => refuse_message r (fun r => mapM (item r) [0; 1; 2; 3; 4; 5]))).
(** list.remove(x): the first element equal to x goes; core/dbscan_wrapper.py:31 *)
Fixpoint remove_value {A : Type} (eqb : A -> A -> bool) (x : A) (l : list A) : list A :=
  match l with [] => [] | y :: t => if eqb y x then t else y :: remove_value eqb x t end.
(** the lists of indexes that dbscan sends; core/dbscan_wrapper.py:30-33 *)
Definition split_noise (l : list (list nat)) : res (list (list nat) * list nat) :=
  match rev l with
  | [] => Raise IndexError
  | noise :: _ => Ok (remove_value (fun a b => if list_eq_dec Nat.eq_dec a b then true else false) noise l, noise)
  end.
(** core/elbow_wrapper.py:30-51; the initializer is one of the two that elbow.py:141-144 passes *)
Definition w_elbow (lib : answers) (sample : value) (kmin kmax kstep : Z) (initializer : library_start) (random_state : option Z) : wrapped (answer * answer) :=
  prepared (doubles sample) (fun d =>
  answered (ask lib match initializer with LibraryPlusPlus => "elbow_method_ikpp" | LibraryRandom => "elbow_method_irnd" end%string
                [APackage d; size_arg kmin; size_arg kmax; size_arg kstep; longlong_arg (seed random_state)])
    (fun r => refuse_message r (fun r => do a <- first_of r 0; do b <- item r 1; Ok (a, b)))).
(** core/optics_wrapper.py:28-50: clusters, noise, ordering, radius, and indexes, core distances and reachability distances of the objects *)
Definition w_optics (lib : answers) (sample : value) (radius : Q) (minpts : Z) (amount : option Z) (data_type : option bool) : wrapped (list answer) :=
  prepared (doubles sample) (fun d => prepared (convert_data_type data_type) (fun t =>
  answered (ask lib "optics_algorithm" [APackage d; ADouble radius; size_arg minpts; size_arg match amount with None => 0%Z | Some a => a end; t])
    (fun r => do x <- mapM (item r) [0; 1; 2]; do e <- first_of r 3; do y <- mapM (item r) [4; 5; 6]; Ok (x ++ [e] ++ y)))).
(** core/silhouette_wrapper.py:25-37 *)
Definition w_silhouette (lib : answers) (sample clusters : value) (metric : carg) (data_type : option bool) : wrapped answer :=
  prepared (doubles sample) (fun d => prepared (sizes clusters) (fun c => prepared (convert_data_type data_type) (fun t =>
  answered (ask lib "silhouette_algorithm" [APackage d; APackage c; metric; t]) Ok))).
(** core/silhouette_wrapper.py:40-53: amount, score, scores *)
Definition w_ksearch (lib : answers) (sample : value) (kmin kmax allocator : Z) (random_state : option Z) : wrapped (answer * answer * answer) :=
  prepared (doubles sample) (fun d =>
  answered (ask lib "silhouette_ksearch_algorithm" [APackage d; size_arg kmin; size_arg kmax; size_arg allocator; longlong_arg (seed random_state)])
    (fun r => do a <- first_of r 0; do s <- first_of r 1; do l <- item r 2; Ok (a, s, l))).
(** core/agglomerative_wrapper.py:16-26 *)
Definition w_agglomerative (lib : answers) (sample : value) (amount link : Z) : wrapped answer :=
  prepared (doubles sample) (fun d => answered (ask lib "agglomerative_algorithm" [APackage d; size_arg amount; size_arg link]) Ok).
(** core/gmeans_wrapper.py:17-29 *)
Definition w_gmeans (lib : answers) (sample : value) (kinit : Z) (tolerance : Q) (repeat_ kmax : Z) (random_state : option Z) : wrapped (answer * answer * answer) :=
  prepared (doubles sample) (fun d =>
  answered (ask lib "gmeans_algorithm" [APackage d; size_arg kinit; ADouble tolerance; size_arg repeat_; longlong_arg kmax; longlong_arg (seed random_state)])
    (fun r => do a <- item r 0; do b <- item r 1; do e <- first_of r 2; Ok (a, b, e))).
(** core/xmeans_wrapper.py:18-33 *)
Definition w_xmeans (lib : answers) (sample centers : value) (kmax : Z) (tolerance : Q) (criterion : Z) (alpha beta : Q) (repeat_ : Z) (random_state : option Z) (metric : carg) : wrapped answer :=
  prepared (doubles sample) (fun d => prepared (doubles centers) (fun c =>
  answered (ask lib "xmeans_algorithm" [APackage d; APackage c; size_arg kmax; ADouble tolerance; uint_arg criterion; ADouble alpha; ADouble beta; size_arg repeat_; longlong_arg (seed random_state); metric]) Ok)).
(** core/rock_wrapper.py:17-41 *)
Definition w_rock (lib : answers) (sample : value) (eps : Q) (amount : Z) (threshold : Q) : wrapped answer :=
  prepared (doubles sample) (fun d => answered (ask lib "rock_algorithm" [APackage d; ADouble eps; size_arg amount; ADouble threshold]) Ok).
(** core/fcm_wrapper.py:24-36 *)
Definition w_fcm (lib : answers) (sample centers : value) (m tolerance : Q) (itermax : Z) : wrapped answer :=
  prepared (doubles sample) (fun d => prepared (doubles centers) (fun c =>
  answered (ask lib "fcm_algorithm" [APackage d; APackage c; ADouble m; ADouble tolerance; size_arg itermax]) Ok)).
(** cluster/cure.py:155-162 with core/cure_wrapper.py:17-65: clusters, representors, means; the data of the library is destroyed at the end *)
Definition cure_by_library (lib : answers) (sample : value) (amount represent : Z) (compression : Q) : wrapped (answer * answer * answer) :=
  prepared (doubles sample) (fun d =>
    let p := APointer "cure_algorithm" in
    let c := ask lib "cure_get_clusters" [p] in let r := ask lib "cure_get_representors" [p] in let m := ask lib "cure_get_means" [p] in
    ([Called "cure_algorithm" [APackage d; size_arg amount; size_arg represent; ADouble compression]] ++ fst c ++ fst r ++ fst m ++ [Called "cure_data_destroy" [p]],
     Ok (snd c, snd r, snd m))).

(** ** what the objects keep of the answers *)
(** cluster/kmeans.py:396-409: clusters, centers, evolution of clusters, evolution of centers (None without an observer), total error *)
Definition kmeans_by_library (lib : answers) (sample centers : value) (tolerance : Q) (itermax : Z) (observe : bool) (metric : carg) : wrapped (answer * answer * option (answer * answer) * answer) :=
  let w := w_kmeans lib sample centers tolerance itermax observe metric in
  (fst w, do r <- snd w; do a <- item r 0; do b <- item r 1; do o <- (if observe then do x <- item r 2; do y <- item r 3; Ok (Some (x, y)) else Ok None); do e <- first_of r 4; Ok (a, b, o, e)).
(** cluster/xmeans.py:230-240 *)
Definition xmeans_by_library (lib : answers) (sample centers : value) (kmax : Z) (tolerance : Q) (criterion : Z) (alpha beta : Q) (repeat_ : Z) (random_state : option Z) (metric : carg) : wrapped (answer * answer * answer) :=
  let w := w_xmeans lib sample centers kmax tolerance criterion alpha beta repeat_ random_state metric in
  (fst w, do r <- snd w; do a <- item r 0; do b <- item r 1; do e <- first_of r 2; Ok (a, b, e)).
(** cluster/fcm.py:198-202 *)
Definition fcm_by_library (lib : answers) (sample centers : value) (m tolerance : Q) (itermax : Z) : wrapped (answer * answer * answer) :=
  let w := w_fcm lib sample centers m tolerance itermax in (fst w, do r <- snd w; do a <- item r 0; do b <- item r 1; do e <- item r 2; Ok (a, b, e)).
(** cluster/optics.py:446-456: index, core distance and reachability of one object; negative numbers stand for None *)
Definition optics_object (i : nat) (core reach : Q) : nat * option Q * option Q :=
  (i, if Qltb core 0 then None else Some core, if Qltb reach 0 then None else Some reach).
(** cluster/optics.py:446-456 *)
Fixpoint optics_objects (is_ : list nat) (cores reaches : list Q) : res (list (nat * option Q * option Q)) :=
  match is_, cores, reaches with
  | [], _, _ => Ok []
  | i :: is', c :: cs, r :: rs => do t <- optics_objects is' cs rs; Ok (optics_object i c r :: t)
  | _, _, _ => Raise IndexError
  end.
(** cluster/silhouette.py:477-480: the score of kmin + i is the i-th of the list *)
Definition ksearch_scores (kmin : nat) (scores : list Q) : list (nat * Q) := map (fun i => (kmin + i, nth i scores 0%Q))%nat (seq 0 (length scores)).

(** ** metrics *)
(** utils/metric.py:18-48 type_metric *)
Inductive metric_type := EUCLIDEAN | EUCLIDEAN_SQUARE | MANHATTAN | CHEBYSHEV | MINKOWSKI | CANBERRA | CHI_SQUARE | GOWER | USER_DEFINED.
(** utils/metric.py:24-48: the values of the enumeration *)
Definition metric_code (t : metric_type) : Z :=
  match t with EUCLIDEAN => 0 | EUCLIDEAN_SQUARE => 1 | MANHATTAN => 2 | CHEBYSHEV => 3 | MINKOWSKI => 4 | CANBERRA => 5 | CHI_SQUARE => 6 | GOWER => 7 | USER_DEFINED => 1000 end.
(** utils/metric.py:94-124: type and named arguments of a distance_metric.  The construction of a Gower metric leaves the ranges
    among the arguments (utils/metric.py:246-253), or fails. *)
Record metric_object := mkMetric { mtype : metric_type; degree : option Q; max_range : option (list Q) }.
(** the arguments that go to the library; None in the list is python's None; core/metric_wrapper.py:57-66 *)
Definition metric_arguments (m : metric_object) : option (list (option Q)) :=
  match mtype m with
  | MINKOWSKI => Some [degree m]
  | GOWER => match max_range m with Some l => Some (map Some l) | None => None end
  | _ => Some []
  end.
(** package_builder(arguments, c_double).create(): ctypes refuses None as a double; core/metric_wrapper.py:28 *)
Definition pack_arguments (l : option (list (option Q))) : res package :=
  match l with
  | None => Raise TypeError
  | Some l => do v <- mapM (fun o => match o with Some q => Ok (VFloat q) | None => Raise TypeError end) l; doubles (VList v)
  end.
(** core/metric_wrapper.py:25-34, 57-68: the request that makes the metric of the library; the callback of a user's function is left out
    (objects with such metrics do not use the library, C245) *)
Definition create_metric (m : metric_object) : wrapped carg :=
  prepared (pack_arguments (metric_arguments m)) (fun p => ([Called "metric_create" [size_arg (metric_code (mtype m)); APackage p]], Ok (APointer "metric_create"))).

(** ** parameters of networks *)
(** the attribute of a parameters object; core/pcnn_wrapper.py:34 *)
Definition attribute (params : list (string * value)) (name : string) : value :=
  match find (fun f => String.eqb (fst f) name) params with Some (_, v) => v | None => VFloat 0 end.
(** a structure of ctypes is created with zeros in all fields and the named ones are assigned; core/pcnn_wrapper.py:33-42 *)
Definition structure (fields assigned : list string) (params : list (string * value)) : list (string * value) :=
  map (fun f => (f, if existsb (String.eqb f) assigned then attribute params f else VFloat 0)) fields.
(** core/pcnn_wrapper.py:15-27 *)
Definition pcnn_fields : list string := ["VF"; "VL"; "VT"; "AF"; "AL"; "AT"; "W"; "M"; "B"; "FAST_LINKING"]%string.
(** core/pcnn_wrapper.py:34-42 *)
Definition pcnn_assigned : list string := ["VF"; "VL"; "VT"; "AF"; "AL"; "AT"; "W"; "M"; "FAST_LINKING"]%string.
(** core/pcnn_wrapper.py:30-46 *)
Definition pcnn_create (size conn_type height width : Z) (params : list (string * value)) : list event :=
  [Called "pcnn_create" [uint_arg size; uint_arg conn_type; uint_arg height; uint_arg width; AStruct (structure pcnn_fields pcnn_assigned params)]].
(** core/legion_wrapper.py:15-35 *)
Definition legion_fields : list string :=
  ["eps"; "alpha"; "gamma"; "betta"; "lamda"; "teta"; "teta_x"; "teta_p"; "teta_xz"; "teta_zx"; "T"; "mu"; "Wz"; "Wt"; "fi"; "ro"; "I"; "ENABLE_POTENTIONAL"]%string.
(** core/legion_wrapper.py:42-58 *)
Definition legion_assigned : list string :=
  ["eps"; "alpha"; "gamma"; "betta"; "lamda"; "teta"; "teta_x"; "teta_p"; "teta_xz"; "T"; "mu"; "Wz"; "Wt"; "fi"; "ro"; "I"; "ENABLE_POTENTIONAL"]%string.
(** core/legion_wrapper.py:38-63 *)
Definition legion_create (size conn_type : Z) (params : list (string * value)) : list event :=
  [Called "legion_create" [uint_arg size; uint_arg conn_type; AStruct (structure legion_fields legion_assigned params)]].
(** core/hhn_wrapper.py:15-39 *)
Definition hhn_fields : list string :=
  ["nu"; "gNa"; "gK"; "gL"; "vNa"; "vK"; "vL"; "vRest"; "Icn1"; "Icn2"; "Vsyninh"; "Vsynexc"; "alfa_inhibitory"; "betta_inhibitory"; "alfa_excitatory"; "betta_excitatory"; "w1"; "w2"; "w3"; "deltah"; "threshold"; "eps"]%string.
(** core/hhn_wrapper.py:45-66 *)
Definition hhn_assigned : list string :=
  ["nu"; "gNa"; "gK"; "gL"; "vNa"; "vK"; "vL"; "vRest"; "Icn1"; "Icn2"; "Vsyninh"; "Vsynexc"; "alfa_inhibitory"; "betta_inhibitory"; "alfa_excitatory"; "betta_excitatory"; "w1"; "w2"; "w3"; "deltah"; "threshold"; "eps"]%string.
(** core/hhn_wrapper.py:42-72 *)
Definition hhn_create (size : Z) (params : list (string * value)) : list event :=
  [Called "hhn_create" [size_arg size; AStruct (structure hhn_fields hhn_assigned params)]].
(** nnet/som.py:75-94: type of start, radius, rate, threshold, seed; core/som_wrapper.py:33-37, 57-61 *)
Record som_params := mkSom { init_type : Z; init_radius : Q; init_learn_rate : Q; adaptation_threshold : Q; random_state : option Z }.
(** core/som_wrapper.py:40-66 *)
Definition som_create (rows cols conn_type : Z) (p : som_params) : list event :=
  [Called "som_create" [uint_arg rows; uint_arg cols; uint_arg conn_type;
     AStruct [("init_type", VInt (wrap_unsigned 32 (init_type p))); ("init_radius", VFloat (init_radius p)); ("init_learn_rate", VFloat (init_learn_rate p));
              ("adaptation_threshold", VFloat (adaptation_threshold p)); ("random_state", VInt (wrap_signed 64 (seed (random_state p))))]%string]].
(** core/som_wrapper.py:170-235: som_get_capture_objects, som_get_weights, som_get_awards, som_get_neighbors by name *)
Definition som_getter (lib : answers) (name : string) : wrapped answer := answered (ask_only lib name [APointer "som_create"]) Ok.
(** the getters of a PCNN, LEGION or Sync output and of an HHN (core/pcnn_wrapper.py:73-130, core/legion_wrapper.py:91-124,
    core/sync_wrapper.py:62-161, core/syncpr_wrapper.py:82-115, core/hhn_wrapper.py:108-141) by name *)
Definition getter (lib : answers) (name : string) (args : list carg) : wrapped answer := answered (ask lib name args) Ok.
(** cluster/syncnet.py and nnet/sync.py ask for an iteration or for the last one; core/sync_wrapper.py:86-92, 101-108; [size] is the number
    of stored states *)
Definition iteration_arg (iteration : option Z) (size : Z) : carg := size_arg match iteration with Some i => i | None => (size - 1)%Z end.
