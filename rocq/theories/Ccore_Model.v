(** core/wrapper.py: the decision whether the C++ library is used, and what the classes make of
    their argument [ccore].  The library itself is not modelled: only whether it is there, what it
    says about itself and what it is asked for. *)
From Coq Require Import String.
From Verif Require Import Base Dbscan_Model.
Open Scope nat_scope.

(** core/wrapper.py:46-79: what a machine offers.  [known]: PATH_PYCLUSTERING_CCORE_LIBRARY is not
    None (core/definitions.py:18-39); [present]: the file exists; [loadable]: LoadLibrary does not
    raise OSError; [description]: the length of what get_interface_description() returns, [None]
    if the call fails; [version]: what get_interface_version() returns, [None] if the call fails *)
Record machine := mkMachine { known : bool; present : bool; loadable : bool; description : option nat; version : option string }.

(** core/wrapper.py:25-27: the attributes of the class ccore_library; [loaded]: __library is not None *)
Record library := mkLib { loaded : bool; works : bool; initialized : bool }.
(** core/wrapper.py:25-27 *)
Definition fresh : library := mkLib false false false.

(** core/wrapper.py:50-53, 57-60, 66-69, 75-77: the warnings; the last one names two versions *)
Inductive warning := NotSupported | NotFound | NotCompatible | OtherVersion (found wanted : string).

(** core/wrapper.py:21 *)
Definition wanted_version : string := "0.11.0"%string.

(** core/wrapper.py:82-94 __check_library_integrity *)
Definition check_integrity (m : machine) (l : library) : library :=
  match description m with
  | Some n => if 0 <? n then mkLib (loaded l) true (initialized l) else l
  | None => mkLib (loaded l) false (initialized l)
  end.

(** core/wrapper.py:97-114 __check_library_version, with the version it reports *)
Definition check_version (m : machine) (l : library) : library * string :=
  let version_ := "unknown"%string in
  match version m with
  | Some v => (mkLib (loaded l) (String.eqb v wanted_version) (initialized l), version_)
  | None => (mkLib (loaded l) false (initialized l), version_)
  end.

(** core/wrapper.py:46-79 initialize; [false] at the end: OSError of LoadLibrary *)
Definition initialize (m : machine) (l : library) : library * list warning * bool :=
  let l1 := mkLib (loaded l) (works l) true in
  if negb (known m) then (l1, [NotSupported], true)
  else if negb (present m) then (l1, [NotFound], true)
  else if negb (loadable m) then (l1, [], false)
  else
    let l2 := check_integrity m (mkLib true (works l1) true) in
    if negb (works l2) then (l2, [NotCompatible], true)
    else
      let '(l3, v) := check_version m l2 in
      if negb (works l3) then (l3, [OtherVersion v wanted_version], true) else (l3, [], true).

(** core/wrapper.py:30-34 get: [Some b]: is a library returned; [None]: OSError *)
Definition get (m : machine) (l : library) : library * list warning * option bool :=
  if negb (loaded l) then
    let '(l', w, ok) := initialize m l in (l', w, if ok then Some (loaded l') else None)
  else (l, [], Some true).

(** core/wrapper.py:38-42 workable: the answer; [None]: OSError *)
Definition workable (m : machine) (l : library) : library * list warning * option bool :=
  if negb (initialized l) then
    let '(l', w, r) := get m l in
    (l', w, match r with None => None | Some _ => Some (works l') end)
  else (l, [], Some (works l)).

(** The classes with an argument [ccore] ([elbow] with its initializer: a class given by the user or
    one of the two of the library, or an object of these): cluster/agglomerative.py:124-126,
    cluster/bsas.py:126-132 (also mbsas.py:73, ttsas.py:75), cluster/clique.py:489-491, cluster/cure.py:124-126,
    cluster/dbscan.py:299-301, cluster/elbow.py:101-106, cluster/fcm.py:121-123, cluster/gmeans.py:137-145,
    cluster/hsyncnet.py:73, cluster/kmeans.py:363-365, cluster/kmedians.py:86-88, cluster/kmedoids.py:108-110, 402-404,
    cluster/optics.py:405-410, cluster/rock.py:72-74, cluster/silhouette.py:158-160, 446-448, cluster/somsc.py:72-78,
    cluster/syncnet.py:206, cluster/xmeans.py:199-201, nnet/hhn.py:221, nnet/legion.py:245, nnet/pcnn.py:356,
    nnet/som.py:263, nnet/sync.py:736, nnet/syncpr.py:228, nnet/syncsegm.py:185-187 *)
Inductive start := StartClass | StartPlusPlusObject | StartRandomObject.
(** with [start], cluster/elbow.py:101-106 *)
Inductive user_class :=
  | Agglomerative | Bsas | Mbsas | Ttsas | Clique | Cure | Dbscan | Elbow (s : start) | Fcm | Gmeans | Hsyncnet
  | Kmeans | Kmedians | Kmedoids | PamBuild | Optics | Rock | Silhouette | SilhouetteSearch | Somsc | Syncnet | Xmeans
  | Hhn | Legion | Pcnn | Som | Sync | Syncpr | Syncsegm.

(** the first value of the attribute, before the library is asked: cluster/kmeans.py:363,
    cluster/kmedians.py:86, cluster/kmedoids.py:108, 402, cluster/bsas.py:126, cluster/silhouette.py:158,
    cluster/xmeans.py:199, cluster/elbow.py:101-103 and the others as above; [user_metric] says that the
    metric of the object is of the type USER_DEFINED (classes without metric do not look at it) *)
Definition asks (c : user_class) (ccore user_metric : bool) : bool :=
  match c with
  | Kmeans | Kmedians | Kmedoids | PamBuild | Bsas | Mbsas | Ttsas | Silhouette | Xmeans => ccore && negb user_metric
  | Elbow s => ccore || match s with StartPlusPlusObject => true | _ => false end || match s with StartRandomObject => true | _ => false end
  | _ => ccore
  end.

(** does process() or the network of a new object call the library?  [None]: the constructor raises
    OSError; the same lines as [asks], and cluster/kmeans.py:384 and its like *)
Definition construct (m : machine) (l : library) (c : user_class) (ccore user_metric : bool) : library * list warning * option bool :=
  if asks c ccore user_metric then workable m l else (l, [], Some false).

(** cluster/elbow.py:136-149: what the library is asked to start with *)
Inductive library_start := LibraryPlusPlus | LibraryRandom.
(** cluster/elbow.py:141-144 *)
Definition elbow_start (s : start) : library_start := match s with StartPlusPlusObject => LibraryPlusPlus | _ => LibraryRandom end.

(** cluster/dbscan.py:74-92: the attributes of an object; data as points, or the rows of a matrix *)
Inductive dbdata := DbPoints (d : list point) | DbMatrix (m : list (list Q)).
(** with [dbdata], cluster/dbscan.py:74-92; __kdtree and __neighbor_searcher are made anew by every process() *)
Record dbobject := mkDb { db_data : dbdata; db_eps : Q; db_minpts : nat; db_visited : list bool; db_belong : list bool;
                          db_clusters : list (list nat); db_noise : list nat; db_ccore : bool }.

(** cluster/dbscan.py:95-104 __getstate__: the state written by pickle ([__sqrt_eps] is the square of eps) *)
Definition getstate (o : dbobject) : dbdata * Q * Q * nat * list bool * list bool * list (list nat) * list nat * bool :=
  (db_data o, db_eps o, (db_eps o * db_eps o)%Q, db_minpts o, db_visited o, db_belong o, db_clusters o, db_noise o, db_ccore o).

(** cluster/dbscan.py:107-117 __setstate__ in a process whose ccore_library is [l]; [None]: OSError *)
Definition setstate (m : machine) (l : library) (st : dbdata * Q * Q * nat * list bool * list bool * list (list nat) * list nat * bool) : library * list warning * option dbobject :=
  let '(d, eps, _, minpts, vis, bel, cl, no, _) := st in
  let '(l', w, r) := workable m l in
  (l', w, match r with None => None | Some b => Some (mkDb d eps minpts vis bel cl no b) end).

(** cluster/dbscan.py:120-153 process(), python code, for an object that was made without an error *)
Definition process_python (o : dbobject) : res (list (list nat) * list nat) :=
  match db_data o with
  | DbPoints d => dbscan_points d (db_eps o) (db_minpts o) (db_clusters o) (db_noise o)
  | DbMatrix d => dbscan_matrix d (db_eps o) (db_minpts o) (db_clusters o) (db_noise o)
  end.

(** cluster/dbscan.py:120-153: what process() does: the python code, or the C++ library is given these arguments *)
Inductive dbrun := ByPython (r : res (list (list nat) * list nat)) | ByLibrary (d : dbdata) (eps : Q) (minpts : nat).
(** with [dbrun], cluster/dbscan.py:131-153 *)
Definition db_process (o : dbobject) : dbrun :=
  if db_ccore o then ByLibrary (db_data o) (db_eps o) (db_minpts o) else ByPython (process_python o).
