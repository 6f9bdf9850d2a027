(** core/*_wrapper.py of oscillatory networks: the requests by which networks of the C++ library are made, trained and simulated, and
    what the objects do before they ask; the request of DBSCAN.  The library is any function from requests to answers (Wrapper_Model.v). *)
From Coq Require Import String Ascii.
From Verif Require Import Base Codec_Model Ccore_Model Wrapper_Model.

(** c_double(x) of a number or None; core/syncnet_wrapper.py:20 *)
Definition double_arg (x : option Q) : res carg := match x with Some q => Ok (ADouble q) | None => Raise TypeError end.
(** a request that answers with a pointer; the pointer is named after it; core/sync_wrapper.py:16-22 and the like *)
Definition made (name : string) (args : list carg) : wrapped carg := ([Called name args], Ok (APointer name)).

(** ** making *)
(** core/sync_wrapper.py:16-22; nnet/sync.py:736-739 *)
Definition sync_create (num_osc : Z) (weight frequency : Q) (type_conn initial_phases : Z) : wrapped carg :=
  made "sync_create_network" [uint_arg num_osc; ADouble weight; ADouble frequency; uint_arg type_conn; uint_arg initial_phases].
(** core/syncnet_wrapper.py:15-22; cluster/syncnet.py:203-208, 236-250: an empty sample is refused first *)
Definition syncnet_create (sample : list (list Q)) (radius : option Q) (initial_phases : Z) (weighted : bool) : wrapped carg :=
  if length sample =? 0 then ([], Raise ValueError) else
  prepared (doubles (VList (map (fun p => VList (map VFloat p)) sample))) (fun d => prepared (double_arg radius) (fun r =>
  made "syncnet_create_network" [APackage d; r; ABool weighted; uint_arg initial_phases])).
(** core/hsyncnet_wrapper.py:15-22; cluster/hsyncnet.py:70-76 *)
Definition hsyncnet_create (sample : list (list Q)) (clusters initial_phases neighbors : Z) (increase : Q) : wrapped carg :=
  let n := Z.of_nat (length sample) in
  let neighbors := if (n <=? neighbors)%Z then (n - 1)%Z else neighbors in
  prepared (doubles (VList (map (fun p => VList (map VFloat p)) sample))) (fun d =>
  made "hsyncnet_create_network" [APackage d; uint_arg clusters; uint_arg initial_phases; uint_arg neighbors; ADouble increase]).
(** core/syncpr_wrapper.py:20-26; nnet/syncpr.py:228-229 *)
Definition syncpr_create (num_osc : Z) (strength1 strength2 : Q) : wrapped carg :=
  made "syncpr_create" [uint_arg num_osc; ADouble strength1; ADouble strength2].

(** ** simulation *)
(** core/sync_wrapper.py:36-39; nnet/sync.py:945-947 *)
Definition sync_simulate_static (steps : Z) (time : Q) (solution : Z) (collect : bool) : wrapped carg :=
  made "sync_simulate_static" [APointer "sync_create_network"; uint_arg steps; ADouble time; uint_arg solution; ABool collect].
(** core/sync_wrapper.py:42-45; nnet/sync.py:880-882 *)
Definition sync_simulate_dynamic (order : Q) (solution : Z) (collect : bool) (step int_step threshold : Q) : wrapped carg :=
  made "sync_simulate_dynamic" [APointer "sync_create_network"; ADouble order; uint_arg solution; ABool collect; ADouble step; ADouble int_step; ADouble threshold].
(** core/syncnet_wrapper.py:30-33; cluster/syncnet.py:300-302 *)
Definition syncnet_process (order : Q) (solution : Z) (collect : bool) : wrapped carg :=
  made "syncnet_process" [APointer "syncnet_create_network"; ADouble order; uint_arg solution; ABool collect].
(** core/hsyncnet_wrapper.py:30-33; cluster/hsyncnet.py:108-110 *)
Definition hsyncnet_process (order : Q) (solution : Z) (collect : bool) : wrapped carg :=
  made "hsyncnet_process" [APointer "hsyncnet_create_network"; ADouble order; uint_arg solution; ABool collect].
(** core/legion_wrapper.py:71-77; nnet/legion.py:351-353 *)
Definition legion_simulate (steps : Z) (time : Q) (solver : Z) (collect : bool) (stimulus : list value) : wrapped carg :=
  prepared (doubles (VList stimulus)) (fun s =>
  made "legion_simulate" [APointer "legion_create"; uint_arg steps; ADouble time; uint_arg solver; ABool collect; APackage s]).
(** core/pcnn_wrapper.py:54-59; nnet/pcnn.py:416-421; [size] is what pcnn_get_size answers (nnet/pcnn.py:399-400) *)
Definition pcnn_simulate (size steps : Z) (stimulus : list value) : wrapped carg :=
  let asked := [Called "pcnn_get_size" [APointer "pcnn_create"]] in
  if negb (Z.of_nat (length stimulus) =? size)%Z then (asked, Raise NameError) else
  let w := prepared (doubles (VList stimulus)) (fun s => made "pcnn_simulate" [APointer "pcnn_create"; uint_arg steps; APackage s]) in
  (asked ++ fst w, snd w)%list.
(** nnet/hhn.py:282-302 with core/hhn_wrapper.py:80-89, 97-106, 109-143, 92-94: an output is made, filled, read and destroyed; solver 0 is FAST
    (nnet/__init__.py:35) *)
Definition hhn_simulate (lib : answers) (steps : Z) (time : Q) (solution : Z) (stimulus : list value) : wrapped (answer * answer * answer) :=
  if (solution =? 0)%Z then ([], Raise NameError) else
  let dynamic := APointer "hhn_dynamic_create" in
  let created := [Called "hhn_dynamic_create" [ABool true; ABool false; ABool false; ABool false]] in
  match doubles (VList stimulus) with
  | Raise e => (created, Raise e)
  | Ok s =>
      let p := ask lib "hhn_dynamic_get_peripheral_evolution" [dynamic; size_arg 0] in
      let c := ask lib "hhn_dynamic_get_central_evolution" [dynamic; size_arg 0] in
      let t := ask lib "hhn_dynamic_get_time" [dynamic] in
      ((created ++ [Called "hhn_simulate" [APointer "hhn_create"; size_arg steps; ADouble time; size_arg solution; APackage s; dynamic]] ++ fst p ++ fst c ++ fst t ++
        [Called "hhn_dynamic_destroy" [dynamic]])%list, Ok (snd t, snd p, snd c))
  end.

(** ** patterns *)
(** the comparison of a feature with -1.0 and 1.0; nnet/syncpr.py:510-511 *)
Definition is_feature (v : value) : bool :=
  match v with VInt z => (z =? 1)%Z || (z =? -1)%Z | VFloat q => Qeq_bool q 1 || Qeq_bool q (-1) | VList _ => false end.
(** nnet/syncpr.py:498-511 __validate_pattern; [size] is what syncpr_get_size answers *)
Definition check_pattern (size : Z) (pattern : list value) : res unit :=
  if negb (Z.of_nat (length pattern) =? size)%Z then Raise NameError else if forallb is_feature pattern then Ok tt else Raise NameError.
(** package_builder(pattern, c_int).create(); core/syncpr_wrapper.py:16-17 *)
Definition ints (v : value) : res package := create_package (Some c_int) v.
(** every check asks for the size; nnet/syncpr.py:255-256, 505 *)
Definition size_asked : event := Called "syncpr_get_size" [APointer "syncpr_create"].
(** nnet/syncpr.py:271-272: the patterns one after another *)
Fixpoint check_patterns (size : Z) (samples : list (list value)) : list event * res unit :=
  match samples with
  | [] => ([], Ok tt)
  | p :: t => match check_pattern size p with
              | Raise e => ([size_asked], Raise e)
              | Ok _ => let w := check_patterns size t in (size_asked :: fst w, snd w)
              end
  end.
(** nnet/syncpr.py:262-275 train; core/syncpr_wrapper.py:40-44 *)
Definition syncpr_train (size : Z) (samples : list (list value)) : wrapped unit :=
  let checked := check_patterns size samples in
  match snd checked with
  | Raise e => (fst checked, Raise e)
  | Ok _ => match ints (VList (map VList samples)) with
            | Raise e => (fst checked, Raise e)
            | Ok k => ((fst checked ++ [Called "syncpr_train" [APointer "syncpr_create"; APackage k]])%list, Ok tt)
            end
  end.
(** a pattern that is checked, packed and given to a request; nnet/syncpr.py:340-344, 414-418, 440-443 *)
Definition with_pattern {A : Type} (size : Z) (pattern : list value) (k : package -> wrapped A) : wrapped A :=
  match check_pattern size pattern with
  | Raise e => ([size_asked], Raise e)
  | Ok _ => match ints (VList pattern) with
            | Raise e => ([size_asked], Raise e)
            | Ok p => let w := k p in (size_asked :: fst w, snd w)
            end
  end.
(** nnet/syncpr.py:414-418; core/syncpr_wrapper.py:47-52 *)
Definition syncpr_simulate_static (size steps : Z) (time : Q) (pattern : list value) (solution : Z) (collect : bool) : wrapped carg :=
  with_pattern size pattern (fun p => made "syncpr_simulate_static" [APointer "syncpr_create"; uint_arg steps; ADouble time; APackage p; uint_arg solution; ABool collect]).
(** nnet/syncpr.py:340-344; core/syncpr_wrapper.py:55-60 *)
Definition syncpr_simulate_dynamic (size : Z) (pattern : list value) (order : Q) (solution : Z) (collect : bool) (step : Q) : wrapped carg :=
  with_pattern size pattern (fun p => made "syncpr_simulate_dynamic" [APointer "syncpr_create"; APackage p; ADouble order; uint_arg solution; ABool collect; ADouble step]).
(** nnet/syncpr.py:440-443; core/syncpr_wrapper.py:63-69; the answer is a number *)
Definition syncpr_memory_order (lib : answers) (size : Z) (pattern : list value) : wrapped answer :=
  with_pattern size pattern (fun p => ([Called "syncpr_memory_order" [APointer "syncpr_create"; APackage p]], Ok (lib "syncpr_memory_order"%string [APointer "syncpr_create"; APackage p]))).

(** ** dbscan *)
(** core/dbscan_wrapper.py:18-33; the answer is a list of lists of indexes *)
Definition w_dbscan (lib : string -> list carg -> list (list nat)) (sample : value) (eps : Q) (neighbors : Z) (data_type : option bool) : wrapped (list (list nat) * list nat) :=
  prepared (doubles sample) (fun d => prepared (convert_data_type data_type) (fun t =>
    let args := [APackage d; ADouble eps; size_arg neighbors; t] in
    ([Called "dbscan_algorithm" args; Freed "dbscan_algorithm"], split_noise (lib "dbscan_algorithm"%string args)))).
