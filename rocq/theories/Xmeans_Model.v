(** cluster/xmeans.py and cluster/gmeans.py (python branches).
    The random seeds of k-means++ are a stream: the draw number [pos] and the size of the data give the indices of the
    chosen points.  The decision whether a cluster is split (xmeans: BIC or MNDL, see Xcrit_Model; gmeans: the
    Anderson-Darling test of scipy) is a parameter.  The k-means runs are those of Kmeans_Model with the default
    itermax = 100. *)
From Verif Require Import Base Kmeans_Model.

(** for [search_optimal], xmeans.py:371-399 *)
Definition select (data : list point) (indices : list nat) : list point := map (fun i => nth i data []) indices.

(** clusters, centres and error of a k-means run; for [search_optimal], xmeans.py:371-399 *)
Definition solution : Type := (list (list nat) * list point * Q)%type.

Section Search.
Variable metric : point -> point -> Q.
Variable tolerance : Q.
Variable seeds : nat -> nat -> nat -> list nat.  (* draw number, size of the data, amount of centres *)

(** xmeans.py:371-399 __search_optimial_parameters and gmeans.py:352-377 _search_optimal_parameters; [None] is the
    infinite error of the start; only gmeans stops after the first run for one centre ([stop_single]) *)
Fixpoint search_optimal (stop_single : bool) (data : list point) (amount repeats pos : nat) (best : option solution) : res (option solution * nat) :=
  match repeats with
  | 0 => Ok (best, pos)
  | S r =>
      if length data <? amount then Raise ValueError (* center_initializer.py:214 *) else
      let initial := select data (seeds pos (length data) amount) in
      do k <- kmeans_process metric data initial tolerance 100;
      let best' := match best with
                   | None => Some k
                   | Some b => if Qltb (snd k) (snd b) then Some k else best
                   end in
      if stop_single && (length initial =? 1) then Ok (best', S pos)
      else search_optimal stop_single data amount r (S pos) best'
  end.
End Search.

Section Xmeans.
Variable metric : point -> point -> Q.
Variable tolerance : Q.
Variable seeds : nat -> nat -> nat -> list nat.
Variable data : list point.
Variable kmax repeats : nat.
(** xmeans.py:480-494 split_require for the parent cluster and its centre and for the children and their centres *)
Variable split_require : list (list nat) -> list point -> list (list nat) -> list point -> bool.

(** xmeans.py:437-456 __local_to_global_clusters *)
Definition to_global (local : list (list nat)) (available : list nat) : list (list nat) :=
  map (map (fun i => nth i available 0)) local.

(** xmeans.py:402-434 __improve_parameters(None, cluster): clusters, centres and the next draw; for one point the
    second result (there the point itself, 415) is not used by the caller; without any run None is returned and len()
    fails *)
Definition children (cluster : list nat) (pos : nat) : res (list (list nat) * list point * nat) :=
  if length cluster =? 1 then Ok ([cluster], [], pos)
  else
    do s <- search_optimal metric tolerance seeds false (select data cluster) 2 repeats pos None;
    match fst s with
    | None => Raise TypeError
    | Some (cl, ce, _) => Ok (to_global cl cluster, ce, snd s)
    end.

(** xmeans.py:459-507 __improve_structure; a negative number of free centres is 0 here, only "> 0" is asked *)
Fixpoint improve_structure (clusters : list (list nat)) (centers : list point) (free pos : nat) : res (list point * nat) :=
  match clusters with
  | [] => Ok ([], pos)
  | g :: gs =>
      let c := hd [] centers in
      do ch <- children g pos;
      let '(chcl, chce, pos') := ch in
      let split := (1 <? length chcl) && split_require [g] [c] [nth 0 chcl []; nth 1 chcl []] chce && (0 <? free) in
      do rest <- improve_structure gs (tl centers) (if split then free - 1 else free) pos';
      Ok ((if split then [nth 0 chce []; nth 1 chce []] else [c]) ++ fst rest, snd rest)
  end.

(** xmeans.py:249-259: the centres after the loop *)
Fixpoint xmeans_loop (fuel : nat) (centers : list point) (pos : nat) : res (list point) :=
  match fuel with
  | 0 => Raise OutOfFuel
  | S f =>
      if length centers <=? kmax then
        do k <- kmeans_process metric data centers tolerance 100;
        let '(cl, ce, _) := k in
        do a <- improve_structure cl ce (kmax - length ce) pos;
        if length centers =? length (fst a) then Ok ce
        else xmeans_loop f (fst a) (snd a)
      else Ok centers
  end.

(** xmeans.py:206-223, 243-261 process with the checks 638-663 (alpha and beta belong to the criterion) *)
Definition xmeans_process (initial : list point) (fuel : nat) : res solution :=
  if length data =? 0 then Raise ValueError
  else if length initial =? 0 then Raise ValueError
  else if Qltb tolerance 0 then Raise ValueError
  else if repeats =? 0 then Raise ValueError
  else do centers <- xmeans_loop fuel initial 0; kmeans_process metric data centers tolerance 100.
End Xmeans.

Section Gmeans.
Variable tolerance : Q.
Variable seeds : nat -> nat -> nat -> list nat.
Variable data : list point.
Variable k_init repeats : nat.
Variable k_max : option nat.  (* None is -1 *)
(** gmeans.py:313-330 _is_null_hypothesis of the points and the two centres *)
Variable is_null : list point -> list point -> bool.

Let metric := sqdist.

(** gmeans.py:289-310 _split_and_search_optimal *)
Definition split_and_search (cluster : list nat) (pos : nat) : res (option (list point) * nat) :=
  if length cluster =? 1 then Ok (None, pos)
  else
    let points := select data cluster in
    do s <- search_optimal metric tolerance seeds true points 2 repeats pos None;
    let new_centers := match fst s with None => [] | Some (_, ce, _) => ce end in
    if (1 <? length new_centers) && negb (is_null points new_centers) then Ok (Some new_centers, snd s) else Ok (None, snd s).

(** for [statistical_optimization], gmeans.py:271-286 *)
Definition full (amount : nat) : bool := match k_max with None => false | Some m => m <=? amount end.

(** gmeans.py:271-286 _statistical_optimization *)
Fixpoint statistical_optimization (clusters : list (list nat)) (centers : list point) (potential pos : nat) : res (list point * nat) :=
  match clusters with
  | [] => Ok ([], pos)
  | g :: gs =>
      do s <- split_and_search g pos;
      match (if full potential then None else fst s) with
      | None => do rest <- statistical_optimization gs (tl centers) potential (snd s); Ok (hd [] centers :: fst rest, snd rest)
      | Some new => do rest <- statistical_optimization gs (tl centers) (S potential) (snd s); Ok (new ++ fst rest, snd rest)
      end
  end.

(** gmeans.py:182-189 with 380-403; [wce] is the field __total_wce.  _run_condition asks k_max > 0, which is k_max
    given after the check of the arguments *)
Fixpoint gmeans_loop (fuel : nat) (clusters : list (list nat)) (centers : list point) (wce : Q) (pos : nat) : res solution :=
  match fuel with
  | 0 => Raise OutOfFuel
  | S f =>
      if full (length clusters) then Ok (clusters, centers, wce)
      else
        do a <- statistical_optimization clusters centers (length clusters) pos;
        if length clusters =? length (fst a) then Ok (clusters, fst a, wce)
        else
          do k <- kmeans_process metric data (fst a) tolerance 100;
          let '(cl, ce, w) := k in gmeans_loop f cl ce w (snd a)
  end.

(** gmeans.py:150-191 process on a new object with the checks 406-430: clusters, centres, get_total_wce() *)
Definition gmeans_process (fuel : nat) : res solution :=
  if length data =? 0 then Raise ValueError
  else if k_init =? 0 then Raise ValueError
  else if Qle_bool tolerance 0 then Raise ValueError
  else if repeats =? 0 then Raise ValueError
  else if match k_max with None => false | Some m => (m =? 0) || (m <? k_init) end then Raise ValueError
  else
    do s <- search_optimal metric tolerance seeds true data k_init repeats 0 None;
    match fst s with
    | None => gmeans_loop fuel [] [] 0%Q (snd s)
    | Some (cl, ce, _) => gmeans_loop fuel cl ce 0%Q (snd s)
    end.
End Gmeans.
