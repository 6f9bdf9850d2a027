(** Model of cluster/encoder.py. *)
From Verif Require Import Base.

Section Encoder.
(** data objects, python [==] on them, and [str(obj)] *)
Variable A : Type.
Variable eqb : A -> A -> bool.
Variable K : Type.
Variable keqb : K -> K -> bool.
Variable str : A -> K.

(** encoder.py:14-47 [type_encoding]; the representation together with the stored clusters.
    A label is [Some c], or [None] for NaN.  Indices and labels are non-negative (python would also
    accept negative ones). *)
Inductive encoding := ELabels | EIndices | EObjects.
(** with [encoding], encoder.py:14-47 *)
Inductive repr :=
| Labels (l : list (option nat))
| Indices (cl : list (list nat))
| Objects (cl : list (list A)).

(** cluster/encoder.py:121-126 get_encoding, the attribute being kept beside the clusters by set_encoding *)
Definition encoding_of (r : repr) : encoding :=
  match r with Labels _ => ELabels | Indices _ => EIndices | Objects _ => EObjects end.

(** list assignment [l[i] = x]; for [mark_all], encoder.py:192-193 *)
Definition set_item {B} (l : list B) (i : nat) (x : B) : res (list B) :=
  if i <? length l then Ok (upd l i x) else Raise IndexError.

(** encoder.py:192-193, inner loop of [__convert_index_to_label] *)
Fixpoint mark_all (labels : list (option nat)) (c : nat) (cluster : list nat) : res (list (option nat)) :=
  match cluster with
  | [] => Ok labels
  | i :: t => do labels' <- set_item labels i (Some c); mark_all labels' c t
  end.

(** for [index_to_label], encoder.py:187-197 *)
Fixpoint mark_clusters (labels : list (option nat)) (c : nat) (cl : list (list nat)) : res (list (option nat)) :=
  match cl with
  | [] => Ok labels
  | cluster :: t => do labels' <- mark_all labels c cluster; mark_clusters labels' (S c) t
  end.

(** encoder.py:187-197 [__convert_index_to_label] *)
Definition index_to_label (data : list A) (cl : list (list nat)) : res (list (option nat)) :=
  mark_clusters (repeat None (length data)) 0 cl.

(** for [index_to_object], encoder.py:200-207 *)
Fixpoint mapM {B C} (f : B -> res C) (l : list B) : res (list C) :=
  match l with
  | [] => Ok []
  | x :: t => do y <- f x; do ys <- mapM f t; Ok (y :: ys)
  end.

(** for [index_to_object], encoder.py:200-207 *)
Definition get_item {B} (l : list B) (i : nat) : res B :=
  match nth_error l i with Some x => Ok x | None => Raise IndexError end.

(** encoder.py:200-207 [__convert_index_to_object] *)
Definition index_to_object (data : list A) (cl : list (list nat)) : res (list (list A)) :=
  mapM (mapM (get_item data)) cl.

(** [data.index(obj, start)]; for [locate], encoder.py:217-223 *)
Fixpoint index_from (data : list A) (obj : A) (pos start : nat) : res nat :=
  match data with
  | [] => Raise ValueError
  | x :: t => if andb (start <=? pos) (eqb x obj) then Ok pos else index_from t obj (S pos) start
  end.

(** the dictionary [positions] as an association list; for [locate], encoder.py:217-223 *)
Fixpoint lookup (pos : list (K * nat)) (k : K) : option nat :=
  match pos with
  | [] => None
  | (k', v) :: t => if keqb k' k then Some v else lookup t k
  end.

(** encoder.py:217-223 and 236-243: index of one object and the updated dictionary *)
Definition locate (data : list A) (pos : list (K * nat)) (obj : A) : res (nat * list (K * nat)) :=
  let k := str obj in
  do i <- match lookup pos k with
          | Some p => index_from data obj 0 (p + 1)
          | None => index_from data obj 0 0
          end;
  Ok (i, (k, i) :: pos).

(** for [label_clusters], encoder.py:210-228 *)
Fixpoint label_objects (data : list A) (labels : list (option nat)) (pos : list (K * nat)) (c : nat) (cluster : list A)
  : res (list (option nat) * list (K * nat)) :=
  match cluster with
  | [] => Ok (labels, pos)
  | obj :: t =>
    do ip <- locate data pos obj;
    do labels' <- set_item labels (fst ip) (Some c);
    label_objects data labels' (snd ip) c t
  end.

(** for [object_to_label], encoder.py:210-228 *)
Fixpoint label_clusters (data : list A) (labels : list (option nat)) (pos : list (K * nat)) (c : nat) (cl : list (list A))
  : res (list (option nat)) :=
  match cl with
  | [] => Ok labels
  | cluster :: t =>
    do lp <- label_objects data labels pos c cluster;
    label_clusters data (fst lp) (snd lp) (S c) t
  end.

(** encoder.py:210-228 [__convert_object_to_label] *)
Definition object_to_label (data : list A) (cl : list (list A)) : res (list (option nat)) :=
  label_clusters data (repeat None (length data)) [] 0 cl.

(** for [index_clusters], encoder.py:231-245 *)
Fixpoint index_objects (data : list A) (pos : list (K * nat)) (cluster : list A)
  : res (list nat * list (K * nat)) :=
  match cluster with
  | [] => Ok ([], pos)
  | obj :: t =>
    do ip <- locate data pos obj;
    do rp <- index_objects data (snd ip) t;
    Ok (fst ip :: fst rp, snd rp)
  end.

(** for [object_to_index], encoder.py:231-245 *)
Fixpoint index_clusters (data : list A) (pos : list (K * nat)) (cl : list (list A)) : res (list (list nat)) :=
  match cl with
  | [] => Ok []
  | cluster :: t =>
    do rp <- index_objects data pos cluster;
    do rest <- index_clusters data (snd rp) t;
    Ok (fst rp :: rest)
  end.

(** encoder.py:231-245 [__convert_object_to_index] *)
Definition object_to_index (data : list A) (cl : list (list A)) : res (list (list nat)) :=
  index_clusters data [] cl.

(** python [max] on labels: NaN never compares greater, and nothing compares greater than NaN; for [fresh_clusters], encoder.py:248-256 *)
Definition max_label (l : list (option nat)) : res (option nat) :=
  match l with
  | [] => Raise ValueError
  | x :: t => Ok (fold_left (fun m y => match m, y with
                                        | Some a, Some b => if a <? b then Some b else Some a
                                        | m, _ => m
                                        end) t x)
  end.

(** [[[] for _ in range(max(labels) + 1)]]; [range] of NaN is a TypeError; for [label_to_index], encoder.py:248-256 *)
Definition fresh_clusters {B} (l : list (option nat)) : res (list (list B)) :=
  do m <- max_label l;
  match m with
  | Some c => Ok (repeat [] (c + 1))
  | None => Raise TypeError
  end.

(** loop body of encoder.py:251-254 / 262-265 *)
Definition push {B} (cl : list (list B)) (c : nat) (x : B) : res (list (list B)) :=
  if c <? length cl then Ok (upd cl c (nth c cl [] ++ [x])) else Raise IndexError.

(** for [label_to_index], encoder.py:248-256 *)
Fixpoint distribute {B} (item : nat -> res B) (labels : list (option nat)) (cl : list (list B)) (idx : list nat)
  : res (list (list B)) :=
  match idx with
  | [] => Ok cl
  | i :: t =>
    do lab <- get_item labels i;
    match lab with
    | None => distribute item labels cl t
    | Some c => do x <- item i; do cl' <- push cl c x; distribute item labels cl' t
    end
  end.

(** encoder.py:248-256 [__convert_label_to_index] *)
Definition label_to_index (data : list A) (labels : list (option nat)) : res (list (list nat)) :=
  do cl <- fresh_clusters labels;
  distribute (fun i => Ok i) labels cl (seq 0 (length data)).

(** encoder.py:259-267 [__convert_label_to_object] *)
Definition label_to_object (data : list A) (labels : list (option nat)) : res (list (list A)) :=
  do cl <- fresh_clusters labels;
  distribute (get_item data) labels cl (seq 0 (length data)).

(** encoder.py:147-184 [set_encoding] *)
Definition set_encoding (data : list A) (r : repr) (e : encoding) : res repr :=
  match r, e with
  | Labels _, ELabels | Indices _, EIndices | Objects _, EObjects => Ok r
  | Labels l, EIndices => do c <- label_to_index data l; Ok (Indices c)
  | Labels l, EObjects => do c <- label_to_object data l; Ok (Objects c)
  | Indices c, ELabels => do l <- index_to_label data c; Ok (Labels l)
  | Indices c, EObjects => do o <- index_to_object data c; Ok (Objects o)
  | Objects o, ELabels => do l <- object_to_label data o; Ok (Labels l)
  | Objects o, EIndices => do c <- object_to_index data o; Ok (Indices c)
  end.
End Encoder.
Arguments Labels {A} l.
Arguments Indices {A} cl.
Arguments Objects {A} cl.
