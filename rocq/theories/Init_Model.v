(** cluster/center_initializer.py and utils/sampling.py.
    Random draws are explicit arguments.  Python sets of indexes are lists; the choice made by
    set.pop() and next(iter(set)) is an arbitrary function [pick]. *)
From Verif Require Import Base Kmeans_Model Kmedoids_Model.

(** for [create_center], center_initializer.py:77-92 *)
Definition remove_nat (x : nat) (l : list nat) : list nat := filter (fun y => negb (y =? x)) l.

(** set.remove; for [create_center], center_initializer.py:77-92 *)
Definition set_remove (x : nat) (l : list nat) : res (list nat) :=
  if mem x l then Ok (remove_nat x l) else Raise KeyError.

Section Choice.
Variable pick : list nat -> nat.

(** * random_center_initializer *)

(** center_initializer.py:77-92 __create_center: draw of randint(0, len(data)) and the set of
    available indexes *)
Definition create_center (draw : nat) (available : list nat) : res (nat * list nat) :=
  if mem draw available then
    do a <- set_remove draw available; Ok (draw, a)
  else match available with
       | [] => Raise KeyError                    (* set.pop() of an empty set *)
       | _ => let x := pick available in Ok (x, remove_nat x available)
       end.

(** the comprehension of cluster/center_initializer.py L74; one draw per centre *)
Fixpoint create_centers (draws : list nat) (available : list nat) : res (list nat * list nat) :=
  match draws with
  | [] => Ok ([], available)
  | d :: t =>
      do xa <- create_center d available;
      do r <- create_centers t (snd xa);
      Ok (fst xa :: fst r, snd r)
  end.

(** constructor check cluster/center_initializer.py L47-51: the set of available indexes of a new object *)
Definition random_new (n amount : nat) : res (list nat) :=
  if amount =? 0 then Raise ValueError
  else if n <? amount then Raise ValueError
  else Ok (seq 0 n).

(** center_initializer.py:54-74 initialize(return_index=True) *)
Definition random_initialize (n amount : nat) (draws : nat -> nat) (available : list nat) : res (list nat * list nat) :=
  if amount =? n then Ok (seq 0 n, available)
  else create_centers (map draws (seq 0 amount)) available.

(** * kmeans_plusplus_initializer *)
Section Plus.
Variable D : nat -> nat -> Q.   (* D c j: distance of point j to the point c *)
Variable n : nat.

(** cluster/center_initializer.py L227-251: numpy.nanmin over the centres *)
Definition shortest (centers : list nat) : list Q :=
  map (fun j => match centers with [] => 0%Q | c :: t => fold_left (fun m c' => pymin m (D c' j)) t (D c j) end) (seq 0 n).

(** numpy.nanargmax: first largest value that is not NaN ([None]); cluster/center_initializer.py:270 *)
Fixpoint nanargmax_from (i : nat) (l : list (option Q)) (best : option (nat * Q)) : option (nat * Q) :=
  match l with
  | [] => best
  | None :: t => nanargmax_from (S i) t best
  | Some v :: t =>
      nanargmax_from (S i) t
        (match best with None => Some (i, v) | Some (_, b) => if Qltb b v then Some (i, v) else best end)
  end.

(** cluster/center_initializer.py:254-275 *)
Definition farthest (centers : list nat) : res nat :=
  let distances := map (fun j => if mem j centers then None else Some (nth j (shortest centers) 0%Q)) (seq 0 n) in
  match nanargmax_from 0 distances None with Some (i, _) => Ok i | None => Raise ValueError end.

(** cluster/center_initializer.py L296-311 *)
Fixpoint cumsum (acc : Q) (l : list Q) : list Q :=
  match l with [] => [] | x :: t => (acc + x)%Q :: cumsum (acc + x)%Q t end.
(** with [cumsum], cluster/center_initializer.py:296-311 *)
Definition probabilities (distances : list Q) : list Q :=
  let total := sumQ distances in
  if Qeq_bool total 0 then repeat 0%Q (length distances)
  else cumsum 0 (map (fun d => (d / total)%Q) distances).

(** cluster/center_initializer.py L330-333; [None] is -1 *)
Fixpoint find_candidate (r : Q) (i : nat) (probs : list Q) : option nat :=
  match probs with
  | [] => None
  | p :: t => if Qltb r p then Some i else find_candidate r (S i) t
  end.

(** cluster/center_initializer.py L314-340, one random number per candidate *)
Definition probable_center (draws : list Q) (distances probs : list Q) (free : list nat) : nat :=
  fold_left (fun best r =>
     match find_candidate r 0 probs with
     | None => pick free
     | Some c => if Qltb (nth best distances 0%Q) (nth c distances 0%Q) then c else best
     end) draws 0.

(** which variant; [Some k] is an amount of candidates, [None] is FARTHEST_CENTER_CANDIDATE; cluster/center_initializer.py:254-275 __get_next_center *)
Definition next_center (candidates : option nat) (draws : nat -> Q) (centers free : list nat) : res nat :=
  match candidates with
  | None => farthest centers
  | Some k =>
      let distances := shortest centers in
      Ok (probable_center (map draws (seq 0 k)) distances (probabilities distances) free)
  end.

(** cluster/center_initializer.py L371-374; [draws t] are the random numbers used for the t-th next centre *)
Fixpoint plus_loop (candidates : option nat) (draws : nat -> nat -> Q) (t : nat) (more : nat) (centers free : list nat)
  : res (list nat * list nat) :=
  match more with
  | 0 => Ok (centers, free)
  | S more' =>
      do x <- next_center candidates (draws t) centers free;
      do free' <- set_remove x free;
      plus_loop candidates draws (S t) more' (centers ++ [x]) free'
  end.

(** constructor check cluster/center_initializer.py L209-224 *)
Definition plus_new (amount : nat) (candidates : option nat) : res (list nat) :=
  if (amount =? 0) || (n <? amount) then Raise ValueError
  else match candidates with
       | Some k => if (k =? 0) || (n <? k) then Raise ValueError else Ok (seq 0 n)
       | None => Ok (seq 0 n)
       end.

(** cluster/center_initializer.py L343-379 initialize(return_index=True); [draw0] is randint(0, len(data) - 1) *)
Definition plus_initialize (amount : nat) (candidates : option nat) (draw0 : nat) (draws : nat -> nat -> Q) (free : list nat)
  : res (list nat * list nat) :=
  do free' <- set_remove draw0 free;
  plus_loop candidates draws 0 (amount - 1) [draw0] free'.
End Plus.
End Choice.

(** * reservoir sampling *)
Section Reservoir.
Context {A : Type}.

(** sampling.py:49-52; [draws i] is randrange(0, i + 1) *)
Fixpoint reservoir_r_loop (n : nat) (draws : nat -> nat) (i : nat) (rest : list A) (reservoir : list A) : list A :=
  match rest with
  | [] => reservoir
  | x :: t => reservoir_r_loop n draws (S i) t (if draws i <? n then upd reservoir (draws i) x else reservoir)
  end.

(** sampling.py:15-54 *)
Definition reservoir_r (data : list A) (n : nat) (draws : nat -> nat) : res (list A) :=
  if length data <? n then Raise ValueError
  else Ok (reservoir_r_loop n draws n (skipn n data) (firstn n data)).

(** sampling.py:82-83 *)
Definition skip_value (t size skip : nat) : Q :=
  ((inject_Z (Z.of_nat (t + 1) - Z.of_nat size) ^ Z.of_nat (skip + 1)) / (inject_Z (Z.of_nat (t + 1)) ^ Z.of_nat (skip + 1)))%Q.

(** sampling.py:85-89; [None]: more than [fuel] turns of the loop *)
Fixpoint generate_skip (fuel : nat) (t size : nat) (threshold : Q) (skip : nat) : option nat :=
  match fuel with
  | 0 => None
  | S f => if Qltb threshold (skip_value t size skip) then generate_skip f t size threshold (S skip) else Some skip
  end.

(** sampling.py:98-105; the j-th pass uses thresholds j and slots j; [None]: out of fuel *)
Fixpoint reservoir_x_loop (fuel : nat) (data : list A) (n : nat) (thresholds : nat -> Q) (slots : nat -> nat)
    (j i : nat) (reservoir : list A) : option (list A) :=
  match fuel with
  | 0 => None
  | S f =>
      if i <? length data then
        match generate_skip f i n (thresholds j) 0 with
        | None => None
        | Some s =>
            let i' := i + s in
            let reservoir' :=
              match nth_error data i' with
              | Some x => upd reservoir (slots j) x
              | None => reservoir
              end in
            reservoir_x_loop f data n thresholds slots (S j) (S i') reservoir'
        end
      else Some reservoir
  end.

(** sampling.py:57-107 *)
Definition reservoir_x (fuel : nat) (data : list A) (n : nat) (thresholds : nat -> Q) (slots : nat -> nat) : res (option (list A)) :=
  if length data <? n then Raise ValueError
  else Ok (reservoir_x_loop fuel data n thresholds slots 0 n (firstn n data)).
End Reservoir.
