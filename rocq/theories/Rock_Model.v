(** cluster/rock.py (python branch). *)
From Coq Require Import Reals.
From Verif Require Import Base Aggl_Model.

Section Rock.
Variable data : list point.
Variable eps : Q.
Variable threshold : R.

(** rock.py:186-200 __create_adjacency_matrix; the square root is not taken, both sides are squared
    (eps is not negative, rock.py:229) *)
Definition adjacent (i j : nat) : bool :=
  negb (i =? j) && Qle_bool (sqdist (nth i data []) (nth j data [])) (eps * eps).

(** rock.py:165-183 __calculate_links *)
Definition calculate_links (c1 c2 : list nat) : nat :=
  length (filter (fun ab => adjacent (fst ab) (snd ab)) (list_prod c1 c2)).

(** rock.py:78 *)
Definition degree_normalization : R := (1 + 2 * ((1 - threshold) / (1 + threshold)))%R.

(** rock.py:216; ** is the power of positive reals *)
Definition devider (n1 n2 : nat) : R :=
  (Rpower (INR (n1 + n2)) degree_normalization - Rpower (INR n1) degree_normalization - Rpower (INR n2) degree_normalization)%R.

(** rock.py:204-218 __calculate_goodness *)
Definition calculate_goodness (c1 c2 : list nat) : res R :=
  let d := devider (length c1) (length c2) in
  if Req_EM_T d 0 then Raise ZeroDivisionError else Ok (INR (calculate_links c1 c2) / d)%R.

(** rock.py:155-160: the two loops, with the maximum so far and its pair ([-1, -1] is None) *)
Fixpoint find_loop (cl : list (list nat)) (ps : list (nat * nat)) (maximum : R) (best : option (nat * nat)) : res (option (nat * nat)) :=
  match ps with
  | [] => Ok best
  | (i, j) :: ps' =>
      do g <- calculate_goodness (nth i cl []) (nth j cl []);
      if Rlt_dec maximum g then find_loop cl ps' g (Some (i, j)) else find_loop cl ps' maximum best
  end.

(** rock.py:140-162 __find_pair_clusters *)
Definition find_pair_clusters (cl : list (list nat)) : res (option (nat * nat)) := find_loop cl (pairs (length cl)) 0%R None.

(** rock.py:103-110; fuel: the number of merges *)
Fixpoint rock_loop (fuel : nat) (number : nat) (cl : list (list nat)) : res (list (list nat)) :=
  if number <? length cl then
    match fuel with
    | 0 => Raise OutOfFuel
    | S f =>
        do p <- find_pair_clusters cl;
        match p with
        | Some (i, j) => rock_loop f number (pop (upd cl i (nth i cl [] ++ nth j cl [])) j)
        | None => Ok cl
        end
    end
  else Ok cl.

(** rock.py:53-81, 221-237 and 84-111; number_clusters=None is accepted by the constructor but
    process() fails on the comparison in line 103, so that it is not modelled *)
Definition rock (number : nat) : res (list (list nat)) :=
  match data with
  | [] => Raise ValueError
  | _ =>
      if Qltb eps 0 then Raise ValueError
      else if Rlt_dec threshold 0 then Raise ValueError
      else if Rlt_dec 1 threshold then Raise ValueError
      else if number =? 0 then Raise ValueError
      else rock_loop (length data) number (map (fun i => [i]) (seq 0 (length data)))
  end.
End Rock.
