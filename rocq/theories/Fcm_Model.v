(** cluster/fcm.py (python branch) with real arithmetic.  Points and centres have one dimension and the
    hyper-parameter m is above 1, as the documentation demands (with m = 1 the constructor divides by zero). *)
From Verif Require Import Base Kmeans_Model Elbow_Model Metric_Model.
From Coq Require Import Reals.
Local Open Scope R_scope.

(** for [difference], fcm.py:256 *)
Definition rtotal (l : list R) : R := fold_right Rplus 0 l.

Section Fcm.
Variable data : list rpoint.
Variable m : R.

(** fcm.py:119 *)
Definition degree : R := 2 / (m - 1).
(** fcm.py:256: one element of data_difference *)
Definition difference (p c : rpoint) : R := rtotal (map2 (fun a b => (a - b) ^ 2) p c).
(** pow(x, degree) for x >= 0 and a positive degree; for [divider], fcm.py:260 *)
Definition rpow (x : R) : R := if Req_EM_T x 0 then 0 else Rpower x degree.
(** for [divider], fcm.py:260 *)
Definition differs (d : R) : bool := if Req_EM_T d 0 then false else true.
(** fcm.py:260; [ds] are the differences from one point to all centres, [dj] is one of them *)
Definition divider (ds : list R) (dj : R) : R := rtotal (map (fun dk => rpow (dj / dk)) (filter differs ds)).
(** fcm.py:262-265 *)
Definition member (ds : list R) (dj : R) : R := if Req_EM_T (divider ds dj) 0 then 1 else 1 / divider ds dj.
(** with [member], fcm.py:262-265 *)
Definition point_membership (centers : list rpoint) (p : rpoint) : list R :=
  let ds := map (difference p) centers in map (member ds) ds.
(** fcm.py:248-265 __update_membership *)
Definition update_membership (centers : list rpoint) : list (list R) := map (point_membership centers) data.

(** fcm.py:238: number of columns *)
Definition dim : nat := length (nth 0 data []).
(** fcm.py:243: column j of the memberships *)
Definition column (membership : list (list R)) (j : nat) : list R := map (fun row => nth j row 0) membership.
(** fcm.py:229-245 __calculate_centers *)
Definition calculate_centers (membership : list (list R)) (amount : nat) : list rpoint :=
  map (fun j => map (fun d => rtotal (map2 (fun w p => w * nth d p 0) (column membership j) data) / rtotal (column membership j)) (seq 0 dim)) (seq 0 amount).
(** fcm.py:268-276 __calculate_changes *)
Definition calculate_changes (centers updated : list rpoint) : R := fold_right Rmax 0 (map2 difference centers updated).

(** fcm.py:218-224; None is the initial infinite change *)
Fixpoint fcm_loop (tolerance : R) (left : nat) (change : option R) (membership : list (list R)) (centers : list rpoint) : list (list R) * list rpoint :=
  match left with
  | O => (membership, centers)
  | S left' =>
      if match change with None => true | Some c => if Rlt_dec tolerance c then true else false end then
        let membership' := update_membership centers in
        let updated := calculate_centers membership' (length centers) in
        fcm_loop tolerance left' (Some (calculate_changes centers updated)) membership' updated
      else (membership, centers)
  end.

(** fcm.py:281 numpy.argmax of one row: the first largest *)
Definition argmax (row : list R) : nat := match row with [] => O | v :: t => index_max_from 0 v 1 t end.
(** fcm.py:279-284 __extract_clusters *)
Definition extract_clusters (membership : list (list R)) (amount : nat) : list (list nat) :=
  fold_left (fun cl i => push cl (argmax (nth i membership [])) i) (seq 0 (length membership)) (repeat [] amount).

(** fcm.py:205-226 __process_by_python after the checks 287-296: (clusters, centers, membership) *)
Definition fcm_process (initial : list rpoint) (tolerance : R) (itermax : nat) : res (list (list nat) * list rpoint * list (list R)) :=
  if (length data =? 0)%nat then Raise ValueError else
  if (length initial =? 0)%nat then Raise ValueError else
  let r := fcm_loop tolerance itermax None (map (fun _ => map (fun _ => 0) initial) data) initial in
  Ok (extract_clusters (fst r) (length (snd r)), snd r, fst r).
End Fcm.
