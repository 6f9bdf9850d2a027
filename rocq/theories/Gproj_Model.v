(** cluster/gmeans.py: the test that decides whether a cluster is split.  scipy's Anderson-Darling test of a sample of numbers is a parameter. *)
From Verif Require Import Base Cftree_Model.
Local Open Scope Q_scope.

(** numpy.subtract of points of one dimension, gmeans.py:323 *)
Fixpoint psub (a b : point) : point := match a, b with x :: a', y :: b' => (x - y) :: psub a' b' | _, _ => [] end.
(** gmeans.py:334-350 _project_data; for a zero vector the code divides by zero (nan), here the quotient is zero *)
Definition project_data (data : list point) (vector : point) : list Q := map (fun p => dot p vector / dot vector vector) data.
(** gmeans.py:313-330 _is_null_hypothesis; [accepts] is estimation < critical[-1] of scipy.stats.anderson *)
Definition is_null_hypothesis (accepts : list Q -> bool) (data : list point) (centers : list point) : bool :=
  accepts (project_data data (psub (nth 0%nat centers []) (nth 1%nat centers []))).
