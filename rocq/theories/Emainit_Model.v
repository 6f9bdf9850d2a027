(** Model of the start of the EM algorithm, /repo/pyclustering/cluster/ema.py:
    ema_initializer (L83-212) and the choice of the initial parameters by the
    constructor of ema (L500-514).  Numbers are exact rationals; points are
    lists (for numpy arrays [mean in initial_means] of L180 raises ValueError).
    The random numbers are streams: [ri] the values of
    random.randint(0, len(sample)), [ru] those of random.random(); the
    functions take and return the positions in them. *)
From Verif Require Import Base Kmeans_Model.

(** for [sample_cov], cluster/ema.py:166 *)
Definition matrix : Type := list (list Q).
(** for [sample_cov], cluster/ema.py:166 *)
Definition qtotal (l : list Q) : Q := fold_left Qplus l 0%Q.
(** for [sample_cov], cluster/ema.py:166 *)
Definition countq (n : nat) : Q := inject_Z (Z.of_nat n).

Section Init.
Variable sample : list point.
Variable ri : nat -> nat.
Variable ru : nat -> Q.

(** [self.__sample[random.randint(0, len(self.__sample)) - 1]], cluster/ema.py L178, L181:
    the draw 0 is the index -1, the last point. *)
Definition take (d : nat) : res point :=
  match length sample with
  | O => Raise IndexError
  | S last => if d =? 0 then Ok (nth last sample []) else if d - 1 <=? last then Ok (nth (d - 1) sample []) else Raise IndexError
  end.

(** [mean in initial_means]. for [retry], cluster/ema.py:180-182 *)
Definition member (m : point) (ms : list point) : bool := existsb (peqb m) ms.

(** The loop cluster/ema.py L180-182; [left] is 10 - attempts. *)
Fixpoint retry (left : nat) (mean : point) (means : list point) (pos : nat) : res (point * nat * nat) :=
  match left with
  | O => Ok (mean, O, pos)
  | S left' =>
      if member mean means then do m <- take (ri pos); retry left' m means (S pos)
      else Ok (mean, left, pos)
  end.

(** cluster/ema.py L185. *)
Definition perturb (mean : point) (posu : nat) : point :=
  map (fun d => coord mean d + (ru (posu + d) - (1 # 2)) * coord mean d * (2 # 10))%Q (seq 0 (length mean)).

(** The loop cluster/ema.py L177-187: [amount] means are still to be chosen. *)
Fixpoint random_means (amount : nat) (means : list point) (pos posu : nat) : res (list point * nat) :=
  match amount with
  | O => Ok (means, posu)
  | S amount' =>
      do m <- take (ri pos);
      do r <- retry 10 m means (S pos);
      let '(mean, rest, pos') := r in
      if rest =? 0 then random_means amount' (means ++ [perturb mean posu]) pos' (posu + length mean)
      else random_means amount' (means ++ [mean]) pos' posu
  end.

(** __calculate_initial_clusters, cluster/ema.py L137-158 (the inner loop is that of
    k-medians); without centres a point goes to clusters[-1], an IndexError. *)
Definition initial_clusters (centers : list point) : res (list (list nat)) :=
  match centers, sample with
  | [], _ :: _ => Raise IndexError
  | _, _ =>
      Ok (fold_left (fun cl i => push cl (kmedians_nearest sqdist (nth i sample []) centers 0 0 0%Q) i)
            (seq 0 (length sample)) (repeat [] (length centers)))
  end.

(** for [sample_cov], cluster/ema.py:166 *)
Definition dim : nat := length (nth 0 sample []).

(** [numpy.cov(cluster_sample, rowvar=False)], cluster/ema.py L166, L207: the unbiased sample
    covariance (for one dimension numpy returns a number instead of a 1x1
    matrix). *)
Definition sample_cov (cluster : list nat) : matrix :=
  let n := length cluster in
  let mean d := (qtotal (map (fun i => coord (nth i sample []) d) cluster) / countq n)%Q in
  map (fun a => map (fun b =>
    (qtotal (map (fun i => (coord (nth i sample []) a - mean a) * (coord (nth i sample []) b - mean b)) cluster)
     / countq (n - 1))%Q) (seq 0 dim)) (seq 0 dim).

(** __calculate_initial_covariances, cluster/ema.py L161-171, and L203-210. *)
Fixpoint initial_covariances (clusters : list (list nat)) (posu : nat) : list matrix :=
  match clusters with
  | [] => []
  | c :: rest =>
      if 1 <? length c then sample_cov c :: initial_covariances rest posu
      else repeat (repeat (0 + ru posu / 10)%Q dim) dim :: initial_covariances rest (S posu)
  end.

(** __initialize_random, cluster/ema.py L174-192. *)
Definition initialize_random (amount : nat) (pos posu : nat) : res (list point * list matrix) :=
  do r <- random_means amount [] pos posu;
  do cl <- initial_clusters (fst r);
  Ok (fst r, initial_covariances cl (snd r)).

(** __initialize_kmeans, cluster/ema.py L195-212, after the k-means run has returned the
    centres and the clusters. *)
Definition initialize_kmeans (centers : list point) (clusters : list (list nat)) (posu : nat) : list point * list matrix :=
  (centers, initial_covariances clusters posu).
End Init.

(** ema.__init__, cluster/ema.py L500-514, with __verify_arguments (L736-746): the amount of
    clusters, the means and the covariances the process starts with, and the
    length of the lists of L511-514; [init] is what the initialiser returns. *)
Definition ema_start (data : list point) (amount : nat) (means : option (list point)) (variances : option (list matrix))
    (init : list point * list matrix) : res (nat * list point * list matrix * nat) :=
  if length data =? 0 then Raise ValueError
  else if amount <? 1 then Raise ValueError
  else match means, variances with
       | Some ms, Some vs => Ok (amount, ms, vs, amount)
       | _, _ => Ok (if negb (length (fst init) =? amount) then length (fst init) else amount, fst init, snd init, amount)
       end.
