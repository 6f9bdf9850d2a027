(** Model of /repo/pyclustering/cluster/generator.py, data_generator (L16-96).
    Numbers are exact rationals (floats in the code).  The random numbers are
    a stream [z] of standard normal deviates: random.gauss(mu, sigma) is
    [mu + z * sigma]; every function takes and returns the position in it. *)
From Verif Require Import Base.

(** A number for all clusters or a sequence, cluster/generator.py L39-45. *)
Inductive per_cluster (A : Type) : Type := Same (x : A) | Each (l : list A).
Arguments Same {A}. Arguments Each {A}.
(** for [generator_init], cluster/generator.py:22-49 *)
Definition expand {A} (amount : nat) (v : per_cluster A) : list A :=
  match v with Same x => repeat x amount | Each l => l end.

(** The attributes, cluster/generator.py L36-49. *)
Record generator : Type := mkGen
  { gn_amount : nat; gn_dimension : nat; gn_sizes : list nat; gn_widths : list Q; gn_centers : list point }.

Section Random.
Variable z : nat -> Q.

(** random.gauss at the position [pos] of the stream. for [default_centers], cluster/generator.py:92-94 *)
Definition gauss (mu sigma : Q) (pos : nat) : Q := (mu + z pos * sigma)%Q.

(** [max(width)], cluster/generator.py L91. *)
Definition list_max_q (l : list Q) : res Q :=
  match l with [] => Raise ValueError | x :: r => Ok (fold_left (fun m v => if Qltb m v then v else m) r x) end.

(** __generate_cluster_centers, the loop of cluster/generator.py L92-94 over the clusters [is]. *)
Fixpoint default_centers (dimension : nat) (offset : Q) (width : list Q) (is : list nat) (pos : nat)
  : res (list point * nat) :=
  match is with
  | [] => Ok ([], pos)
  | i :: rest =>
      match nth_error width i with
      | None => if dimension =? 0 then do r <- default_centers dimension offset width rest pos; Ok ([] :: fst r, snd r)
                else Raise IndexError
      | Some w =>
          do r <- default_centers dimension offset width rest (pos + dimension);
          Ok (map (fun d => gauss (inject_Z (Z.of_nat i) * offset) (w / 2) (pos + d)) (seq 0 dimension) :: fst r, snd r)
      end
  end.

(** __init__, cluster/generator.py L22-49. *)
Definition generator_init (amount dimension : nat) (sizes : per_cluster nat) (centers : option (list point))
    (width : per_cluster Q) (pos : nat) : res (generator * nat) :=
  let ws := expand amount width in
  match centers with
  | Some cs => Ok (mkGen amount dimension (expand amount sizes) ws cs, pos)
  | None =>
      do m <- list_max_q ws;
      do r <- default_centers dimension (m * 4) ws (seq 0 amount) pos;
      Ok (mkGen amount dimension (expand amount sizes) ws (fst r), snd r)
  end.

(** __generate_point, cluster/generator.py L67-78, the coordinates of the dimensions [ds]. *)
Fixpoint generate_point (g : generator) (index : nat) (ds : list nat) (pos : nat) : res (point * nat) :=
  match ds with
  | [] => Ok ([], pos)
  | d :: rest =>
      match nth_error (gn_centers g) index with
      | None => Raise IndexError
      | Some c =>
          match nth_error c d, nth_error (gn_widths g) index with
          | Some mu, Some w =>
              do r <- generate_point g index rest (S pos);
              Ok (gauss mu (w / 2) pos :: fst r, snd r)
          | _, _ => Raise IndexError
          end
      end
  end.

(** The inner loop of generate, cluster/generator.py L60-62. *)
Fixpoint generate_cluster (g : generator) (index count pos : nat) : res (list point * nat) :=
  match count with
  | O => Ok ([], pos)
  | S k =>
      do p <- generate_point g index (seq 0 (gn_dimension g)) pos;
      do r <- generate_cluster g index k (snd p);
      Ok (fst p :: fst r, snd r)
  end.

(** The outer loop of generate, cluster/generator.py L59-62. *)
Fixpoint generate_clusters (g : generator) (is : list nat) (pos : nat) : res (list point * nat) :=
  match is with
  | [] => Ok ([], pos)
  | i :: rest =>
      match nth_error (gn_sizes g) i with
      | None => Raise IndexError
      | Some n =>
          do c <- generate_cluster g i n pos;
          do r <- generate_clusters g rest (snd c);
          Ok (fst c ++ fst r, snd r)
      end
  end.

(** generate, cluster/generator.py L52-64. *)
Definition generate (g : generator) (pos : nat) : res (list point * nat) :=
  generate_clusters g (seq 0 (gn_amount g)) pos.
End Random.
