(** cluster/ga.py and cluster/ga_maths.py.  Coordinates are exact rationals.  The random numbers of a run are the
    functions of the section below; the number of the generation is their first argument.  best_chromosome is a view
    of a row of the population array, but every generation works on a new array (ga.py:524), so it is a value here. *)
From Coq Require Import Qround.
From Verif Require Import Base Kmeans_Model.

Section Ga.
Variable data : list point.
Variable count_clusters : nat.
Let n := length data.
Let dim := dimension data.

(** ga_maths.py:26-42 get_clusters_representation with the number of clusters; a gene out of range is an IndexError *)
Definition get_clusters_representation (chromosome : list nat) : res (list (list nat)) :=
  if existsb (fun c => count_clusters <=? c) chromosome then Raise IndexError
  else Ok (fold_left (fun cl i => push cl (nth i chromosome 0) i) (seq 0 (length chromosome)) (repeat [] count_clusters)).

(** centers[k] += data[i], count[k] += 1, ga_maths.py:74-75 *)
Definition add_to (p q : point) : point := map (fun d => (coord p d + coord q d)%Q) (seq 0 dim).
(** with [add_to], ga_maths.py:74-75 *)
Definition accumulate (chromosome : list nat) (acc : list point * list nat) (i : nat) : list point * list nat :=
  let k := nth i chromosome 0 in
  (upd (fst acc) k (add_to (nth k (fst acc) []) (nth i data [])), upd (snd acc) k (S (nth k (snd acc) 0))).
(** ga_maths.py:54-81 calc_centers of one chromosome *)
Definition calc_centers (chromosome : list nat) : list point :=
  let acc := fold_left (accumulate chromosome) (seq 0 (length chromosome)) (repeat (repeat 0%Q dim) count_clusters, repeat 0 count_clusters) in
  map (fun k => let c := nth k (fst acc) [] in let m := nth k (snd acc) 0 in
         if m =? 0 then c else map (fun x => (x / inject_Z (Z.of_nat m))%Q) c) (seq 0 count_clusters).

(** ga.py:671-702 _calc_fitness_function of one chromosome *)
Definition fitness (chromosome : list nat) : Q :=
  let centres := calc_centers chromosome in
  sumQ (concat (map (fun i => map (fun d => Qabs (coord (nth i data []) d - coord (nth (nth i chromosome 0) centres []) d)) (seq 0 dim)) (seq 0 n))).

(** ga.py:644-667 _get_best_chromosome: argmin of no chromosomes is a ValueError *)
Definition get_best (chromosomes : list (list nat)) : res (list nat * Q) :=
  match chromosomes with
  | [] => Raise ValueError
  | _ => let f := map fitness chromosomes in let b := argmin f in Ok (nth b chromosomes [], nth b f 0%Q)
  end.

(** random numbers *)
Variable chromosome_count : nat.
Variable init : nat -> nat -> nat.                (* chromosome, gene *)
Variable pick : nat -> nat -> list Q -> nat.      (* ga_math.get_uniform of the probabilities, see Ga_Select *)
Variable pairs : nat -> list nat.                 (* shuffled indices of crossover *)
Variable mask : nat -> nat -> nat -> bool.        (* pair, gene *)
Variable order : nat -> list nat.                 (* shuffled indices of mutation *)
Variable gene : nat -> nat -> nat -> nat.         (* chromosome, number of the mutation *)
Variable value : nat -> nat -> nat -> nat.
Variable count_mutation_gens : nat.
Variable coeff_mutation_count : Q.

(** ga.py:628-640 _init_population *)
Definition init_population : list (list nat) :=
  map (fun c => map (fun i => init c i mod count_clusters) (seq 0 n)) (seq 0 chromosome_count).

(** ga.py:505-530 _select; any choice [pick] is allowed here, the roulette of L518-521 is modelled in Gaobs_Model.v; the
    ValueError when exp(1 + fitness * select_coeff) overflows is left out *)
Definition select_population (g : nat) (chromosomes : list (list nat)) : list (list nat) :=
  let f := map fitness chromosomes in
  map (fun k => nth (pick g k f) chromosomes []) (seq 0 (length chromosomes)).

(** ga.py:589-603 _crossover_a_pair, first and second chromosome afterwards *)
Definition cross (m : nat -> bool) (a b : list nat) : list nat * list nat :=
  (map (fun i => if m i then nth i b 0 else nth i a 0) (seq 0 (length a)),
   map (fun i => if m i then nth i a 0 else nth i b 0) (seq 0 (length b))).
(** ga.py:534-558 _crossover; the masks of 607-624 are arbitrary here *)
Definition crossover_step (g : nat) (offset : nat) (chromosomes : list (list nat)) (idx : nat) : list (list nat) :=
  let p := nth idx (pairs g) 0 in
  let q := nth (idx + offset) (pairs g) 0 in
  let ab := cross (mask g idx) (nth p chromosomes []) (nth q chromosomes []) in
  upd (upd chromosomes p (fst ab)) q (snd ab).
(** with [crossover_step], ga.py:534-558 *)
Definition crossover (g : nat) (chromosomes : list (list nat)) : list (list nat) :=
  let offset := length (pairs g) / 2 in
  fold_left (crossover_step g offset) (seq 0 offset) chromosomes.

(** ga.py:562-585 _mutation; int(len * coefficient) chromosomes, more than there are is an IndexError *)
Definition mutation_step (g : nat) (idx : nat) (chromosomes : list (list nat)) (m : nat) : list (list nat) :=
  let c := nth idx (order g) 0 in
  upd chromosomes c (upd (nth c chromosomes []) (gene g idx m mod n) (value g idx m mod count_clusters)).
(** with [mutation_step], ga.py:562-585 *)
Definition mutation (g : nat) (chromosomes : list (list nat)) : res (list (list nat)) :=
  let amount := Z.to_nat (Qfloor (inject_Z (Z.of_nat (length chromosomes)) * coeff_mutation_count)) in
  if (length (order g) <? amount) && (0 <? count_mutation_gens) then Raise IndexError
  else Ok (fold_left (fun cs idx => fold_left (mutation_step g idx) (seq 0 count_mutation_gens) cs) (seq 0 amount) chromosomes).

(** one generation, ga.py:453-459 *)
Definition next_population (g : nat) (chromosomes : list (list nat)) : res (list (list nat)) :=
  mutation g (crossover g (select_population g chromosomes)).

(** ga.py:450-474: [left] generations to go, [g] done; the last result are the values given to collect_global_best *)
Fixpoint generations (left g : nat) (chromosomes : list (list nat)) (best : list nat * Q) (observed : list Q) : res (list nat * Q * list Q) :=
  match left with
  | 0 => Ok (best, observed)
  | S left' =>
      do cs <- next_population g chromosomes;
      do new <- get_best cs;
      let best' := if Qltb (snd new) (snd best) then new else best in
      generations left' (S g) cs best' (observed ++ [snd best'])
  end.

(** ga.py:428-480 process with the checks 705-715: best chromosome, its fitness, observed values *)
Definition ga_process (population_count : nat) : res (list nat * Q * list Q) :=
  if n =? 0 then Raise ValueError
  else if count_clusters =? 0 then Raise ValueError
  else
    do best <- get_best init_population;
    generations population_count 0 init_population best [snd best].

(** ga.py:491-501 get_clusters after process *)
Definition ga_clusters (r : list nat * Q * list Q) : res (list (list nat)) := get_clusters_representation (fst (fst r)).
End Ga.
