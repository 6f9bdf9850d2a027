(** The genetic algorithm: C43, C98, C99. *)
From Coq Require Import Qround Qminmax.
From Verif Require Import Base Kmeans_Model Kmeans_Proofs Ga_Model Ga_Proofs.

(** the random numbers of a run: selected indexes are indexes, shuffled arrays are permutations *)
Definition fair (m : nat) (pick : nat -> nat -> list Q -> nat) (pairs order : nat -> list nat) : Prop :=
  (forall g i f, length f = m -> 0 < m -> pick g i f < m) /\
  (forall g, Permutation (pairs g) (seq 0 m)) /\ (forall g, Permutation (order g) (seq 0 m)).

(** C43: every chromosome of every generation gives each point a cluster in range *)
Theorem C43_chromosomes_valid data k m init pick pairs mask order gene value genes coeff g cs :
  0 < k -> fair m pick pairs order -> generation data k m init pick pairs mask order gene value genes coeff g cs ->
  length cs = m /\ forall c, In c cs -> length c = length data /\ forall i, i < length data -> nth i c 0 < k.
Proof.
  intros Hk (H1 & H2 & H3) G. apply generation_ok in G as (L & F); auto. split; auto. intros c Hc. rewrite Forall_forall in F.
  destruct (F c Hc) as (Lc & Fc). split; auto. intros i Hi. rewrite Forall_forall in Fc. apply Fc, nth_In. lia.
Qed.
Print Assumptions C43_chromosomes_valid.

(** C43: the run ends, the returned clusters are [k] lists with all points once, by the labels of the best chromosome *)
Theorem C43_clusters_partition data k m init pick pairs mask order gene value genes coeff count :
  data <> [] -> 0 < k -> 0 < m -> (coeff <= 1)%Q -> fair m pick pairs order ->
  exists r cl, ga_process data k m init pick pairs mask order gene value genes coeff count = Ok r /\ ga_clusters k r = Ok cl /\
    length cl = k /\ partitions (length data) cl /\
    forall i j, i < length data -> j < k -> (In i (nth j cl []) <-> nth i (fst (fst r)) 0 = j).
Proof.
  intros Hd Hk Hm Hc (H1 & H2 & H3).
  destruct (ga_total data k m init pick pairs mask order gene value genes coeff Hk H1 H2 H3 count Hd Hc Hm) as (r & E).
  destruct (ga_spec data k m init pick pairs mask order gene value genes coeff Hk H1 H2 H3 count r Hm E) as (cs & _ & _ & _ & (g & cs' & _ & G & I) & _).
  apply generation_ok in G as (_ & F); auto. rewrite Forall_forall in F. specialize (F _ I).
  destruct (representation_ok data k _ F) as (cl & Ecl & L & P & S). exists r, cl. split; [auto|]. split; [exact Ecl|]. split; [auto|]. split; [auto|].
  intros i j Hi Hj. rewrite S by auto. unfold labelled. rewrite filter_In, in_seq, Nat.eqb_eq. destruct F as (Lf & _). lia.
Qed.
Print Assumptions C43_clusters_partition.

(** C43: the reported fitness is the cost of the reported chromosome, which comes from some generation, and no
    chromosome of any generation costs less; the observed values are the best so far, so they never grow *)
Theorem C43_best_reported data k m init pick pairs mask order gene value genes coeff count best ff observed :
  0 < k -> 0 < m -> fair m pick pairs order ->
  ga_process data k m init pick pairs mask order gene value genes coeff count = Ok (best, ff, observed) ->
  (ff == label_cost data best)%Q /\
  (exists g cs, g <= count /\ generation data k m init pick pairs mask order gene value genes coeff g cs /\ In best cs) /\
  (forall g cs c, g <= count -> generation data k m init pick pairs mask order gene value genes coeff g cs -> In c cs -> (ff <= label_cost data c)%Q) /\
  length observed = S count /\ non_increasing observed /\ last observed 0%Q = ff /\
  forall g, g <= count ->
    (exists h cs c, h <= g /\ generation data k m init pick pairs mask order gene value genes coeff h cs /\ In c cs /\ (nth g observed 0%Q == label_cost data c)%Q) /\
    (forall h cs c, h <= g -> generation data k m init pick pairs mask order gene value genes coeff h cs -> In c cs -> (nth g observed 0 <= label_cost data c)%Q).
Proof.
  intros Hk Hm (H1 & H2 & H3) E.
  destruct (ga_spec data k m init pick pairs mask order gene value genes coeff Hk H1 H2 H3 count _ Hm E) as (cs & _ & L & F & A & B & N & La & O1 & O2).
  cbn [fst snd] in *. split; [exact F|]. split; [exact A|]. split; [exact B|]. split; [exact L|]. split; [exact N|]. split; [exact La|].
  intros g Hg. split.
  - destruct (O1 g Hg) as (cs' & c & (h & Hh & Gh) & Hc & E'). exists h, cs', c. auto.
  - intros h cs' c Hh. apply O2; auto.
Qed.
Print Assumptions C43_best_reported.

(** a run on two pairs of points, two chromosomes, three generations *)
Definition ga_data : list point := [[0]; [1]; [10]; [11]]%Q.
Definition ga_init (c i : nat) : nat := nth i (nth c [[0; 1; 0; 1]; [0; 1; 1; 1]] []) 0.
Definition ga_pick (g i : nat) (f : list Q) : nat := i mod 2.
Definition ga_run := ga_process ga_data 2 2 ga_init ga_pick (fun g => [1; 0]) (fun g i j => j <? 2) (fun g => [0; 1])
  (fun g i j => 1) (fun g i j => g) 1 (1 # 2) 3.
Example C43_case : fair 2 ga_pick (fun g => [1; 0]) (fun g => [0; 1]) /\
  match ga_run with Ok (best, ff, observed) => best = [0; 0; 1; 1] /\ (ff == 2)%Q /\ map Qred observed = [38 # 3; 38 # 3; 2; 2]%Q | Raise _ => False end /\
  (do r <- ga_run; ga_clusters 2 r) = Ok [[0; 1]; [2; 3]].
Proof.
  split; [|split].
  - split; [intros; apply Nat.mod_upper_bound; lia|]. split; intros; [apply perm_swap|apply Permutation_refl].
  - vm_compute. repeat split.
  - vm_compute. reflexivity.
Qed.

(** without the hypothesis on the share of the mutated chromosomes the process can raise: a coefficient above one *)
Example C43_coefficient_case : ga_process ga_data 2 2 ga_init ga_pick (fun g => [1; 0]) (fun g i j => j <? 2) (fun g => [0; 1])
  (fun g i j => 1) (fun g i j => g) 1 (3 # 2) 1 = Raise IndexError.
Proof. vm_compute. reflexivity. Qed.

(** C99: crossover only exchanges genes of the same point between chromosomes *)
Theorem C99_crossover_exchanges (data : list point) k m pairs mask g (cs : list (list nat)) : 0 < k -> (forall g, Permutation (pairs g) (seq 0 m)) ->
  length cs = m -> (forall c, In c cs -> length c = length data /\ Forall (fun x => x < k) c) ->
  length (crossover pairs mask g cs) = m /\
  forall i, i < length data -> Permutation (map (fun c => nth i c 0) (crossover pairs mask g cs)) (map (fun c => nth i c 0) cs).
Proof.
  intros Hk Hp L H. assert (P : population_ok (length data) k m cs) by (split; auto; apply Forall_forall; exact H).
  split; [apply (crossover_ok data k m pairs mask Hk Hp g cs P)|]. intros i Hi. apply (crossover_genes data k m pairs mask Hk Hp); auto.
Qed.
Print Assumptions C99_crossover_exchanges.

(** C99: mutation changes at most the given share of the chromosomes and at most the given number of genes in each *)
Theorem C99_mutation_bounded (data : list point) k m order gene value genes coeff g (cs cs' : list (list nat)) : 0 < k -> (forall g, Permutation (order g) (seq 0 m)) ->
  length cs = m -> (forall c, In c cs -> length c = length data /\ Forall (fun x => x < k) c) ->
  mutation data k order gene value genes coeff g cs = Ok cs' ->
  exists changed, NoDup changed /\ (inject_Z (Z.of_nat (length changed)) <= Qmax 0 (inject_Z (Z.of_nat m) * coeff))%Q /\
    forall j, j < m -> (~ In j changed -> nth j cs' [] = nth j cs []) /\ differences (nth j cs []) (nth j cs' []) <= genes.
Proof.
  intros Hk Ho L H E. assert (P : population_ok (length data) k m cs) by (split; auto; apply Forall_forall; exact H).
  eapply (mutation_changes data k m order gene value genes coeff Hk Ho); eauto.
Qed.
Print Assumptions C99_mutation_bounded.

Example C99_case :
  crossover (fun g => [1; 0]) (fun g i j => j <? 2) 0 [[0; 1; 0; 1]; [0; 0; 1; 1]] = [[0; 0; 0; 1]; [0; 1; 1; 1]] /\
  mutation ga_data 2 (fun g => [1; 0]) (fun g i j => j) (fun g i j => 1) 2 (1 # 2) 0 [[0; 1; 0; 1]; [0; 0; 1; 1]] = Ok [[0; 1; 0; 1]; [1; 1; 1; 1]].
Proof. split; reflexivity. Qed.
