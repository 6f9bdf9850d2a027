(** C286: the genetic algorithm makes the same choices when all data are moved and measured in another unit,
    provided that the selection coefficient is converted. *)
From Coq Require Import Reals Qreals Lra.
From Verif Require Import Base Kmeans_Model Kmeans_Proofs Scaled_Proofs Unit_Props Gasel_Model Ga_Model Ga_Proofs.
Local Open Scope nat_scope.

(** ** specification *)
(** the roulette of ga.py:517-528 for the random numbers [rnd] as the choice of the model of the run *)
Definition roulette (select_coeff : R) (rnd : nat -> nat -> R) (g i : nat) (f : list Q) : nat :=
  match selected select_coeff (map Q2R f) (rnd g i) with Ok (Some j) => j | _ => 0 end.

(** same chromosome, fitness and observed values multiplied *)
Definition same_best (s : Q) (r r' : list nat * Q * list Q) : Prop :=
  fst (fst r') = fst (fst r) /\ (snd (fst r') == s * snd (fst r))%Q /\ Forall2 (times s) (snd r) (snd r').

(** ** proofs *)
Lemma uniform_bound r l : forall i j, get_uniform r i l = Some j -> j < i + length l.
Proof.
  induction l as [|p t IH]; intros i j; cbn [get_uniform length]; [discriminate|]. destruct (Rlt_dec r p).
  - intros [= <-]. lia.
  - intros E. apply IH in E. lia.
Qed.
Lemma running_length l : forall a, length (running a l) = length l.
Proof. induction l; intros; cbn [running length]; auto. Qed.
Lemma roulette_bound c rnd g i f : 0 < length f -> roulette c rnd g i f < length f.
Proof.
  intros H. unfold roulette, selected. destruct (calc_probability_vector _) as [p|e] eqn:E; cbn [bind]; [|exact H].
  destruct (get_uniform (rnd g i) 0 p) as [j|] eqn:U; [|exact H]. apply uniform_bound in U. cbn [plus] in U.
  unfold calc_probability_vector in E. destruct (map (scaled c) (map Q2R f)) as [|x t] eqn:M; [discriminate|]. rewrite <- M in E.
  injection E as <-. rewrite map_length, running_length, !map_length in U. exact U.
Qed.
Lemma roulette_times s c rnd g i f f' : (0 < s)%Q -> Forall2 (times s) f f' -> roulette (c / Q2R s) rnd g i f' = roulette c rnd g i f.
Proof.
  intros Hs H. unfold roulette, selected. replace (map (scaled (c / Q2R s)) (map Q2R f')) with (map (scaled c) (map Q2R f)); [reflexivity|].
  induction H as [|x x' l l' Hx Hl IH]; cbn [map]; [reflexivity|]. rewrite IH. f_equal. unfold scaled. f_equal. f_equal.
  apply Qeq_eqR in Hx. rewrite Q2R_mult in Hx. rewrite Hx. apply Qlt_Rlt in Hs. rewrite RMicromega.Q2R_0 in Hs. field. Lra.lra.
Qed.

Section Moved_run.
Variables (s : Q) (v : point).
Hypothesis Hs : (0 < s)%Q.
Variables data data' : list point.
Hypothesis Hdata : Forall2 (moved s v) data data'.
Variables (k m : nat).
Hypothesis Hk : 0 < k.

Lemma same_length : length data' = length data.
Proof. exact (both_length _ _ _ Hdata). Qed.

Lemma moved_label_mean c j d : length c = length data -> labelled c j <> [] -> d < length v ->
  (label_mean data' c j d == s * label_mean data c j d + coord v d)%Q.
Proof.
  intros Hc Hne Hd. unfold label_mean.
  assert (E : forall l, (forall i, In i l -> i < length data) ->
    (qsum (map (fun i => coord (nth i data' []) d) l) == s * qsum (map (fun i => coord (nth i data []) d) l) + coord v d * inject_Z (Z.of_nat (length l)))%Q).
  { induction l as [|i l IH]; intros Hl; cbn [map length].
    - cbn. ring.
    - unfold qsum in *. cbn [fold_right]. rewrite IH by (intros; apply Hl; right; assumption).
      destruct (nth_moved s v data data' Hdata i (Hl i (or_introl eq_refl))) as (_ & _ & Hp). rewrite (Hp d Hd).
      rewrite Nat2Z.inj_succ. unfold Z.succ. rewrite inject_Z_plus. ring. }
  rewrite E.
  - field. destruct (labelled c j) as [|x t]; [congruence|]. cbn [length]. unfold Qeq, inject_Z. cbn. lia.
  - intros i Hi. unfold labelled in Hi. apply filter_In in Hi as [Hi _]. apply in_seq in Hi. lia.
Qed.

Lemma moved_fitness c : chromosome_ok (length data) k c -> times s (fitness data k c) (fitness data' k c).
Proof.
  intros Hc. unfold times. rewrite (fitness_cost data k c Hc). rewrite (fitness_cost data' k c) by (rewrite same_length; exact Hc).
  destruct Hc as (Hn & Hg). unfold label_cost. rewrite same_length.
  assert (D : forall i, i < length data -> length (nth 0 data' []) = length v /\ length (nth 0 data []) = length v).
  { intros i Hi. destruct (nth_moved s v data data' Hdata 0 ltac:(lia)) as (A & B & _). auto. }
  assert (G : forall l, (forall i, In i l -> i < length data) ->
    (qsum (map (fun i => qsum (map (fun d => Qabs (coord (nth i data' []) d - label_mean data' c (nth i c 0%nat) d)) (seq 0 (length (nth 0 data' []))))) l)
     == s * qsum (map (fun i => qsum (map (fun d => Qabs (coord (nth i data []) d - label_mean data c (nth i c 0%nat) d)) (seq 0 (length (nth 0 data []))))) l))%Q).
  { induction l as [|i l IH]; intros Hl; cbn [map]; [cbn; ring|]. unfold qsum in *. cbn [fold_right]. rewrite IH by (intros; apply Hl; right; assumption).
    pose proof (Hl i (or_introl eq_refl)) as Hi. destruct (D i Hi) as (D1 & D2). rewrite D1, D2. rewrite Qmult_plus_distr_r. apply Qplus_comp; [|reflexivity].
    destruct (nth_moved s v data data' Hdata i Hi) as (_ & _ & Hp).
    assert (Hl2 : labelled c (nth i c 0) <> []).
    { intros E. assert (In i (labelled c (nth i c 0))) as Hin; [|rewrite E in Hin; destruct Hin]. unfold labelled. apply filter_In. split; [apply in_seq; lia|apply Nat.eqb_refl]. }
    assert (F : forall ds, (forall d, In d ds -> d < length v) ->
      (fold_right Qplus 0 (map (fun d => Qabs (coord (nth i data' []) d - label_mean data' c (nth i c 0%nat) d)) ds)
       == s * fold_right Qplus 0 (map (fun d => Qabs (coord (nth i data []) d - label_mean data c (nth i c 0%nat) d)) ds))%Q).
    { induction ds as [|d ds IHd]; intros Hds; cbn [map fold_right]; [ring|]. rewrite IHd by (intros; apply Hds; right; assumption).
      pose proof (Hds d (or_introl eq_refl)) as Hd.
      assert (W : (coord (nth i data' []) d - label_mean data' c (nth i c 0%nat) d == s * (coord (nth i data []) d - label_mean data c (nth i c 0%nat) d))%Q)
        by (rewrite (Hp d Hd), (moved_label_mean c _ d Hn Hl2 Hd); ring).
      rewrite W, Qabs_Qmult, (Qabs_pos s) by Lqa.lra. ring. }
    apply F. intros d Hd. apply in_seq in Hd. lia. }
  apply G. intros i Hi. apply in_seq in Hi. lia.
Qed.

Notation ok := (population_ok (length data) k m).

Lemma moved_population cs : ok cs -> Forall2 (times s) (map (fitness data k) cs) (map (fitness data' k) cs).
Proof. intros (_ & H). apply map_times. intros c Hc. apply moved_fitness. rewrite Forall_forall in H. auto. Qed.

Definition same_one (b b' : list nat * Q) : Prop := fst b' = fst b /\ times s (snd b) (snd b').

Lemma moved_best cs : ok cs -> same_run same_one (get_best data k cs) (get_best data' k cs).
Proof.
  intros H. pose proof (moved_population cs H) as F. unfold get_best. destruct cs as [|c t]; [reflexivity|]. set (l := c :: t) in *. cbn [same_run].
  rewrite (times_argmin s Hs _ _ F). split; cbn [fst snd]; [reflexivity|]. apply times_nth. exact F.
Qed.

Variables (init : nat -> nat -> nat) (pairs : nat -> list nat) (mask : nat -> nat -> nat -> bool) (order : nat -> list nat)
  (gene value : nat -> nat -> nat -> nat) (genes : nat) (coeff : Q) (c : R) (rnd : nat -> nat -> R).
Hypothesis Hpairs : forall g, Permutation (pairs g) (seq 0 m).
Hypothesis Horder : forall g, Permutation (order g) (seq 0 m).
Notation pick := (roulette c rnd).
Notation pick' := (roulette (c / Q2R s) rnd).
Notation next := (next_population data k pick pairs mask order gene value genes coeff).
Notation next' := (next_population data' k pick' pairs mask order gene value genes coeff).

Lemma pick_ok g i f : length f = m -> 0 < m -> pick g i f < m.
Proof. intros <- H. apply roulette_bound, H. Qed.

Lemma moved_next g cs : ok cs -> next' g cs = next g cs.
Proof.
  intros H. unfold next_population. assert (E : select_population data' k pick' g cs = select_population data k pick g cs).
  { unfold select_population. apply map_ext. intros i. now rewrite (roulette_times s c rnd g i _ _ Hs (moved_population cs H)). }
  rewrite E. unfold mutation, mutation_step. rewrite same_length. reflexivity.
Qed.

Lemma moved_generations left : forall g cs b b' o o', ok cs -> same_one b b' -> Forall2 (times s) o o' ->
  same_run (same_best s) (generations data k pick pairs mask order gene value genes coeff left g cs b o)
    (generations data' k pick' pairs mask order gene value genes coeff left g cs b' o').
Proof.
  induction left as [|left IH]; intros g cs b b' o o' H Hb Ho; cbn [generations].
  - cbn [same_run]. unfold same_best. cbn [fst snd]. destruct Hb. auto.
  - rewrite (moved_next g cs H). destruct (next g cs) as [cs2|e] eqn:E; cbn [bind]; [|reflexivity].
    assert (H2 : ok cs2) by (apply (next_ok data k m pick pairs mask order gene value genes coeff Hk pick_ok Hpairs Horder g cs cs2 H E)).
    pose proof (moved_best cs2 H2) as B. destruct (get_best data k cs2) as [n|], (get_best data' k cs2) as [n'|]; cbn [same_run] in B; try destruct B; cbn [bind]; [|reflexivity].
    rewrite (scale_ltb s Hs (snd n) (snd b) (snd n') (snd b')); [|assumption|apply Hb].
    apply IH; [exact H2| |].
    + destruct (Qltb _ _); [split; assumption|exact Hb].
    + apply Forall2_app; [exact Ho|]. constructor; [|constructor]. destruct (Qltb _ _); [assumption|apply Hb].
Qed.
End Moved_run.

(** For any data with coordinates of the same number, any new unit and origin, any random numbers, any parameters of
    the mutation: with the selection coefficient divided by the factor of the unit, the run on the new coordinates
    raises the same exception or finds the same chromosome and clusters; the fitness and the observed values of all
    generations are multiplied by the factor. *)
Theorem C286_unit : forall (s : Q) (v : point) (data data' : list point) (k m : nat) (init : nat -> nat -> nat)
    (pairs : nat -> list nat) (mask : nat -> nat -> nat -> bool) (order : nat -> list nat) (gene value : nat -> nat -> nat -> nat)
    (genes : nat) (coeff : Q) (c : R) (rnd : nat -> nat -> R) (population_count : nat),
  (0 < s)%Q -> Forall2 (moved s v) data data' ->
  (forall g, Permutation (pairs g) (seq 0 m)) -> (forall g, Permutation (order g) (seq 0 m)) ->
  let r := ga_process data k m init (roulette c rnd) pairs mask order gene value genes coeff population_count in
  let r' := ga_process data' k m init (roulette (c / Q2R s) rnd) pairs mask order gene value genes coeff population_count in
  same_run (same_best s) r r' /\
  (do a <- r'; ga_clusters k a) = (do a <- r; ga_clusters k a).
Proof.
  intros s v data data' k m init pairs mask order gene value genes coeff c rnd count Hs Hd Hp Ho r r'.
  assert (A : same_run (same_best s) r r').
  { unfold r, r', ga_process. rewrite (same_length s v data data' Hd). destruct (length data =? 0); [reflexivity|].
    destruct (Nat.eqb_spec k 0) as [|Hk]; [reflexivity|]. assert (Hk' : 0 < k) by lia.
    assert (I : init_population data' k m init = init_population data k m init) by (unfold init_population; now rewrite (same_length s v data data' Hd)). rewrite I.
    pose proof (init_ok data k m init Hk') as P. pose proof (moved_best s v Hs data data' Hd k m Hk' _ P) as B.
    destruct (get_best data k _) as [n|], (get_best data' k _) as [n'|]; cbn [same_run] in B; cbn [bind]; try contradiction.
    - apply (moved_generations s v Hs data data' Hd k m Hk'); auto. constructor; [apply B|constructor].
    - cbn [same_run]. congruence. }
  split; [exact A|]. revert A. destruct r as [a|], r' as [a'|]; cbn [same_run bind]; try contradiction.
  - intros (E & _). unfold ga_clusters. now rewrite E.
  - congruence.
Qed.
Print Assumptions C286_unit.

(** A change of the origin alone needs no other parameter. *)
Theorem C286_origin : forall (v : point) (data data' : list point) (k m : nat) (init : nat -> nat -> nat)
    (pairs : nat -> list nat) (mask : nat -> nat -> nat -> bool) (order : nat -> list nat) (gene value : nat -> nat -> nat -> nat)
    (genes : nat) (coeff : Q) (c : R) (rnd : nat -> nat -> R) (population_count : nat),
  Forall2 (moved 1 v) data data' ->
  (forall g, Permutation (pairs g) (seq 0 m)) -> (forall g, Permutation (order g) (seq 0 m)) ->
  let r := ga_process data k m init (roulette c rnd) pairs mask order gene value genes coeff population_count in
  let r' := ga_process data' k m init (roulette c rnd) pairs mask order gene value genes coeff population_count in
  same_run (same_best 1) r r' /\
  (do a <- r'; ga_clusters k a) = (do a <- r; ga_clusters k a).
Proof.
  intros v data data' k m init pairs mask order gene value genes coeff c rnd count Hd Hp Ho.
  pose proof (C286_unit 1 v data data' k m init pairs mask order gene value genes coeff c rnd count eq_refl Hd Hp Ho) as H.
  rewrite RMicromega.Q2R_1 in H. replace (c / 1)%R with c in H by field. exact H.
Qed.
Print Assumptions C286_origin.

(** Without the conversion of the coefficient the unit changes what is selected: two points, the chromosomes that
    separate and join them, both fitnesses doubled. *)
Theorem C286_coefficient_refuted : exists (data data' : list point) (k : nat) (cs : list (list nat)) (c : R) (rnd : nat -> nat -> R),
  Forall2 (moved 2 [0%Q]) data data' /\ population_ok (length data) k 2 cs /\ (0 <= rnd 0%nat 0%nat < 1)%R /\
  hd [] (select_population data k (roulette c rnd) 0 cs) = [0; 0] /\
  hd [] (select_population data' k (roulette c rnd) 0 cs) = [0; 1].
Proof.
  exists [[0%Q]; [1%Q]], [[0%Q]; [2%Q]], 2, [[0; 1]; [0; 0]], 1%R, (fun _ _ => (78 / 100)%R).
  split. { repeat constructor; cbn [length]; try reflexivity; intros d Hd; (destruct d; [reflexivity|cbn in Hd; lia]). }
  split. { repeat constructor. }
  split; [split; Lra.lra|].
  assert (E : (1 < exp 1 <= 3)%R) by (split; [pose proof (exp_ineq1 1 ltac:(Lra.lra)); Lra.lra|exact exp_le_3]).
  assert (E2 : (2 < exp 1)%R) by (pose proof (exp_ineq1 1 ltac:(Lra.lra)); Lra.lra).
  assert (Hsel : forall (x : Q) (e : R), exp (Q2R x) = e -> (0 < e)%R -> roulette 1 (fun _ _ => (78 / 100)%R) 0 0 [0%Q; x] = if Rlt_dec (78 / 100) (e / (e + 1)) then 0 else 1).
  { intros x e He Hpos. unfold roulette, selected, calc_probability_vector. cbn [map bind]. unfold scaled. rewrite RMicromega.Q2R_0.
    rewrite !Rmult_1_r, Rplus_0_r, exp_plus, He. pose proof (exp_pos 1) as P. unfold inv_fitness.
    destruct (Req_EM_T (exp 1) 0) as [Z|_]; [Lra.lra|]. destruct (Req_EM_T (exp 1 * e) 0) as [Z|_]; [apply Rmult_integral in Z; destruct Z; Lra.lra|].
    cbn [running last map get_uniform].
    assert (P0 : ((0 + 1 / exp 1) / (0 + 1 / exp 1 + 1 / (exp 1 * e)) = e / (e + 1))%R) by (field; repeat split; Lra.lra).
    assert (P1 : ((0 + 1 / exp 1 + 1 / (exp 1 * e)) / (0 + 1 / exp 1 + 1 / (exp 1 * e)) = 1)%R).
    { field. repeat split; Lra.lra. }
    rewrite P0, P1. destruct (Rlt_dec (78 / 100) (e / (e + 1))); [reflexivity|]. destruct (Rlt_dec (78 / 100) 1); [reflexivity|Lra.lra]. }
  assert (Q1 : exp (Q2R 1) = exp 1) by (now rewrite RMicromega.Q2R_1).
  assert (Q2 : exp (Q2R 2) = (exp 1 * exp 1)%R). { rewrite <- exp_plus. f_equal. unfold Q2R. cbn. Lra.lra. }
  split.
  - assert (F : Forall2 (times 1) (map (fitness [[0%Q]; [1%Q]] 2) [[0; 1]; [0; 0]]) [0%Q; 1%Q]) by (repeat constructor).
    unfold select_population. cbn [length seq map hd]. cbn [map] in F.
    pose proof (roulette_times 1 1 (fun _ _ => (78 / 100)%R) 0 0 _ _ eq_refl F) as X. rewrite RMicromega.Q2R_1 in X. replace (1 / 1)%R with 1%R in X by field.
    rewrite <- X, (Hsel 1%Q _ Q1) by Lra.lra. destruct (Rlt_dec _ _) as [L|_]; [|reflexivity]. exfalso.
    apply (Rmult_lt_compat_r (exp 1 + 1)) in L; [|Lra.lra]. unfold Rdiv in L at 2. rewrite Rmult_assoc, Rinv_l in L by Lra.lra. Lra.lra.
  - assert (F : Forall2 (times 1) (map (fitness [[0%Q]; [2%Q]] 2) [[0; 1]; [0; 0]]) [0%Q; 2%Q]) by (repeat constructor).
    unfold select_population. cbn [length seq map hd]. cbn [map] in F.
    pose proof (roulette_times 1 1 (fun _ _ => (78 / 100)%R) 0 0 _ _ eq_refl F) as X. rewrite RMicromega.Q2R_1 in X. replace (1 / 1)%R with 1%R in X by field.
    rewrite <- X, (Hsel 2%Q _ Q2) by Lra.nra. destruct (Rlt_dec _ _) as [_|L]; [reflexivity|]. exfalso. apply L.
    apply (Rmult_lt_reg_r (exp 1 * exp 1 + 1)); [Lra.nra|]. unfold Rdiv at 2. rewrite Rmult_assoc, Rinv_l by Lra.nra. Lra.nra.
Qed.
Print Assumptions C286_coefficient_refuted.

(** three points, the unit halved and the origin moved by 5: the hypotheses hold, the chromosome [0;1;1] has the cost 2, then 4 *)
Example C286_example :
  Forall2 (moved 2 [5%Q]) [[0%Q]; [4%Q]; [6%Q]] [[5%Q]; [13%Q]; [17%Q]] /\
  chromosome_ok 3 2 [0; 1; 1] /\
  (fitness [[0%Q]; [4%Q]; [6%Q]] 2 [0; 1; 1]%nat == 2)%Q /\ (fitness [[5%Q]; [13%Q]; [17%Q]] 2 [0; 1; 1]%nat == 4)%Q /\
  (forall g : nat, Permutation ((fun _ => [1; 0]) g) (seq 0 2)).
Proof.
  split. { repeat constructor; cbn [length]; try reflexivity; intros d Hd; (destruct d; [reflexivity|cbn in Hd; lia]). }
  split. { repeat constructor. }
  split; [reflexivity|]. split; [reflexivity|]. intros _. apply perm_swap.
Qed.
