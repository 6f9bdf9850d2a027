(** C275: the dynamics of the graph colouring network of phase oscillators. *)
From Verif Require Import Base Topology_Model Gcolor_Model Gcolor_Proofs Kuramoto_Model Kuramoto_Proofs Gkur_Model.
From Coq Require Import Reals Lra Lia.
Local Open Scope R_scope.

(** ** specification *)
Definition adjacent (graph : list (list Q)) (i j : nat) : bool := Qltb 0 (nth j (nth i graph []) 0%Q) || Qltb 0 (nth i (nth j graph []) 0%Q).
Definition theta (phases : list R) (i : nat) : R := nth i phases 0.
(** adjacent vertices act with the negative weight, the others with the positive one *)
Definition action (graph : list (list Q)) (positive negative : R) (phases : list R) (i k : nat) : R :=
  (if adjacent graph i k then negative else positive) * sin (theta phases k - theta phases i).
Fixpoint total (f : nat -> R) (n : nat) : R := match n with O => 0 | S k => total f k + f k end.
Definition same_angle (x y : R) : Prop := exists turns : Z, y = x + IZR turns * (2 * PI).

(** ** helpers *)
Lemma total_ext f g n : (forall k, (k < n)%nat -> f k = g k) -> total f n = total g n.
Proof. induction n as [|n IH]; intro H; cbn [total]; [reflexivity|]. rewrite IH by (intros; apply H; lia). rewrite H by lia. reflexivity. Qed.
Lemma total_zero n : total (fun _ => 0) n = 0. Proof. induction n; cbn [total]; lra. Qed.
Lemma total_plus f g n : total (fun k => f k + g k) n = total f n + total g n.
Proof. induction n; cbn [total]; lra. Qed.
Lemma total_scale c f n : total (fun k => c * f k) n = c * total f n.
Proof. induction n; cbn [total]; lra. Qed.
Lemma total_swap (f : nat -> nat -> R) n : forall m, total (fun i => total (f i) m) n = total (fun j => total (fun i => f i j) n) m.
Proof. induction n as [|n IH]; intro m; cbn [total]; [symmetry; apply total_zero|]. rewrite IH, <- total_plus. reflexivity. Qed.
Lemma total_odd (f : nat -> nat -> R) n : (forall i j, (i < n)%nat -> (j < n)%nat -> f j i = - f i j) -> total (fun i => total (f i) n) n = 0.
Proof.
  intro H. assert (E : total (fun i => total (f i) n) n = - total (fun i => total (f i) n) n); [|lra].
  rewrite total_swap at 1. rewrite <- (Rmult_1_l (total (fun i => total (f i) n) n)), Ropp_mult_distr_l, <- total_scale. apply total_ext. intros j Hj. rewrite <- total_scale. apply total_ext. intros i Hi. rewrite (H j i Hj Hi). ring.
Qed.
Lemma fold_total (f : nat -> R) n : fold_left (fun acc k => acc + f k) (seq 0 n) 0 = total f n.
Proof. induction n as [|n IH]; [reflexivity|]. rewrite seq_S, fold_left_app, IH. reflexivity. Qed.
Lemma fold_same {A B} (f g : A -> B -> A) l : (forall a b, In b l -> f a b = g a b) -> forall a, fold_left f l a = fold_left g l a.
Proof. intro H. induction l as [|b t IH]; intro a; cbn [fold_left]; [reflexivity|]. rewrite H by (left; reflexivity). apply IH. intros; apply H; right; assumption. Qed.
Lemma seq_at n k : (k < n)%nat -> nth k (seq 0 n) 0%nat = k. Proof. intro H. now rewrite seq_nth by exact H. Qed.

Section Net.
Variables (graph : list (list Q)) (net : network).
Hypothesis Hsq : square_graph graph.
Hypothesis Hnet : syncgcolor graph = Ok net.
Notation n := (length graph).
Lemma net_size : n_osc net = n.
Proof. destruct (syncgcolor_spec graph Hsq) as (x & E & N & _). rewrite Hnet in E. injection E as <-. exact N. Qed.
Lemma net_adjacent i j : (i < n)%nat -> (j < n)%nat -> has_connection net i j = adjacent graph i j.
Proof.
  intros Hi Hj. destruct (syncgcolor_spec graph Hsq) as (x & E & _ & H). rewrite Hnet in E. injection E as <-. apply Bool.eq_iff_eq_true. rewrite (H i j Hi Hj). unfold adjacent, entry. rewrite orb_true_iff, !Qltb_true. reflexivity.
Qed.
Lemma phase_total positive negative red phases i : (i < n)%nat -> phase_gcolor net positive negative red phases i (theta phases i) = total (action graph positive negative phases i) n / red.
Proof.
  intro Hi. unfold phase_gcolor. f_equal. rewrite net_size, <- fold_total. apply fold_same. intros a k Hk. apply in_seq in Hk. rewrite net_adjacent by lia. unfold action, theta, rnth. destruct (adjacent graph i k); reflexivity.
Qed.
Lemma step_at fuel positive negative red s s' : gcolor_step fuel net positive negative red s = Ok s' -> length s' = n /\ forall i, (i < n)%nat ->
  phase_normalization fuel (theta s i + total (action graph positive negative s i) n / reduction_of net red) = Ok (theta s' i).
Proof.
  intro E. apply calculate_nth in E as (E1 & E2). rewrite seq_length, net_size in E1. rewrite seq_length in E2. split; [exact E1|]. intros i Hi. specialize (E2 i). rewrite net_size in E2. specialize (E2 Hi). rewrite seq_at in E2 by exact Hi.
  unfold rnth in E2. change (nth i s 0) with (theta s i) in E2. rewrite phase_total in E2 by exact Hi. exact E2.
Qed.
End Net.

(** one step: the phase of a vertex moves by the actions of all vertices *)
Theorem C275_equation graph net positive negative red fuel s s' : square_graph graph -> syncgcolor graph = Ok net -> gcolor_step fuel net positive negative red s = Ok s' ->
  length s' = length graph /\ forall i, (i < length graph)%nat -> 0 <= theta s' i <= 2 * PI /\
    same_angle (theta s i + total (action graph positive negative s i) (length graph) / match red with None => INR (length graph) | Some r => r end) (theta s' i).
Proof.
  intros Hs Hn E. destruct (step_at graph net Hs Hn _ _ _ _ _ _ E) as (L & H). split; [exact L|]. intros i Hi. specialize (H i Hi). split; [eapply normalization_range; exact H|].
  apply normalization_same_angle in H as (k & H). exists k. rewrite H. unfold reduction_of. rewrite (net_size graph net Hs Hn). reflexivity.
Qed.
Print Assumptions C275_equation.

(** vertices with the same neighbours that have one phase keep one phase, whether they are adjacent or not *)
Definition twins (graph : list (list Q)) (i j : nat) : Prop := forall k, (k < length graph)%nat -> k <> i -> k <> j -> adjacent graph i k = adjacent graph j k.
Theorem C275_twins graph net positive negative red fuel s s' i j : square_graph graph -> syncgcolor graph = Ok net -> gcolor_step fuel net positive negative red s = Ok s' ->
  (i < length graph)%nat -> (j < length graph)%nat -> twins graph i j -> theta s i = theta s j -> theta s' i = theta s' j.
Proof.
  intros Hs Hn E Hi Hj T P. destruct (step_at graph net Hs Hn _ _ _ _ _ _ E) as (_ & H). pose proof (H i Hi) as A. pose proof (H j Hj) as B.
  assert (W : total (action graph positive negative s i) (length graph) = total (action graph positive negative s j) (length graph)).
  { apply total_ext. intros k Hk. unfold action. rewrite P. destruct (Nat.eq_dec k i) as [-> | Ni]; [rewrite P, Rminus_diag_eq, sin_0 by reflexivity; ring|]. destruct (Nat.eq_dec k j) as [-> | Nj]; [rewrite Rminus_diag_eq, sin_0 by reflexivity; ring|]. now rewrite (T k Hk Ni Nj). }
  rewrite P, W in A. rewrite A in B. injection B as B. exact B.
Qed.
Print Assumptions C275_twins.

(** only differences of phases matter: turning all phases turns the result *)
Theorem C275_rotation graph net positive negative red fuel c s t s' t' : square_graph graph -> syncgcolor graph = Ok net ->
  (forall i, (i < length graph)%nat -> theta t i = theta s i + c) -> gcolor_step fuel net positive negative red s = Ok s' -> gcolor_step fuel net positive negative red t = Ok t' ->
  forall i, (i < length graph)%nat -> same_angle (theta s' i + c) (theta t' i).
Proof.
  intros Hs Hn R E F i Hi. destruct (step_at graph net Hs Hn _ _ _ _ _ _ E) as (_ & H). destruct (step_at graph net Hs Hn _ _ _ _ _ _ F) as (_ & K). specialize (H i Hi). specialize (K i Hi).
  assert (W : total (action graph positive negative t i) (length graph) = total (action graph positive negative s i) (length graph)).
  { apply total_ext. intros k Hk. unfold action. rewrite (R k Hk), (R i Hi). replace (theta s k + c - (theta s i + c)) with (theta s k - theta s i) by ring. reflexivity. }
  apply normalization_same_angle in H as (a & H). apply normalization_same_angle in K as (b & K). exists (b - a)%Z. rewrite K, H, W, (R i Hi), minus_IZR. ring.
Qed.
Print Assumptions C275_rotation.

(** the sum of the phases is kept up to full turns *)
Theorem C275_sum graph net positive negative red fuel s s' : square_graph graph -> syncgcolor graph = Ok net -> gcolor_step fuel net positive negative red s = Ok s' ->
  same_angle (total (theta s) (length graph)) (total (theta s') (length graph)).
Proof.
  intros Hs Hn E. destruct (step_at graph net Hs Hn _ _ _ _ _ _ E) as (_ & H). set (r := reduction_of net red) in *.
  assert (Z0 : total (fun i => total (action graph positive negative s i) (length graph)) (length graph) = 0).
  { apply total_odd. intros i j _ _. unfold action. replace (theta s i - theta s j) with (- (theta s j - theta s i)) by ring. rewrite sin_neg. unfold adjacent. rewrite orb_comm. ring. }
  assert (S0 : same_angle (total (fun i => theta s i + / r * total (action graph positive negative s i) (length graph)) (length graph)) (total (theta s') (length graph))).
  { assert (G : forall m, (m <= length graph)%nat -> same_angle (total (fun i => theta s i + / r * total (action graph positive negative s i) (length graph)) m) (total (theta s') m)); [|apply G; lia].
    induction m as [|m IH]; intro Hm; cbn [total]; [exists 0%Z; cbn; ring|]. destruct (IH ltac:(lia)) as (a & A). specialize (H m ltac:(lia)). apply normalization_same_angle in H as (b & B). exists (a + b)%Z. rewrite A, B, plus_IZR. unfold Rdiv. ring. }
  rewrite total_plus, total_scale, Z0 in S0. replace (total (theta s) (length graph)) with (total (theta s) (length graph) + / r * 0) by ring. exact S0.
Qed.
Print Assumptions C275_sum.

(** two opposite phases are kept, for every graph: every division of the vertices into two colours is stationary *)
Theorem C275_two_colours graph net positive negative red fuel c side : square_graph graph -> syncgcolor graph = Ok net -> 0 <= c <= PI ->
  let s := map (fun i => if (side i : bool) then c + PI else c) (seq 0 (length graph)) in gcolor_step fuel net positive negative red s = Ok s.
Proof.
  intros Hs Hn Hc s. pose proof PI_RGT_0 as HP.
  assert (T : forall i, (i < length graph)%nat -> theta s i = if side i then c + PI else c). { intros i Hi. unfold theta, s. rewrite (nth_indep _ 0 (if side 0%nat then c + PI else c)) by (now rewrite map_length, seq_length). rewrite (map_nth (fun i => if side i then c + PI else c)), seq_at by exact Hi. reflexivity. }
  assert (Z0 : forall i, (i < length graph)%nat -> total (action graph positive negative s i) (length graph) = 0).
  { intros i Hi. rewrite <- (total_zero (length graph)). apply total_ext. intros k Hk. unfold action. rewrite (T i Hi), (T k Hk).
    assert (Sz : sin ((if side k then c + PI else c) - (if side i then c + PI else c)) = 0); [|rewrite Sz; ring].
    destruct (side k), (side i); [replace (c + PI - (c + PI)) with 0 by ring; apply sin_0|replace (c + PI - c) with PI by ring; apply sin_PI|replace (c - (c + PI)) with (- PI) by ring; rewrite sin_neg, sin_PI; ring|replace (c - c) with 0 by ring; apply sin_0]. }
  unfold gcolor_step. rewrite (net_size graph net Hs Hn).
  assert (G : forall l, (forall i, In i l -> (i < length graph)%nat) -> calculate_phases fuel (phase_gcolor net positive negative (reduction_of net red) s) s l = Ok (map (fun i => if side i then c + PI else c) l)).
  { induction l as [|i l IH]; intro Hl; cbn [calculate_phases map]; [reflexivity|]. assert (Hi : (i < length graph)%nat) by (apply Hl; left; reflexivity). change (rnth s i) with (theta s i).
    rewrite (phase_total graph net Hs Hn) by exact Hi. rewrite (Z0 i Hi), (T i Hi). unfold Rdiv. rewrite Rmult_0_l, Rplus_0_r. rewrite normalization_id by (destruct (side i); lra). cbn [bind]. rewrite IH by (intros; apply Hl; right; assumption). reflexivity. }
  apply G. intros i Hi. apply in_seq in Hi. lia.
Qed.
Print Assumptions C275_two_colours.

(** ** concrete cases: a path of three vertices; its ends are twins *)
Definition path3 : list (list Q) := [[0; 1; 0]; [1; 0; 1]; [0; 1; 0]]%Q.
Example C275_case : square_graph path3 /\ twins path3 0 2 /\ exists net, syncgcolor path3 = Ok net /\ forall fuel c, 0 <= c <= PI ->
  let s := map (fun i => if (i =? 1)%nat then c + PI else c) (seq 0 3) in gcolor_step fuel net 1 (-1) None s = Ok s /\ theta s 0 = theta s 2.
Proof.
  split; [repeat constructor|]. split; [intros [|[|[|k]]] Hk A B; try congruence; [reflexivity|cbn in Hk; lia]|]. eexists. split; [vm_compute; reflexivity|]. intros fuel c Hc s. split; [|reflexivity].
  apply (C275_two_colours path3 _ 1 (-1) None fuel c (fun i => (i =? 1)%nat)); [repeat constructor|vm_compute; reflexivity|exact Hc].
Qed.
(** a step of the path with another state ends for enough fuel, so the other theorems have cases too *)
Example C275_step_case : exists net m, syncgcolor path3 = Ok net /\ forall fuel, (m <= fuel)%nat -> exists s', gcolor_step fuel net 1 (-1) None [0; 1; 0] = Ok s'.
Proof.
  destruct (syncgcolor_spec path3 ltac:(repeat constructor)) as (net & E & N & _). set (f := phase_gcolor net 1 (-1) (reduction_of net None) [0; 1; 0]).
  assert (G : forall l, exists m, forall fuel, (m <= fuel)%nat -> exists s', calculate_phases fuel f [0; 1; 0] l = Ok s').
  { induction l as [|i l (m & IH)]; [exists 0%nat; intros; eexists; reflexivity|]. destruct (normalization_ends (rnth [0; 1; 0] i + f i (rnth [0; 1; 0] i))) as (k & K). exists (Nat.max m k). intros fuel Hf.
    destruct (K fuel ltac:(lia)) as (t & T). destruct (IH fuel ltac:(lia)) as (s' & S0). cbn [calculate_phases]. rewrite T. cbn [bind]. rewrite S0. eexists. reflexivity. }
  destruct (G (seq 0 (n_osc net))) as (m & M0). exists net, m. split; [exact E|]. exact M0.
Qed.
(** "adjacent vertices are separated": refuted, a state with one phase for all vertices never changes, so all vertices get one colour *)
Theorem C275_separates_refuted : exists graph net s i j, square_graph graph /\ syncgcolor graph = Ok net /\ adjacent graph i j = true /\ (i < length graph)%nat /\ (j < length graph)%nat /\ length s = length graph /\ theta s i = theta s j /\
  forall fuel positive negative red, gcolor_step fuel net positive negative red s = Ok s.
Proof.
  destruct (syncgcolor_spec path3 ltac:(repeat constructor)) as (net & E & N & _). exists path3, net, [1; 1; 1], 0%nat, 1%nat. split; [repeat constructor|]. split; [exact E|]. split; [reflexivity|]. split; [cbn; lia|]. split; [cbn; lia|]. split; [reflexivity|]. split; [reflexivity|].
  intros fuel positive negative red. apply (C275_two_colours path3 net positive negative red fuel 1 (fun _ => false)); [repeat constructor|exact E|]. pose proof PI2_1. lra.
Qed.
Print Assumptions C275_separates_refuted.
