(** Expectation-maximization: specification and proofs. *)
From Verif Require Import Base Kmeans_Model Kmeans_Proofs Metric_Model Fcm_Model Fcm_Proofs Ema_Model.
From Coq Require Import Reals Lra.
Local Open Scope R_scope.
Local Open Scope nat_scope.

(** * Specification *)
Definition sum_over (k : nat) (f : nat -> R) : R := fold_right Rplus R0 (map f (seq 0 k)).
(** responsibility of cluster [c] for point [i] *)
Definition resp (s : state) (c i : nat) : R := nth i (nth c (rc s) []) R0.

(** densities are positive and finite wherever the covariance is not zero *)
Definition regular (density : rpoint -> matrix -> rpoint -> option R) : Prop :=
  forall m v x, norm v <> R0 -> exists g, density m v x = Some g /\ Rlt 0 g.
(** one mean, variance and weight per cluster, positive weights *)
Definition well_formed (s : state) : Prop :=
  0 < amount s /\ length (means s) = amount s /\ length (variances s) = amount s /\ length (pic s) = amount s /\
  forall w, In w (pic s) -> Rlt 0 w.
Definition nonzero_variances (s : state) : Prop := forall v, In v (variances s) -> norm v <> R0.
(** the answers fit together *)
Definition aligned (n : nat) (s : state) : Prop :=
  well_formed s /\ length (clusters s) = amount s /\ length (rc s) = amount s /\ length (gaussians s) = amount s /\
  (forall c, c < amount s -> length (nth c (rc s) []) = n /\ forall i, i < n -> Rlt 0 (resp s c i)).
Definition maximal (s : state) : Prop :=
  forall c i, c < length (clusters s) -> In i (nth c (clusters s) []) -> forall c', c' < length (clusters s) -> Rle (resp s c' i) (resp s c i).

Local Open Scope R_scope.

(** * Sums *)
Lemma rtotal_ext {A} (f g : A -> R) l : (forall x, In x l -> f x = g x) -> rtotal (map f l) = rtotal (map g l).
Proof. unfold rtotal. induction l as [|x l IH]; intros H; simpl; auto. rewrite (H x) by (left; auto). rewrite IH; auto. intros; apply H; right; auto. Qed.
Lemma rtotal_plus {A} (f g : A -> R) l : rtotal (map (fun x => f x + g x) l) = rtotal (map f l) + rtotal (map g l).
Proof. unfold rtotal. induction l as [|x l IH]; simpl; [ring|]. rewrite IH. ring. Qed.
Lemma rtotal_swap {A B} (f : A -> B -> R) (l : list A) (l' : list B) :
  rtotal (map (fun a => rtotal (map (f a) l')) l) = rtotal (map (fun b => rtotal (map (fun a => f a b) l)) l').
Proof.
  induction l as [|a l IH].
  - simpl. symmetry. transitivity (rtotal (map (fun _ : B => 0 * 0) l')); [apply rtotal_ext; intros; unfold rtotal; simpl; ring|].
    induction l' as [|b l' IH]; [reflexivity|]. unfold rtotal in *. simpl in *. rewrite IH. ring.
  - cbn [map]. change (rtotal (rtotal (map (f a) l') :: map (fun a0 => rtotal (map (f a0) l')) l)) with (rtotal (map (f a) l') + rtotal (map (fun a0 => rtotal (map (f a0) l')) l)).
    rewrite IH. rewrite <- rtotal_plus. apply rtotal_ext. intros b _. reflexivity.
Qed.
Lemma rtotal_const {A} c (l : list A) : rtotal (map (fun _ => c) l) = INR (length l) * c.
Proof. induction l as [|x l IH]; [unfold rtotal; simpl; ring|]. unfold rtotal in *. cbn [map fold_right length]. rewrite IH, S_INR. ring. Qed.
Lemma rtotal_pos {A} (f : A -> R) l : l <> [] -> (forall x, In x l -> 0 < f x) -> 0 < rtotal (map f l).
Proof.
  induction l as [|x l IH]; intros Hn H; [congruence|]. unfold rtotal in *. cbn [map fold_right]. pose proof (H x (or_introl eq_refl)).
  destruct l as [|y l]; [cbn; lra|]. specialize (IH ltac:(discriminate) (fun z Hz => H z (or_intror Hz))). lra.
Qed.
Lemma map_nth_seq (l : list R) : map (fun i => nth i l 0) (seq 0 (length l)) = l.
Proof. induction l as [|x l IH]; auto. cbn [length seq map]. rewrite <- seq_shift, map_map. cbn [nth]. f_equal. exact IH. Qed.
Lemma rtotal_nth l : rtotal l = rtotal (map (fun i => nth i l 0) (seq 0 (length l))).
Proof. now rewrite map_nth_seq. Qed.
Lemma seq_nonempty k : (0 < k)%nat -> seq 0 k <> [].
Proof. destruct k; [lia|discriminate]. Qed.

Lemma total_some {A} (f : A -> option R) (g : A -> R) l : (forall x, In x l -> f x = Some (g x)) -> total (map f l) = Some (rtotal (map g l)).
Proof.
  induction l as [|x l IH]; intros H; cbn [map total]; [reflexivity|]. rewrite (H x) by (left; auto). rewrite IH by (intros; apply H; right; auto). reflexivity.
Qed.

Section Run.
Variable data : list rpoint.
Variable density : rpoint -> matrix -> rpoint -> option R.
Hypothesis Hd : regular density.
Notation n := (length data).
Hypothesis Hn : (0 < n)%nat.

(** * The expectation step *)
Definition dens (s : state) (c i : nat) : R :=
  match density (nth c (means s) []) (nth c (variances s) []) (nth i data []) with Some g => g | None => 0 end.
Lemma dens_some s c i : nonzero_variances s -> (c < length (variances s))%nat ->
  density (nth c (means s) []) (nth c (variances s) []) (nth i data []) = Some (dens s c i) /\ 0 < dens s c i.
Proof. intros H Hc. unfold dens. destruct (Hd (nth c (means s) []) (nth c (variances s) []) (nth i data [])) as (g & E & P); [apply H, nth_In; auto|]. rewrite E. auto. Qed.

Definition mix (s : state) (i : nat) : R := rtotal (map (fun c => nth c (pic s) 0 * dens s c i) (seq 0 (amount s))).

Lemma pic_pos s c : well_formed s -> (c < amount s)%nat -> 0 < nth c (pic s) 0.
Proof. intros (_ & _ & _ & L & P) Hc. apply P, nth_In. lia. Qed.
Lemma mix_pos s i : well_formed s -> nonzero_variances s -> 0 < mix s i.
Proof.
  intros W V. apply rtotal_pos; [apply seq_nonempty; apply W|]. intros c Hc. apply in_seq in Hc. apply Rmult_lt_0_compat; [apply pic_pos; auto; lia|].
  apply dens_some; auto. destruct W as (_ & _ & L & _). lia.
Qed.

Lemma expectation_spec s : well_formed s -> nonzero_variances s ->
  exists e, expectation data density s = Ok e /\ amount e = amount s /\ means e = means s /\ variances e = variances s /\ pic e = pic s /\
    length (gaussians e) = amount s /\
    length (rc e) = amount s /\ forall c, (c < amount s)%nat -> length (nth c (rc e) []) = n /\
      forall i, (i < n)%nat -> resp e c i = nth c (pic s) 0 * dens s c i / mix s i.
Proof.
  intros W V. pose proof W as (A0 & A1 & A2 & A3 & A4). unfold expectation. rewrite A1, A2, A3, !Nat.ltb_irrefl. cbn [orb].
  eexists. split; [reflexivity|]. cbn [amount means variances pic rc gaussians]. repeat (split; [auto; rewrite ?map_length, ?seq_length; reflexivity|]).
  intros c Hc. unfold resp. cbn [rc]. rewrite nth_map_seq0 by auto. split; [now rewrite map_length, seq_length|]. intros i Hi. rewrite nth_map_seq0 by auto.
  set (s' := {| amount := _ |}).
  assert (G : forall c', (c' < amount s)%nat -> nth i (nth c' (gaussians s') []) None = Some (dens s c' i)).
  { intros c' Hc'. unfold s'. cbn [gaussians]. rewrite nth_map_seq0 by auto.
    set (f := density (nth c' (means s) []) (nth c' (variances s) [])). rewrite (nth_indep _ None (f [])) by (rewrite map_length; auto). rewrite map_nth.
    apply dens_some; auto. lia. }
  assert (M : mixture s' i = Some (mix s i)).
  { unfold mixture, mix. change (amount s') with (amount s). change (pic s') with (pic s). apply total_some. intros c' Hc'. apply in_seq in Hc'. rewrite G by lia. reflexivity. }
  unfold probability. rewrite M, G by auto. pose proof (mix_pos s i W V). destruct (Req_EM_T (mix s i) 0); [lra|]. reflexivity.
Qed.

Lemma expectation_sum s e : well_formed s -> nonzero_variances s -> expectation data density s = Ok e ->
  forall i, (i < n)%nat -> sum_over (amount e) (fun c => resp e c i) = 1 /\ forall c, (c < amount e)%nat -> 0 < resp e c i <= 1.
Proof.
  intros W V E i Hi. destruct (expectation_spec s W V) as (e' & E' & EA & _ & _ & _ & _ & _ & R). rewrite E in E'. apply Ok_inj in E'. subst e'.
  pose proof (mix_pos s i W V) as P. rewrite EA.
  assert (S1 : sum_over (amount s) (fun c => resp e c i) = 1).
  { unfold sum_over. change (fold_right Rplus R0) with rtotal. transitivity (rtotal (map (fun x => x * / mix s i) (map (fun c => nth c (pic s) 0 * dens s c i) (seq 0 (amount s))))).
    - rewrite map_map. apply rtotal_ext. intros c Hc. apply in_seq in Hc. apply R; lia.
    - rewrite rtotal_scal. fold (mix s i). field. lra. }
  assert (Pos : forall c, (c < amount s)%nat -> 0 < resp e c i).
  { intros c Hc. destruct (R c Hc) as (_ & ->); auto. apply Rdiv_lt_0_compat; auto. apply Rmult_lt_0_compat; [apply pic_pos; auto|apply dens_some; auto]. destruct W as (_ & _ & L & _). lia. }
  split; auto. intros c Hc. split; auto. rewrite <- S1. unfold sum_over. change (fold_right Rplus R0) with rtotal. apply rtotal_in.
  - intros y Hy. apply in_map_iff in Hy as (c' & <- & Hc'). apply in_seq in Hc'. left. apply Pos. lia.
  - apply in_map_iff. exists c. split; auto. apply in_seq. lia.
Qed.

(** * The maximization step *)
Lemma row_total e c : length (nth c (rc e) []) = n -> rtotal (nth c (rc e) []) = rtotal (map (fun i => resp e c i) (seq 0 n)).
Proof. intros L. rewrite rtotal_nth, L. reflexivity. Qed.

Definition good_rows (e : state) : Prop := (0 < amount e)%nat /\ length (rc e) = amount e /\ length (gaussians e) = amount e /\
  forall c, (c < amount e)%nat -> length (nth c (rc e) []) = n /\ forall i, (i < n)%nat -> 0 < resp e c i.

Lemma row_pos e c : good_rows e -> (c < amount e)%nat -> 0 < rtotal (nth c (rc e) []).
Proof.
  intros (_ & _ & _ & G) Hc. destruct (G c Hc) as (L & P). rewrite row_total by auto. apply rtotal_pos; [apply seq_nonempty; auto|]. intros i Hi. apply in_seq in Hi. apply P. lia.
Qed.
Lemma possible_all e : good_rows e -> possible e = seq 0 (amount e).
Proof.
  intros G. unfold possible. assert (H : forall l, (forall c, In c l -> (c < amount e)%nat) -> filter (fun c => if Req_EM_T (rtotal (nth c (rc e) [])) 0 then false else true) l = l).
  { induction l as [|c l IH]; intros Hl; cbn [filter]; auto. pose proof (row_pos e c G (Hl c (or_introl eq_refl))). destruct (Req_EM_T _ 0); [lra|]. f_equal. apply IH. intros; apply Hl; right; auto. }
  apply H. intros c Hc. apply in_seq in Hc. lia.
Qed.

Lemma maximization_spec e : good_rows e -> let m := maximization data e in
  amount m = amount e /\ well_formed m /\ rc m = rc e /\ gaussians m = gaussians e /\
  forall c, (c < amount e)%nat -> nth c (pic m) 0 = rtotal (map (resp e c) (seq 0 n)) / INR n /\
    nth c (means m) [] = update_mean data (nth c (rc e) []) (rtotal (nth c (rc e) [])) /\
    nth c (variances m) [] = update_covariance data (nth c (means m) []) (nth c (rc e) []) (rtotal (nth c (rc e) [])).
Proof.
  intros G m. pose proof (possible_all e G) as P. pose proof G as (G0 & G1 & G2 & G3).
  assert (A : amount m = amount e) by (unfold m, maximization; cbn [amount]; rewrite P, seq_length; auto).
  split; [exact A|]. split; [|split; [reflexivity|split; [reflexivity|]]].
  - unfold well_formed. rewrite A. unfold m, maximization; cbn [means variances pic]. rewrite P, !map_length, seq_length. repeat (split; [auto|]).
    intros w Hw. apply in_map_iff in Hw as (c & <- & Hc). apply in_seq in Hc. apply Rdiv_lt_0_compat; [apply row_pos; auto; lia|apply lt_0_INR; auto].
  - intros c Hc. unfold m, maximization; cbn [means variances pic]. rewrite P, !nth_map_seq0 by auto. split; [|split; reflexivity].
    f_equal. rewrite row_total by (apply G3; auto). reflexivity.
Qed.

Lemma weights_sum e : good_rows e -> (forall i, (i < n)%nat -> sum_over (amount e) (fun c => resp e c i) = 1) ->
  sum_over (amount (maximization data e)) (fun c => nth c (pic (maximization data e)) 0) = 1.
Proof.
  intros G S. destruct (maximization_spec e G) as (A & _ & _ & _ & H). rewrite A. unfold sum_over. change (fold_right Rplus R0) with rtotal.
  transitivity (rtotal (map (fun x => x * / INR n) (map (fun c => rtotal (map (resp e c) (seq 0 n))) (seq 0 (amount e))))).
  - rewrite map_map. apply rtotal_ext. intros c Hc. apply in_seq in Hc. apply H. lia.
  - rewrite rtotal_scal, rtotal_swap.
    replace (rtotal (map (fun b => rtotal (map (fun a => resp e a b) (seq 0 (amount e)))) (seq 0 n))) with (rtotal (map (fun _ => 1) (seq 0 n))).
    + rewrite rtotal_const, seq_length. field. apply not_0_INR. lia.
    + apply rtotal_ext. intros i Hi. apply in_seq in Hi. symmetry. apply S. lia.
Qed.

(** * Extraction *)
Lemma nth_keep {A} (d : A) idx l c : (c < length idx)%nat -> nth c (keep d idx l) d = nth (nth c idx 0%nat) l d.
Proof. intros H. unfold keep. rewrite (nth_indep _ d (nth 0 l d)) by (rewrite map_length; auto). rewrite (map_nth (fun x => nth x l d) idx 0%nat). reflexivity. Qed.
Lemma keep_length {A} (d : A) idx l : length (keep d idx l) = length idx.
Proof. apply map_length. Qed.

Lemma concat_keep idx (l : list (list nat)) : idx = filter (fun c => nonempty (nth c l [])) (seq 0 (length l)) -> concat (keep [] idx l) = concat l.
Proof.
  intros ->. unfold keep. revert l. assert (G : forall l pre : list (list nat), concat (map (fun c => nth c (pre ++ l) []) (filter (fun c => nonempty (nth c (pre ++ l) [])) (seq (length pre) (length l)))) = concat l).
  { induction l as [|x l IH]; intros pre; auto. cbn [length seq filter]. rewrite (app_nth2 pre) by lia. rewrite Nat.sub_diag. cbn [nth].
    specialize (IH (pre ++ [x])). rewrite <- app_assoc in IH. cbn [app] in IH. rewrite app_length in IH. cbn [length] in IH. replace (length pre + 1)%nat with (S (length pre)) in IH by lia.
    destruct x as [|a x]; cbn [nonempty].
    - rewrite IH. reflexivity.
    - cbn [map concat]. rewrite (app_nth2 pre) by lia. rewrite Nat.sub_diag. cbn [nth]. rewrite IH. reflexivity. }
  intros l. apply (G l []).
Qed.

Lemma filter_full_len {A} (f : A -> bool) l : length (filter f l) = length l -> forall x, In x l -> f x = true.
Proof.
  induction l as [|a l IH]; cbn [filter length]; intros E x Hx; [destruct Hx|]. pose proof (filter_length_le' f l). destruct (f a) eqn:Ea; cbn [length] in E; [|lia].
  destruct Hx as [<-|Hx]; auto.
Qed.

Lemma extract_spec m : well_formed m -> length (rc m) = amount m -> length (gaussians m) = amount m ->
  (forall c, (c < amount m)%nat -> length (nth c (rc m) []) = n /\ forall i, (i < n)%nat -> 0 < resp m c i) ->
  exists x, extract data m = Ok x /\ aligned n x /\ partitions n (clusters x) /\ no_empty (clusters x) /\ maximal x /\
    (forall v, In v (variances x) -> In v (variances m)) /\
    exists idx, length idx = amount x /\ (forall c, (c < amount x)%nat -> (nth c idx 0%nat < amount m)%nat /\ nth c (means x) [] = nth (nth c idx 0%nat) (means m) [] /\
      nth c (variances x) [] = nth (nth c idx 0%nat) (variances m) [] /\ nth c (rc x) [] = nth (nth c idx 0%nat) (rc m) []).
Proof.
  intros W Lrc Lg R. pose proof W as (A0 & A1 & A2 & A3 & A4). unfold extract. destruct (Nat.eqb_spec (amount m) 0) as [Hz|Hz]; [lia|].
  rewrite (push_groups (fun i => argmax (candidates m i))). set (cl := groups_of (fun i => argmax (candidates m i)) n (amount m)).
  assert (Lcl : length cl = amount m) by (unfold cl, groups_of; rewrite map_length, seq_length; auto).
  assert (Hcand : forall i, (argmax (candidates m i) < amount m)%nat /\ forall c', (c' < amount m)%nat -> resp m c' i <= resp m (argmax (candidates m i)) i).
  { intros i. destruct (argmax_spec (candidates m i)) as (B1 & B2 & _).
    - unfold candidates. destruct (amount m); [lia|discriminate].
    - assert (Lc : length (candidates m i) = amount m) by (unfold candidates; now rewrite map_length, seq_length). rewrite Lc in B1, B2. split; auto.
      intros c' Hc'. specialize (B2 c' Hc'). assert (Nc : forall c, (c < amount m)%nat -> nth c (candidates m i) 0 = resp m c i) by (intros c Hc; unfold candidates; rewrite nth_map_seq0 by auto; reflexivity). rewrite !Nc in B2 by auto. exact B2. }
  assert (P : partitions n cl).
  { unfold partitions, cl, groups_of. apply (filter_label_perm (fun i => argmax (candidates m i))). intros i _. apply Hcand. }
  assert (Mx : forall c i, (c < amount m)%nat -> In i (nth c cl []) -> forall c', (c' < amount m)%nat -> resp m c' i <= resp m c i).
  { intros c i Hc Hi c' Hc'. unfold cl, groups_of in Hi. rewrite nth_map_seq0 in Hi by auto. apply filter_In in Hi as (_ & Ei). apply Nat.eqb_eq in Ei. subst c. apply Hcand. auto. }
  set (idx := filter (fun c => nonempty (nth c cl [])) (seq 0 (length cl))).
  assert (Hidx : forall c, (c < length idx)%nat -> (nth c idx 0%nat < amount m)%nat /\ nonempty (nth (nth c idx 0%nat) cl []) = true).
  { intros c Hc. pose proof (nth_In idx 0%nat Hc) as H. apply filter_In in H as (H & H'). apply in_seq in H. split; [lia|auto]. }
  assert (Ipos : (0 < length idx)%nat).
  { destruct idx as [|x t] eqn:Ei; [|cbn; lia]. exfalso. pose proof (concat_keep idx cl eq_refl) as C. unfold idx in C at 1. fold idx in C. rewrite Ei in C. cbn in C.
    unfold partitions in P. rewrite <- C in P. apply Permutation_length in P. rewrite seq_length in P. cbn in P. lia. }
  eexists. split; [reflexivity|]. unfold erase_empty. cbn [clusters amount means variances pic gaussians rc]. fold idx.
  destruct (Nat.eqb_spec (length idx) (length cl)) as [El|El].
  - assert (NE : no_empty cl).
    { apply Forall_forall. intros g Hg. apply (In_nth _ _ []) in Hg as (c & Hc & <-). assert (El' : length idx = length (seq 0 (length cl))) by (rewrite seq_length; exact El).
      pose proof (filter_full_len _ _ El' c ltac:(apply in_seq; lia)) as Hne. cbn beta in Hne. intros E0. rewrite E0 in Hne. discriminate. }
    cbn [clusters]. split; [|split; [exact P|split; [exact NE|split; [|split; [auto|]]]]].
    + split; [exact W|]. cbn [clusters amount rc gaussians]. split; [exact Lcl|]. split; [exact Lrc|]. split; [exact Lg|]. exact R.
    + intros c i Hc Hi c' Hc'. cbn [clusters] in *. rewrite Lcl in Hc, Hc'. apply Mx; auto.
    + exists (seq 0 (amount m)). cbn [amount means variances rc]. split; [apply seq_length|]. intros c Hc. rewrite seq_nth by auto. cbn [plus]. auto.
  - cbn [clusters]. split; [|split; [|split; [|split; [|split]]]].
    + split; [|cbn [clusters amount rc gaussians]; rewrite !keep_length; repeat (split; [reflexivity|])].
      * unfold well_formed. cbn [amount means variances pic]. rewrite !keep_length. repeat (split; [auto|]). intros w Hw. apply in_map_iff in Hw as (c & <- & Hc).
        apply filter_In in Hc as (Hc & _). apply in_seq in Hc. apply A4, nth_In. lia.
      * intros c Hc. unfold resp. cbn [rc]. rewrite !nth_keep by auto. destruct (Hidx c Hc) as (H1 & _). apply R; auto.
    + unfold partitions. rewrite concat_keep by reflexivity. exact P.
    + apply Forall_forall. intros g Hg. apply in_map_iff in Hg as (c & <- & Hc). apply filter_In in Hc as (_ & Hc). intros E0. rewrite E0 in Hc. discriminate.
    + intros c i Hc Hi c' Hc'. cbn [clusters] in *. rewrite keep_length in Hc, Hc'. rewrite nth_keep in Hi by auto. unfold resp. cbn [rc]. rewrite !nth_keep by auto.
      destruct (Hidx c Hc) as (H1 & _). destruct (Hidx c' Hc') as (H2 & _). apply (Mx (nth c idx 0%nat) i H1 Hi (nth c' idx 0%nat) H2).
    + intros v Hv. cbn [variances] in Hv. apply in_map_iff in Hv as (c & <- & Hc). apply filter_In in Hc as (Hc & _). apply in_seq in Hc. apply nth_In. assert (Hcm : (c < amount m)%nat) by lia. rewrite <- A2 in Hcm. exact Hcm.
    + exists idx. cbn [amount means variances rc]. split; [reflexivity|]. intros c Hc. rewrite !nth_keep by auto. destruct (Hidx c Hc). auto.
Qed.

(** * The whole run *)
Definition weighted (s : state) : Prop :=
  forall c, (c < amount s)%nat -> nth c (means s) [] = update_mean data (nth c (rc s) []) (rtotal (nth c (rc s) [])) /\
    nth c (variances s) [] = update_covariance data (nth c (means s) []) (nth c (rc s) []) (rtotal (nth c (rc s) [])).

Lemma step_spec s : well_formed s -> nonzero_variances s ->
  exists x, step data density s = Ok x /\ aligned n x /\ partitions n (clusters x) /\ no_empty (clusters x) /\ maximal x /\ weighted x.
Proof.
  intros W V. unfold step. destruct (expectation_spec s W V) as (e & E & EA & _ & _ & _ & EG & ER & EC). rewrite E. cbn [bind].
  assert (G : good_rows e).
  { unfold good_rows. rewrite EA. split; [apply W|]. split; [auto|]. split; [auto|]. intros c Hc. destruct (EC c Hc) as (L & _). split; auto. intros i Hi.
    destruct (expectation_sum s e W V E i Hi) as (_ & P). apply P. lia. }
  destruct (maximization_spec e G) as (A & WM & RM & GM & H). pose proof G as (G0 & G1 & G2 & G3).
  destruct (extract_spec (maximization data e)) as (x & Ex & X1 & X2 & X3 & X4 & _ & idx & X5 & X6); auto.
  - rewrite RM, A. auto.
  - rewrite GM, A. auto.
  - intros c Hc. unfold resp. rewrite RM. rewrite A in Hc. apply G3. auto.
  - exists x. split; [exact Ex|]. split; [exact X1|]. split; [exact X2|]. split; [exact X3|]. split; [exact X4|]. intros c Hc. destruct (X6 c Hc) as (Y1 & Y2 & Y3 & Y4). rewrite A in Y1. destruct (H _ Y1) as (_ & Z1 & Z2). rewrite Y2, Y3, Y4, RM. rewrite Z2. rewrite Z1. auto.
Qed.

Lemma stop_false s : stop_condition s = false -> nonzero_variances s.
Proof.
  unfold stop_condition. intros H v Hv E. assert (existsb (fun v => if Req_EM_T (norm v) 0 then true else false) (variances s) = true); [|congruence].
  apply existsb_exists. exists v. split; auto. destruct (Req_EM_T (norm v) 0); auto.
Qed.

Definition result_ok (s : state) : Prop := aligned n s /\ partitions n (clusters s) /\ no_empty (clusters s) /\ maximal s /\ weighted s.

Lemma loop_spec tolerance left : forall stop prev cur s, result_ok s -> (stop = false -> nonzero_variances s) ->
  exists r, loop data density tolerance left stop prev cur s = Ok r /\ result_ok r.
Proof.
  induction left as [|left IH]; intros stop prev cur s H V; cbn [loop]; [eauto|]. destruct (stop || _) eqn:E; [eauto|].
  apply orb_false_iff in E as (E & _). destruct H as ((W & _) & _). destruct (step_spec s W (V E)) as (x & Ex & X). rewrite Ex. cbn [bind]. apply IH; [exact X|apply stop_false].
Qed.

Lemma normalize_spec s : result_ok s -> let r := normalize data s in
  clusters r = clusters s /\ means r = means s /\ variances r = variances s /\ length (rc r) = length (clusters r) /\
  (forall c, (c < length (clusters r))%nat -> length (nth c (rc r) []) = n) /\
  maximal r /\ forall i, (i < n)%nat -> Rabs (sum_over (length (clusters r)) (fun c => resp r c i) - 1) <= 1 / 1000000 /\
    forall c, (c < length (clusters r))%nat -> 0 < resp r c i.
Proof.
  intros ((W & Lc & Lr & Lg & R) & P & NE & M & _) r. assert (W0 : (0 < amount s)%nat) by apply W.
  set (p := fun i => rtotal (map (fun c => nth i (nth c (rc s) []) 0) (seq 0 (length (clusters s))))).
  set (factor := fun i => if Rlt_dec (1 / 1000000) (Rabs (p i - 1)) then (if Req_EM_T (p i) 0 then 1 else 1 / p i) else 1).
  assert (Pp : forall i, (i < n)%nat -> 0 < p i).
  { intros i Hi. apply rtotal_pos; [apply seq_nonempty; lia|]. intros c Hc. apply in_seq in Hc. apply R; lia. }
  assert (Fp : forall i, (i < n)%nat -> 0 < factor i).
  { intros i Hi. specialize (Pp i Hi). unfold factor. destruct (Rlt_dec _ _); [|lra]. destruct (Req_EM_T _ _); [lra|]. apply Rdiv_lt_0_compat; lra. }
  assert (Rr : forall c i, (c < amount s)%nat -> (i < n)%nat -> resp r c i = resp s c i * factor i).
  { intros c i Hc Hi. unfold r, normalize, resp. cbn [rc]. rewrite nth_map_seq0 by lia. destruct (Nat.ltb_spec c (length (clusters s))); [|lia]. rewrite nth_map_seq0 by auto. reflexivity. }
  change (clusters r) with (clusters s). repeat (split; [reflexivity|]). split; [unfold r, normalize; cbn [rc]; rewrite map_length, seq_length; lia|]. split; [|split].
  - intros c Hc. unfold r, normalize. cbn [rc]. rewrite nth_map_seq0 by lia. destruct (Nat.ltb_spec c (length (clusters s))); [|lia]. now rewrite map_length, seq_length.
  - intros c i Hc Hi c' Hc'. change (clusters r) with (clusters s) in *. assert (Hin : (i < n)%nat).
    { assert (In i (concat (clusters s))) as Hi' by (apply in_concat; exists (nth c (clusters s) []); split; [apply nth_In; auto|auto]). apply (Permutation_in _ P) in Hi'. apply in_seq in Hi'. lia. }
    rewrite !Rr by lia. apply Rmult_le_compat_r; [left; auto|]. apply M; auto.
  - intros i Hi. specialize (Pp i Hi). pose proof (Fp i Hi) as Hf. split.
    + assert (E : sum_over (length (clusters s)) (fun c => resp r c i) = p i * factor i).
      { unfold sum_over. change (fold_right Rplus R0) with rtotal. unfold p. rewrite <- rtotal_scal, map_map. apply rtotal_ext. intros c Hc. apply in_seq in Hc. apply Rr; lia. }
      rewrite E. unfold factor. destruct (Rlt_dec _ _) as [Hl|Hl].
      * destruct (Req_EM_T (p i) 0); [lra|]. replace (p i * (1 / p i) - 1) with 0 by (field; lra). rewrite Rabs_R0. lra.
      * rewrite Rmult_1_r. lra.
    + intros c Hc. rewrite Rr by lia. apply Rmult_lt_0_compat; auto. apply R; lia.
Qed.

Theorem ema_spec k means0 variances0 tolerance iterations : (0 < k)%nat -> length means0 = k -> length variances0 = k -> (forall v, In v variances0 -> norm v <> 0) ->
  (0 < iterations)%nat -> tolerance < 100000 ->
  exists s, ema_process data density k means0 variances0 tolerance iterations = Ok (normalize data s) /\ result_ok s.
Proof.
  intros Hk Hm Hv V Hi Ht. unfold ema_process. destruct (Nat.eqb_spec n 0) as [Hz|Hz]; [lia|]. destruct (Nat.eqb_spec k 0) as [Hz1|Hz1]; [lia|].
  destruct iterations as [|it]; [lia|]. cbn [loop orb]. unfold changed at 1. replace (-200000 - -100000) with (- (100000)) by ring. rewrite Rabs_Ropp, (Rabs_pos_eq 100000) by lra.
  destruct (Rlt_dec tolerance 100000) as [_|]; [|lra]. cbn [negb].
  set (s0 := {| amount := k |}). assert (W : well_formed s0).
  { unfold well_formed, s0. cbn [amount means variances pic]. rewrite repeat_length. repeat (split; [auto|]). intros w Hw. apply repeat_spec in Hw. subst. lra. }
  destruct (step_spec s0 W V) as (x & Ex & X). rewrite Ex. cbn [bind].
  destruct (loop_spec tolerance it (stop_condition x) (Some (-100000)) (log_likelihood data x) x X (stop_false x)) as (r & Er & R). rewrite Er. cbn [bind]. eauto.
Qed.
End Run.
