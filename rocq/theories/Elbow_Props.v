(** Elbow method: C31, C88, C49. *)
From Verif Require Import Base Kmeans_Model Elbow_Model Elbow_Proofs.
From Coq Require Import Reals Qreals Lra.
Local Open Scope nat_scope.

(** C31.  A run on a new object returns kmin + i * kstep, strictly between kmin and kmax, for the first i whose
    point (i, error) is farthest from the line through (0, first error) and (number of errors, last error); the
    errors are those of k-means for each amount. *)
Theorem C31_elbow data init kmin kmax kstep st : elbow_process data init kmin kmax kstep elbow_initial = Ok st ->
  let n := (kmax - kmin) / kstep + 1 in
  length (wce st) = n /\
  (forall i, i < n -> exists r, kmeans_process sqdist data (init (kmin + i * kstep)) (1 # 1000) 200 = Ok r /\ nth i (wce st) 0%Q = snd r) /\
  exists i, kvalue st = Some (kmin + i * kstep) /\ 1 <= i < n - 1 /\ kmin < kmin + i * kstep < kmax /\
    exists d, line_distance 0 (Q2R (nth 0 (wce st) 0%Q)) (INR n) (Q2R (nth (n - 1) (wce st) 0%Q)) (INR i) (Q2R (nth i (wce st) 0%Q)) d /\
      forall j d', 1 <= j < n - 1 -> line_distance 0 (Q2R (nth 0 (wce st) 0%Q)) (INR n) (Q2R (nth (n - 1) (wce st) 0%Q)) (INR j) (Q2R (nth j (wce st) 0%Q)) d' -> (d' <= d)%R /\ (j < i -> (d' < d)%R).
Proof. exact (process_first data init kmin kmax kstep st). Qed.

Definition data5 : list point := [[3%Q; 3%Q]; [4%Q; 1%Q]; [2%Q; 1%Q]; [5%Q; 1%Q]; [3%Q; 2%Q]].
Definition init5 (k : nat) : list point :=
  match k with 1 => [[2%Q; 1%Q]] | 2 => [[2%Q; 1%Q]; [5%Q; 1%Q]] | 3 => [[2%Q; 1%Q]; [5%Q; 1%Q]; [3%Q; 2%Q]] | _ => [[3%Q; 3%Q]; [2%Q; 1%Q]; [5%Q; 1%Q]; [3%Q; 2%Q]] end.
Lemma errors5 w0 : exists a b c d, errors data5 init5 (amounts 1 4 1) w0 = Ok (w0 ++ [a; b; c; d]) /\ (a == 42 # 5)%Q /\ (b == 19 # 6)%Q /\ (c == 1)%Q /\ (d == 1 # 2)%Q.
Proof.
  change (amounts 1 4 1) with [1; 2; 3; 4]. cbn [errors].
  set (r1 := kmeans_process sqdist data5 (init5 1) (1 # 1000) 200). vm_compute in r1. set (r2 := kmeans_process sqdist data5 (init5 2) (1 # 1000) 200). vm_compute in r2.
  set (r3 := kmeans_process sqdist data5 (init5 3) (1 # 1000) 200). vm_compute in r3. set (r4 := kmeans_process sqdist data5 (init5 4) (1 # 1000) 200). vm_compute in r4. unfold r1, r2, r3, r4. cbn [bind snd]. eexists _, _, _, _.
  rewrite <- !app_assoc. cbn [app]. split; [reflexivity|]. repeat split; reflexivity.
Qed.
Lemma q2r q p : (q == p)%Q -> Q2R q = Q2R p.
Proof. apply Qeq_eqR. Qed.
Ltac q2r_const := unfold Q2R; cbn [Qnum Qden]; try lra.
Lemma Q42 : Q2R (42 # 5) = (42 / 5)%R. Proof. q2r_const. Qed.
Lemma Q19 : Q2R (19 # 6) = (19 / 6)%R. Proof. q2r_const. Qed.
Lemma Q11 : Q2R 1 = 1%R. Proof. q2r_const. Qed.
Lemma Q12 : Q2R (1 # 2) = (1 / 2)%R. Proof. q2r_const. Qed.
Ltac abs := unfold Rabs; repeat destruct (Rcase_abs _); lra.

(** C88.  The documented length is measured to the segment from the kmin-point to the kmax-point, so the last
    error belongs at abscissa n - 1: false, and a different amount is returned.  Here the errors are those of
    k-means started at points of the data; the documented rule gives 2 clusters, the code 3. *)
Theorem C88_documented_elbow_refuted : exists data init st d2 d3, (forall k c, In c (init k) -> In c data) /\ (forall k, 1 <= k <= 4 -> length (init k) = k) /\
  elbow_process data init 1 4 1 elbow_initial = Ok st /\ kvalue st = Some 3 /\ length (wce st) = 4 /\
  line_distance 0 (Q2R (nth 0 (wce st) 0%Q)) (INR 3) (Q2R (nth 3 (wce st) 0%Q)) (INR 1) (Q2R (nth 1 (wce st) 0%Q)) d2 /\
  line_distance 0 (Q2R (nth 0 (wce st) 0%Q)) (INR 3) (Q2R (nth 3 (wce st) 0%Q)) (INR 2) (Q2R (nth 2 (wce st) 0%Q)) d3 /\ (d3 < d2)%R.
Proof.
  destruct (errors5 []) as (a & b & c & d & E & Ea & Eb & Ec & Ed). cbn [app] in E. apply q2r in Ea, Eb, Ec, Ed. rewrite Q42 in Ea. rewrite Q19 in Eb. rewrite Q11 in Ec. rewrite Q12 in Ed.
  destruct (process_total data5 init5 1 4 1 elbow_initial [a; b; c; d] eq_refl E ltac:(simpl; lia)) as (k & m & P & Ek & Hm & Hmax & _). cbn [elbows elbow_initial app] in *.
  exists data5, init5. eexists _, _, _. split; [|split; [|split; [exact P|]; split; [|split; [reflexivity|]; split; [apply elbow_length_spec; simpl; lra|]; split; [apply elbow_length_spec; simpl; lra|]]]].
  - intros [|[|[|[|k']]]] x; simpl; intuition.
  - intros [|[|[|[|[|k']]]]] H; simpl; auto; lia.
  - cbn [kvalue]. f_equal. assert (m = 1); [|lia]. rewrite elbows_length in *. change (length [a; b; c; d] - 2) with 2 in *. assert (m = 0 \/ m = 1) as [-> | ->] by lia; auto. exfalso. specialize (Hmax 1 ltac:(lia)). rewrite !elbows_nth in Hmax by (simpl; lia). cbn [length nth Nat.sub] in Hmax.
    apply Rle_not_lt in Hmax. apply Hmax. apply elbow_lt; [simpl; lra|]. rewrite Ea, Eb, Ec, Ed. simpl. abs.
  - apply elbow_lt; [simpl; lra|]. cbn [wce nth]. rewrite Ea, Eb, Ec, Ed. simpl. abs.
Qed.

(** C49.  A second process() on the same object appends the errors and elbow lengths to those of the first run,
    and the result is out of the interval: the same start gives another amount, not below kmax. *)
Theorem C49_elbow_reprocess_refuted : exists data init st1 st2 k1 k2, elbow_process data init 1 4 1 elbow_initial = Ok st1 /\ elbow_process data init 1 4 1 st1 = Ok st2 /\
  kvalue st1 = Some k1 /\ kvalue st2 = Some k2 /\ k1 < 4 /\ 4 <= k2 /\ length (wce st2) = 8.
Proof.
  destruct (errors5 []) as (a & b & c & d & E & Ea & Eb & Ec & Ed). cbn [app] in E. apply q2r in Ea, Eb, Ec, Ed. rewrite Q42 in Ea. rewrite Q19 in Eb. rewrite Q11 in Ec. rewrite Q12 in Ed.
  destruct (process_total data5 init5 1 4 1 elbow_initial [a; b; c; d] eq_refl E ltac:(simpl; lia)) as (k & m & P & Ek & Hm & _). cbn [elbows elbow_initial app] in *. rewrite elbows_length in Hm.
  set (st1 := mkE [a; b; c; d] (calculate_elbows [a; b; c; d]) (Some k)).
  assert (E2 : exists w, errors data5 init5 (amounts 1 4 1) (wce st1) = Ok w /\ length w = 8 /\ Q2R (nth 0 w 0%Q) = (42 / 5)%R /\ Q2R (nth 2 w 0%Q) = 1%R /\ Q2R (nth 7 w 0%Q) = (1 / 2)%R).
  { destruct (errors5 (wce st1)) as (a' & b' & c' & d' & E' & _ & _ & _ & Ed'). exists (wce st1 ++ [a'; b'; c'; d']). split; [exact E'|]. split; [reflexivity|]. split; [exact Ea|]. split; [exact Ec|]. cbn [st1 wce app nth]. apply q2r in Ed'. rewrite Q12 in Ed'. exact Ed'. }
  destruct E2 as (w & E2 & L2 & W0 & W2 & W7).
  destruct (process_total data5 init5 1 4 1 st1 w eq_refl E2 ltac:(lia)) as (k2 & m2 & P2 & Ek2 & Hm2 & Hmax & _).
  assert (L1 : length (calculate_elbows [a; b; c; d]) = 2) by apply elbows_length.
  exists data5, init5, st1. eexists _, k, k2. split; [exact P|]. split; [exact P2|]. split; [reflexivity|]. split; [reflexivity|]. cbn [length] in Hm. split; [lia|]. split; [|exact L2].
  assert (2 <= m2); [|lia]. destruct (le_lt_dec 2 m2) as [|Hlt]; auto. exfalso. cbn [st1 elbows] in Hmax, Hm2. rewrite app_length, L1, elbows_length, L2 in Hmax. specialize (Hmax 3 ltac:(lia)).
  rewrite (app_nth1 _ _ _ (eq_ind_r (fun n => m2 < n) Hlt L1)) in Hmax. rewrite app_nth2, L1 in Hmax by (rewrite L1; lia). rewrite (elbows_nth [a; b; c; d]) in Hmax by (simpl; lia). rewrite elbows_nth in Hmax by lia. rewrite L2 in Hmax. cbn [Nat.sub length] in Hmax.
  rewrite W0, W2, W7 in Hmax. cbn [nth] in Hmax. rewrite Ea, Ed in Hmax.
  set (d8 := elbow_length 0 (42 / 5) (INR 8) (1 / 2) (INR 2) 1) in Hmax. set (d4 := elbow_length _ _ _ _ _ _) in Hmax.
  assert (H8 : (3 < d8)%R). { destruct (elbow_square 0 (42 / 5) (INR 8) (1 / 2) (INR 2) 1 ltac:(simpl; lra)) as [A B]. fold d8 in A, B. simpl INR in B. destruct (Rlt_dec 3 d8); auto. exfalso. nra. }
  assert (H4 : (d4 < 3)%R).
  { assert (m2 = 0 \/ m2 = 1) as [-> | ->] by lia; cbn [nth] in d4; [pose proof (elbow_square 0 (42 / 5) (INR 4) (1 / 2) (INR 1) (Q2R b) ltac:(simpl; lra)) as AB|pose proof (elbow_square 0 (42 / 5) (INR 4) (1 / 2) (INR 2) (Q2R c) ltac:(simpl; lra)) as AB]; cbv zeta in AB; fold d4 in AB; destruct AB as [A B]; rewrite ?Eb, ?Ec in B; simpl INR in B; destruct (Rlt_dec d4 3); auto; exfalso; nra. }
  lra.
Qed.

Print Assumptions C31_elbow.
Print Assumptions C88_documented_elbow_refuted.
Print Assumptions C49_elbow_reprocess_refuted.

(** non-trivial case of the hypothesis of C31 *)
Example C31_example : exists st, elbow_process data5 init5 1 4 1 elbow_initial = Ok st /\ length (wce st) = 4.
Proof. destruct (errors5 []) as (a & b & c & d & E & _). cbn [app] in E. destruct (process_total data5 init5 1 4 1 elbow_initial [a; b; c; d] eq_refl E ltac:(simpl; lia)) as (k & m & P & _). eexists. split; [exact P|reflexivity]. Qed.
