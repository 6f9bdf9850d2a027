(** C261: fuzzy c-means does not depend on the order of the points nor on that of the initial centres. *)
From Verif Require Import Base Kmeans_Model Kmeans_Proofs Metric_Model Fcm_Model Fcm_Proofs Unit_Props Reorder_Props.
From Coq Require Import Reals Lra Lia.
Local Open Scope R_scope.

(** ** specification *)
(** the entries at these positions *)
Definition chosen {A} (d : A) (l : list A) (ord : list nat) : list A := map (fun i => nth i l d) ord.
(** clusters have the copies of the members, the centres are the same, memberships go with the points *)
Definition points_moved (c : nat) (ord : list nat) (r r' : list (list nat) * list rpoint * list (list R)) : Prop :=
  let '(cl, ce, me) := r in let '(cl', ce', me') := r' in Forall2 (same_members c ord) cl cl' /\ ce' = ce /\ me' = chosen [] me ord.
(** a row with one largest membership *)
Definition decided (row : list R) : Prop := forall i j, (i < length row)%nat -> (j < length row)%nat -> i <> j -> nth i row 0 = nth j row 0 -> exists k, (k < length row)%nat /\ nth i row 0 < nth k row 0.
(** centres are numbered as [ord] says, memberships too, and the clusters of decided points *)
Definition centers_moved (ord : list nat) (r r' : list (list nat) * list rpoint * list (list R)) : Prop :=
  let '(cl, ce, me) := r in let '(cl', ce', me') := r' in ce' = @chosen rpoint [] ce ord /\ me' = map (fun row => chosen 0 row ord) me /\ (Forall decided me -> cl' = chosen [] cl ord).

(** ** sums *)
Lemma rtotal_perm l l' : Permutation l l' -> rtotal l = rtotal l'.
Proof. unfold rtotal. induction 1; cbn [fold_right]; lra. Qed.
Lemma rtotal_app l l' : rtotal (l ++ l') = rtotal l + rtotal l'.
Proof. induction l as [|x l IH]; cbn [rtotal fold_right app]; [unfold rtotal; lra|]. fold (rtotal (l ++ l')) (rtotal l). lra. Qed.
Lemma rtotal_copies l c : rtotal (concat (repeat l c)) = INR c * rtotal l.
Proof. induction c as [|c IH]; cbn [repeat concat]; [cbn; lra|]. rewrite rtotal_app, IH, S_INR. lra. Qed.
Lemma over_copies c n ord (f : nat -> R) : copies c n ord -> rtotal (map f ord) = INR c * rtotal (map f (seq 0 n)).
Proof. intro H. rewrite (rtotal_perm _ _ (Permutation_map f H)), map_concat_repeat. apply rtotal_copies. Qed.
Lemma chosen_nth {A} (d : A) l ord i : (i < length ord)%nat -> nth i (chosen d l ord) d = nth (nth i ord 0%nat) l d.
Proof. intro H. unfold chosen. rewrite (nth_indep _ d (nth 0 l d)) by (rewrite map_length; exact H). apply (map_nth (fun i => nth i l d) ord 0%nat i). Qed.
Lemma chosen_all {A} (d : A) l : chosen d l (seq 0 (length l)) = l.
Proof. unfold chosen. apply (nth_ext _ _ d d); rewrite map_length, seq_length; [reflexivity|]. intros k Hk. now rewrite nth_map_seq0 by exact Hk. Qed.
Lemma map_chosen {A B} (f : A -> B) d e l ord : (forall i, In i ord -> (i < length l)%nat) -> map f (chosen d l ord) = chosen e (map f l) ord.
Proof. intro H. unfold chosen. rewrite map_map. apply map_ext_in. intros i Hi. rewrite (nth_indep _ e (f d)) by (rewrite map_length; auto). symmetry. apply map_nth. Qed.
Lemma map2_chosen {A B C} (f : A -> B -> C) a b l k ord : map2 f (chosen a l ord) (chosen b k ord) = map (fun i => f (nth i l a) (nth i k b)) ord.
Proof. unfold chosen. induction ord as [|i t IH]; cbn [map map2]; [reflexivity|]. now rewrite IH. Qed.
Lemma map2_all {A B C} (f : A -> B -> C) a b l k : length l = length k -> map2 f l k = map (fun i => f (nth i l a) (nth i k b)) (seq 0 (length l)).
Proof. intro H. rewrite <- (map2_chosen f a b l k). rewrite H at 2. now rewrite !chosen_all. Qed.

(** ** the order of the points *)
Section Points.
Variables (data : list rpoint) (m : R) (c : nat) (ord : list nat) (D : nat).
Hypothesis Hc : (0 < c)%nat.
Hypothesis Hord : copies c (length data) ord.
Hypothesis HD : forall p, In p data -> length p = D.
Hypothesis Hne : data <> [].
Notation data' := (@chosen rpoint [] data ord).

Lemma in_ord i : In i ord -> (i < length data)%nat.
Proof. intro H. apply (Permutation_in _ Hord), in_concat_repeat, in_seq in H. lia. Qed.
Lemma ord_len : length ord = (c * length data)%nat.
Proof. rewrite (Permutation_length Hord), length_concat_repeat, seq_length. reflexivity. Qed.
Lemma ord_nonempty : ord <> [].
Proof. intro E. pose proof ord_len as W. rewrite E in W. destruct data; [congruence|]. cbn in W. nia. Qed.
Lemma dim_moved : dim data' = dim data.
Proof.
  unfold dim. rewrite chosen_nth by (pose proof ord_nonempty; destruct ord; [congruence|cbn; lia]). rewrite !HD; auto; apply nth_In.
  - destruct data; [congruence|cbn; lia].
  - apply in_ord. pose proof ord_nonempty. destruct ord; [congruence|left; reflexivity].
Qed.
Lemma membership_moved centers : update_membership data' m centers = chosen [] (update_membership data m centers) ord.
Proof. unfold update_membership. apply map_chosen. exact in_ord. Qed.
Lemma column_moved mem j : length mem = length data -> column (chosen [] mem ord) j = chosen 0 (column mem j) ord.
Proof. intro L. unfold column. apply map_chosen. intros i Hi. rewrite L. now apply in_ord. Qed.
Lemma column_length (mem : list (list R)) j : length (column mem j) = length mem. Proof. apply map_length. Qed.
Lemma centers_unmoved prev : calculate_centers data' (chosen [] (update_membership data m prev) ord) (length prev) = calculate_centers data (update_membership data m prev) (length prev).
Proof.
  unfold calculate_centers. rewrite dim_moved. apply map_ext_in. intros j Hj. apply in_seq in Hj. apply map_ext. intro d.
  assert (L : length (update_membership data m prev) = length data) by apply map_length.
  rewrite column_moved by exact L. set (col := column (update_membership data m prev) j). assert (Lc : length col = length data) by (unfold col; rewrite column_length; exact L).
  rewrite map2_chosen. rewrite (map2_all (fun w p => w * nth d p 0) 0 [] col data Lc). rewrite Lc.
  pose proof (over_copies c (length data) ord (fun i => nth i col 0 * nth d (nth i data []) 0) Hord) as W. unfold rpoint in W |- *. rewrite W. clear W.
  assert (T : rtotal (chosen 0 col ord) = INR c * rtotal col). { unfold chosen. rewrite (over_copies c (length data) ord _ Hord). rewrite <- Lc. f_equal. f_equal. apply chosen_all. }
  rewrite T. assert (P : 0 < rtotal col).
  { assert (Q : forall w, In w col -> 0 < w) by (intros w Hw; eapply column_pos; [|exact Hw]; lia). destruct col as [|w t] eqn:E; [destruct data; [congruence|cbn in Lc; lia]|].
    apply Rlt_le_trans with w; [apply Q; left; reflexivity|]. apply rtotal_in; [intros y Hy; apply Rlt_le, Q, Hy|left; reflexivity]. }
  assert (0 < INR c) by (apply lt_0_INR; exact Hc). field. split; lra.
Qed.
Lemma loop_moved tolerance : forall left change mem centers, length mem = length data ->
  fcm_loop data' m tolerance left change (chosen [] mem ord) centers = (let r := fcm_loop data m tolerance left change mem centers in (chosen [] (fst r) ord, snd r)) /\
  length (fst (fcm_loop data m tolerance left change mem centers)) = length data.
Proof.
  induction left as [|left IH]; intros change mem centers L; cbn [fcm_loop]; [auto|].
  destruct (match change with None => true | Some x => if Rlt_dec tolerance x then true else false end); [|auto].
  rewrite membership_moved, centers_unmoved. apply IH. apply map_length.
Qed.
Lemma clusters_moved mem k : length mem = length data -> Forall2 (same_members c ord) (extract_clusters mem k) (extract_clusters (chosen [] mem ord) k).
Proof.
  intro L. unfold extract_clusters. rewrite !push_groups, L. unfold chosen at 2. rewrite map_length. unfold groups_of.
  induction (seq 0 k) as [|j t IH]; cbn [map]; constructor; [|exact IH]. clear IH. unfold same_members.
  rewrite (filter_ext_in _ (fun i => (fun p => (argmax (nth p mem []) =? j)%nat) (nth i ord 0%nat))).
  2:{ intros i Hi. apply in_seq in Hi. now rewrite chosen_nth by lia. }
  rewrite (filter_through (fun i => nth i ord 0%nat) (fun p => (argmax (nth p mem []) =? j)%nat)), positions, <- filter_concat_repeat. apply perm_filter. exact Hord.
Qed.
End Points.

Theorem C261_points (data : list rpoint) m c ord D initial tolerance itermax : (0 < c)%nat -> copies c (length data) ord -> (forall p, In p data -> length p = D) ->
  same_run (points_moved c ord) (fcm_process data m initial tolerance itermax) (fcm_process (@chosen rpoint [] data ord) m initial tolerance itermax).
Proof.
  intros Hc Ho HD. destruct data as [|p t] eqn:E.
  - assert (ord = []) as ->. { apply Permutation_nil. apply Permutation_sym. eapply Permutation_trans; [exact Ho|]. clear. cbn. induction c; cbn; auto. } reflexivity.
  - rewrite <- E in *. assert (Hne : data <> []) by (rewrite E; discriminate). unfold fcm_process.
    assert (L1 : (length data =? 0)%nat = false) by (apply Nat.eqb_neq; destruct data; [congruence|discriminate]).
    assert (L2 : (length (@chosen rpoint [] data ord) =? 0)%nat = false). { apply Nat.eqb_neq. unfold chosen. rewrite map_length. assert (ord <> []) by (eapply ord_nonempty; eassumption). destruct ord; [congruence|discriminate]. }
    rewrite L1, L2. destruct (@length rpoint initial =? 0)%nat; [reflexivity|].
    assert (Z : map (fun _ => map (fun _ => 0) initial) (@chosen rpoint [] data ord) = chosen [] (map (fun _ => map (fun _ => 0) initial) data) ord) by (apply map_chosen; intros i Hi; eapply in_ord; eassumption). rewrite Z.
    destruct (loop_moved data m c ord D Hc Ho HD Hne tolerance itermax None (map (fun _ => map (fun _ => 0) initial) data) initial) as (R1 & R2); [apply map_length|].
    rewrite R1. cbn [same_run points_moved fst snd]. split; [|split; reflexivity]. eapply clusters_moved; eassumption.
Qed.
Print Assumptions C261_points.

(** ** the order of the centres *)
Section Centers.
Variables (data : list rpoint) (m : R) (ord : list nat) (k : nat).
Hypothesis Hord : Permutation ord (seq 0 k).

Lemma in_ord_k i : In i ord -> (i < k)%nat.
Proof. intro H. apply (Permutation_in _ Hord), in_seq in H. lia. Qed.
Lemma ord_k : length ord = k.
Proof. rewrite (Permutation_length Hord). apply seq_length. Qed.
Lemma chosen_perm {A} (d : A) l : length l = k -> Permutation (chosen d l ord) l.
Proof. intro L. rewrite <- (chosen_all d l) at 2. rewrite L. unfold chosen. apply Permutation_map. exact Hord. Qed.
Lemma member_perm ds ds' d : Permutation ds ds' -> member m ds d = member m ds' d.
Proof. intro P. unfold member, divider. rewrite (rtotal_perm _ _ (Permutation_map (fun dk => rpow m (d / dk)) (perm_filter differs _ _ P))). reflexivity. Qed.
Lemma rows_numbered centers p : length centers = k -> point_membership m (@chosen rpoint [] centers ord) p = chosen 0 (point_membership m centers p) ord.
Proof.
  intro L. unfold point_membership. rewrite (map_chosen (difference p) [] 0) by (intros i Hi; rewrite L; now apply in_ord_k).
  set (ds := map (difference p) centers). assert (Ld : length ds = k) by (unfold ds; rewrite map_length; exact L).
  rewrite (map_ext _ (member m ds)); [|intro d; apply member_perm, chosen_perm, Ld]. apply map_chosen. intros i Hi. rewrite Ld. now apply in_ord_k.
Qed.
Lemma column_numbered mem j : (j < k)%nat -> column (map (fun row => chosen 0 row ord) mem) j = column mem (nth j ord 0%nat).
Proof. intro Hj. unfold column. rewrite map_map. apply map_ext. intro row. apply chosen_nth. now rewrite ord_k. Qed.
Lemma centers_numbered mem : calculate_centers data (map (fun row => chosen 0 row ord) mem) k = @chosen rpoint [] (calculate_centers data mem k) ord.
Proof.
  unfold calculate_centers. unfold chosen at 3.
  transitivity (map (fun j => map (fun d => rtotal (map2 (fun w p => w * nth d p 0) (column mem (nth j ord 0%nat)) data) / rtotal (column mem (nth j ord 0%nat))) (seq 0 (dim data))) (seq 0 k)).
  - apply map_ext_in. intros j Hj. apply in_seq in Hj. apply map_ext. intro d. now rewrite column_numbered by lia.
  - rewrite <- ord_k at 1. rewrite <- (map_map (fun j => nth j ord 0%nat) (fun j => map (fun d => rtotal (map2 (fun w p => w * nth d p 0) (column mem j) data) / rtotal (column mem j)) (seq 0 (dim data)))).
    rewrite positions. apply map_ext_in. intros j Hj. now rewrite nth_map_seq0 by (now apply in_ord_k).
Qed.
Lemma rmax_perm l l' : Permutation l l' -> fold_right Rmax 0 l = fold_right Rmax 0 l'.
Proof. induction 1; cbn [fold_right]; [reflexivity|congruence| |congruence]. rewrite !Rmax_assoc. now rewrite (Rmax_comm y x). Qed.
Lemma changes_numbered centers updated : length centers = k -> length updated = k -> calculate_changes (@chosen rpoint [] centers ord) (@chosen rpoint [] updated ord) = calculate_changes centers updated.
Proof.
  intros L1 L2. unfold calculate_changes. rewrite map2_chosen, (map2_all difference [] [] centers updated) by congruence. rewrite L1. apply rmax_perm. apply (Permutation_map (fun i => difference (nth i centers []) (nth i updated []))). exact Hord.
Qed.
Lemma loop_numbered tolerance : forall left change mem centers, length centers = k ->
  fcm_loop data m tolerance left change (map (fun row => chosen 0 row ord) mem) (@chosen rpoint [] centers ord) =
  (let r := fcm_loop data m tolerance left change mem centers in (map (fun row => chosen 0 row ord) (fst r), @chosen rpoint [] (snd r) ord)) /\
  length (snd (fcm_loop data m tolerance left change mem centers)) = k.
Proof.
  induction left as [|left IH]; intros change mem centers L; cbn [fcm_loop]; [auto|].
  destruct (match change with None => true | Some x => if Rlt_dec tolerance x then true else false end); [|auto].
  assert (U : update_membership data m (@chosen rpoint [] centers ord) = map (fun row => chosen 0 row ord) (update_membership data m centers)).
  { unfold update_membership. rewrite map_map. apply map_ext. intro p. now apply rows_numbered. }
  assert (Lu : length (calculate_centers data (update_membership data m centers) k) = k) by (unfold calculate_centers; now rewrite map_length, seq_length).
  assert (Lc : length (@chosen rpoint [] centers ord) = k) by (unfold chosen; rewrite map_length; apply ord_k).
  rewrite U, Lc, L, centers_numbered, changes_numbered by assumption. apply IH. exact Lu.
Qed.
Lemma argmax_numbered row j : length row = k -> decided row -> (j < k)%nat -> (argmax (chosen 0%R row ord) =? j)%nat = (argmax row =? nth j ord 0%nat)%nat.
Proof.
  intros L Hd Hj. assert (Hr : row <> []) by (intros ->; cbn in L; lia). set (row' := chosen 0 row ord). assert (L' : length row' = k) by (unfold row', chosen; rewrite map_length; apply ord_k).
  assert (Hr' : row' <> []) by (intros E; rewrite E in L'; cbn in L'; lia).
  destruct (argmax_spec row Hr) as (A1 & A2 & _). destruct (argmax_spec row' Hr') as (B1 & B2 & _). rewrite L in A1. rewrite L' in B1.
  assert (N : forall i, (i < k)%nat -> nth i row' 0 = nth (nth i ord 0%nat) row 0) by (intros i Hi; apply chosen_nth; now rewrite ord_k).
  assert (Ok' : forall i, (i < k)%nat -> (nth i ord 0%nat < k)%nat) by (intros i Hi; apply in_ord_k, nth_In; now rewrite ord_k).
  assert (U : nth (argmax row') ord 0%nat = argmax row).
  { destruct (Nat.eq_dec (nth (argmax row') ord 0%nat) (argmax row)) as [e|ne]; [exact e|exfalso].
    assert (I : In (argmax row) ord) by (apply (Permutation_in _ (Permutation_sym Hord)), in_seq; lia). apply (In_nth _ _ 0%nat) in I as (q & Hq & Eq). rewrite ord_k in Hq.
    assert (V : nth (nth (argmax row') ord 0%nat) row 0 = nth (argmax row) row 0).
    { apply Rle_antisym; [apply A2; rewrite L; apply Ok', B1|]. rewrite <- N by exact B1. rewrite <- Eq, <- N by exact Hq. apply B2. now rewrite L'. }
    destruct (Hd _ _ ltac:(rewrite L; apply Ok', B1) ltac:(rewrite L; exact A1) ne V) as (w & Hw & Lt). pose proof (A2 w Hw). lra. }
  destruct (Nat.eqb_spec (argmax row') j) as [E|E]; symmetry.
  - apply Nat.eqb_eq. rewrite <- U, E. reflexivity.
  - apply Nat.eqb_neq. rewrite <- U. intro F. apply E. apply (proj1 (NoDup_nth ord 0%nat)); rewrite ?ord_k; auto. apply (Permutation_NoDup (Permutation_sym Hord)), seq_NoDup.
Qed.
Lemma clusters_numbered mem : (forall row, In row mem -> length row = k) -> Forall decided mem -> extract_clusters (map (fun row => chosen 0 row ord) mem) k = chosen [] (extract_clusters mem k) ord.
Proof.
  intros L Hd. unfold extract_clusters. rewrite !push_groups, map_length. unfold groups_of, chosen at 2.
  transitivity (map (fun j => filter (fun i => (argmax (nth i mem []) =? j)%nat) (seq 0 (length mem))) ord).
  - transitivity (map (fun j => filter (fun i => (argmax (nth i mem []) =? j)%nat) (seq 0 (length mem))) (map (fun i => nth i ord 0%nat) (seq 0 (length ord)))); [|now rewrite positions].
    rewrite map_map, ord_k. apply map_ext_in. intros j Hj. apply in_seq in Hj. apply filter_ext_in. intros i Hi. apply in_seq in Hi.
    rewrite (nth_indep _ [] (chosen 0 [] ord)) by (rewrite map_length; lia). rewrite (map_nth (fun row => chosen 0 row ord)). rewrite Forall_forall in Hd. apply argmax_numbered; [apply L, nth_In; lia|apply Hd, nth_In; lia|lia].
  - apply map_ext_in. intros j Hj. now rewrite nth_map_seq0 by (now apply in_ord_k).
Qed.
End Centers.

Lemma loop_rows data m tolerance : forall left change mem centers, (forall row, In row mem -> length row = length centers) ->
  let r := fcm_loop data m tolerance left change mem centers in forall row, In row (fst r) -> length row = length (snd r).
Proof.
  induction left as [|left IH]; intros change mem centers H r; unfold r; cbn [fcm_loop]; [exact H|].
  destruct (match change with None => true | Some x => if Rlt_dec tolerance x then true else false end); [|exact H]. apply IH.
  intros row Hr. apply in_map_iff in Hr as (p & <- & _). rewrite row_length. unfold calculate_centers. now rewrite map_length, seq_length.
Qed.

Theorem C261_centers data m ord (initial : list rpoint) tolerance itermax : Permutation ord (seq 0 (length initial)) ->
  same_run (centers_moved ord) (fcm_process data m initial tolerance itermax) (fcm_process data m (@chosen rpoint [] initial ord) tolerance itermax).
Proof.
  intro Ho. unfold fcm_process. destruct (length data =? 0)%nat; [reflexivity|]. assert (L : length (@chosen rpoint [] initial ord) = length initial) by (unfold chosen; rewrite map_length; apply ord_k; exact Ho). rewrite L.
  destruct (length initial =? 0)%nat; [reflexivity|].
  assert (Z : map (fun _ : rpoint => map (fun _ => 0) (@chosen rpoint [] initial ord)) data = map (fun row => chosen 0 row ord) (map (fun _ => map (fun _ => 0) initial) data)).
  { rewrite map_map. apply map_ext. intros _. apply map_chosen. apply in_ord_k. exact Ho. }
  rewrite Z. destruct (loop_numbered data m ord (length initial) Ho tolerance itermax None (map (fun _ => map (fun _ => 0) initial) data) initial eq_refl) as (R1 & R2). rewrite R1. cbn [same_run centers_moved fst snd].
  split; [reflexivity|]. split; [reflexivity|]. intro Hd. replace (length (@chosen rpoint [] (snd (fcm_loop data m tolerance itermax None (map (fun _ => map (fun _ => 0) initial) data) initial)) ord)) with (length initial) by (unfold chosen; rewrite map_length; symmetry; apply ord_k; exact Ho).
  rewrite R2. apply clusters_numbered; [exact Ho| |exact Hd]. intros row Hr. rewrite <- R2. eapply loop_rows; [|exact Hr]. intros row' Hr'. apply in_map_iff in Hr' as (p & <- & _). apply map_length.
Qed.
Print Assumptions C261_centers.

(** three points, doubled and mixed; two centres exchanged; a point with one largest membership *)
Example C261_example : copies 2 (length [[0]; [1]; [4]]) [2; 0; 1; 1; 2; 0]%nat /\ (forall p, In p [[0]; [1]; [4]] -> length p = 1%nat) /\
  Permutation [1; 0]%nat (seq 0 (length [[0]; [4]])) /\ decided [1 / 5; 4 / 5] /\
  chosen [] [[0]; [1]; [4]] [2; 0; 1; 1; 2; 0]%nat = [[4]; [0]; [1]; [1]; [4]; [0]].
Proof.
  split; [|split; [|split; [|split; [|reflexivity]]]].
  - unfold copies. cbn. apply (Permutation_cons_app [0; 1]%nat [0; 1; 2]%nat 2%nat). apply perm_skip. apply perm_skip. apply (Permutation_cons_app [0]%nat [2]%nat 1%nat). apply perm_swap.
  - intros p [<- | [<- | [<- | []]]]; reflexivity.
  - apply perm_swap.
  - intros [|[|i]] [|[|j]] Hi Hj Hne E; cbn in *; try lia; lra.
Qed.
