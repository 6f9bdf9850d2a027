(** Properties of the history of k-means (C204) and of its pictures (C205). *)
From Coq Require Import String.
From Verif Require Import Base Kmeans_Model Kmeans_Proofs Canvas_Model Canvas_Proofs Canvas_Props Kmobs_Model.
Open Scope nat_scope.

(** * Specification *)

(** Some centre has moved by more than [tol], or a centre has disappeared. *)
Definition moved (metric : point -> point -> Q) (tol : Q) (before after : list point) : Prop :=
  length before <> length after \/
  exists k, k < length before /\ (tol < metric (nth k before []) (nth k after []))%Q.

(** Where a point of dimension 1, 2 or 3 is drawn. *)
Definition place (p : point) : list Q := match p with [x] => [x; 0%Q] | _ => p end.

(** The star of a centre of the k-th cluster. *)
Definition star_of (k : nat) (alpha : Q) (p : point) : star :=
  Star (place p) (colour k None) alpha (if length p =? 3 then 70 else 15).

(** * Proofs *)

(** The entries an observed loop adds, from the centres it starts with. *)
Fixpoint chain (metric : point -> point -> Q) (data : list point) (centers : list point) (n : nat)
  : list (list (list nat)) * list (list point) :=
  match n with
  | 0 => ([], [])
  | S n' =>
      let cl := kmeans_update_clusters metric data centers in
      let ce := kmeans_update_centers data cl in
      (cl :: fst (chain metric data ce n'), ce :: snd (chain metric data ce n'))
  end.

Lemma chain_length metric data n : forall centers,
  length (fst (chain metric data centers n)) = n /\ length (snd (chain metric data centers n)) = n.
Proof. induction n as [|n IH]; intro centers; cbn; [auto|]. destruct (IH (kmeans_update_centers data (kmeans_update_clusters metric data centers))). split; congruence. Qed.

Lemma chain_nth metric data n : forall centers j, j < n ->
  let prev := nth j (centers :: snd (chain metric data centers n)) [] in
  nth j (fst (chain metric data centers n)) [] = kmeans_update_clusters metric data prev /\
  nth j (snd (chain metric data centers n)) [] = kmeans_update_centers data (kmeans_update_clusters metric data prev).
Proof.
  induction n as [|n IH]; intros centers j Hj prev; [lia|]. subst prev. cbn [chain fst snd].
  destruct j as [|j]; [split; reflexivity|]. cbn [nth].
  apply (IH (kmeans_update_centers data (kmeans_update_clusters metric data centers)) j). lia.
Qed.

Lemma exceeds_moved metric tol before after : before <> [] ->
  exceeds (kmeans_changes metric before after) tol = true <-> moved metric tol before after.
Proof.
  intro Hne. unfold kmeans_changes, moved.
  destruct (Nat.eqb_spec (length before) (length after)) as [E|E]; cbn [exceeds]; [|split; auto].
  split.
  - intro H. apply Qltb_true in H. right.
    assert (Hm : map (fun cu : point * point => metric (fst cu) (snd cu)) (combine before after) <> []).
    { destruct before; [congruence|]. destruct after; [discriminate|]. discriminate. }
    apply maxQ_in in Hm. apply in_map_iff in Hm. destruct Hm as ([a b] & Hab & Hin).
    destruct (combine_nth_in before after (a, b) [] [] E Hin) as (k & Hk & Ek). injection Ek as -> ->.
    exists k. split; [exact Hk|]. cbn [fst snd] in Hab. rewrite Hab. exact H.
  - intros [H|(k & Hk & H)]; [congruence|]. destruct (Qltb tol _) eqn:Eq; [reflexivity|]. apply Qltb_false in Eq. exfalso.
    apply (Qlt_not_le _ _ H). eapply Qle_trans; [|exact Eq]. apply maxQ_ge. apply in_map_iff.
    exists (nth k before [], nth k after []). split; [reflexivity|].
    rewrite <- combine_nth by exact E. apply nth_In. rewrite combine_length. lia.
Qed.

Lemma observed_loop_spec metric data tol left : forall change o clusters centers,
  exists n, n <= left /\
    fst (observed_loop metric data tol left change o clusters centers) =
      mkObs (ob_clusters o ++ fst (chain metric data centers n)) (ob_centers o ++ snd (chain metric data centers n)) /\
    snd (observed_loop metric data tol left change o clusters centers) =
      (nth n (clusters :: fst (chain metric data centers n)) [], nth n (centers :: snd (chain metric data centers n)) []) /\
    (left <> 0 -> exceeds change tol = true -> n <> 0) /\
    (n < left -> n = 0 -> exceeds change tol = false) /\
    (forall j, S j < n -> exceeds (kmeans_changes metric (nth j (centers :: snd (chain metric data centers n)) [])
                                 (nth j (snd (chain metric data centers n)) [])) tol = true) /\
    (n < left -> forall j, S j = n -> exceeds (kmeans_changes metric (nth j (centers :: snd (chain metric data centers n)) [])
                                 (nth j (snd (chain metric data centers n)) [])) tol = false).
Proof.
  induction left as [|left IH]; intros change o clusters centers; cbn [observed_loop].
  - exists 0. cbn. rewrite !app_nil_r. destruct o. repeat split; auto; lia.
  - destruct (exceeds change tol) eqn:Ex.
    + set (cl := kmeans_update_clusters metric data centers). set (ce := kmeans_update_centers data cl).
      destruct (IH (kmeans_changes metric centers ce) (notify o cl ce) cl ce) as (n & H1 & H2 & H3 & H4 & H5 & H6 & H7).
      exists (S n). cbn [chain fst snd]. fold cl. fold ce. split; [lia|].
      split; [rewrite H2; cbn [notify ob_clusters ob_centers]; rewrite <- !app_assoc; reflexivity|].
      split; [rewrite H3; reflexivity|]. split; [lia|]. split; [lia|]. split.
      * intros j Hj. destruct j as [|j].
        { cbn [nth]. destruct n as [|n]; [lia|].
          destruct (exceeds (kmeans_changes metric centers ce) tol) eqn:E; [reflexivity|].
          exfalso. clear - H1 H2 E. destruct left as [|left]; [lia|]. cbn [observed_loop] in H2. rewrite E in H2.
          apply (f_equal (fun x => length (ob_clusters x))) in H2. cbn [fst ob_clusters] in H2.
          rewrite app_length, (proj1 (chain_length metric data (S n) ce)) in H2. lia. }
        apply (H6 j). lia.
      * intros Hn j Hj. injection Hj as ->. destruct n as [|n]; [apply H5; lia|]. apply (H7 ltac:(lia) n). reflexivity.
    + exists 0. cbn. rewrite !app_nil_r. destruct o. repeat split; auto; try lia; try congruence.
Qed.

Lemma observed_loop_same metric data tol left : forall change o clusters centers,
  snd (observed_loop metric data tol left change o clusters centers) = kmeans_loop metric data tol left change clusters centers.
Proof.
  induction left as [|left IH]; intros change o clusters centers; cbn [observed_loop kmeans_loop]; [reflexivity|].
  destruct (exceeds change tol); [apply IH|reflexivity].
Qed.

(** ** C204: the history of the clustering *)

(** An observer changes nothing: the result is that of process without one. *)
Theorem C204_same_result metric data (o : observer) initial tol itermax :
  snd (observed_process metric data o initial tol itermax) = kmeans_process metric data initial tol itermax.
Proof.
  unfold observed_process, kmeans_process. destruct data as [|p0 t]; [reflexivity|]. destruct initial as [|c0 ct]; [reflexivity|].
  destruct (Qltb tol 0); [reflexivity|]. destruct (length p0 =? length c0); [|reflexivity].
  match goal with |- context [observed_loop ?m ?d ?t ?l ?c ?ob ?cl ?ce] =>
    pose proof (observed_loop_same m d t l c ob cl ce) as H; destruct (observed_loop m d t l c ob cl ce) as [o2 [cl' ce']] end.
  cbn [snd] in *. rewrite <- H. reflexivity.
Qed.
Print Assumptions C204_same_result.

Lemma observed_inv metric data o initial tol itermax o' r :
  observed_process metric data o initial tol itermax = (o', Ok r) ->
  data <> [] /\ initial <> [] /\ exists n, n <= itermax /\
    o' = mkObs (ob_clusters o ++ kmeans_update_clusters metric data initial :: fst (chain metric data initial n))
               (ob_centers o ++ initial :: snd (chain metric data initial n)) /\
    fst r = (nth n ([] :: fst (chain metric data initial n)) [], nth n (initial :: snd (chain metric data initial n)) []) /\
    (itermax <> 0 -> n <> 0) /\
    (forall j, S j < n -> moved metric tol (nth j (initial :: snd (chain metric data initial n)) []) (nth j (snd (chain metric data initial n)) [])) /\
    (n < itermax -> ~ moved metric tol (nth (n - 1) (initial :: snd (chain metric data initial n)) []) (nth (n - 1) (snd (chain metric data initial n)) [])).
Proof.
  unfold observed_process. intro H. destruct data as [|p0 t] eqn:Ed; [discriminate|].
  destruct initial as [|c0 ct] eqn:Ei; [discriminate|]. rewrite <- Ed, <- Ei in *.
  assert (Hd : data <> []) by (rewrite Ed; discriminate). assert (Hi : initial <> []) by (rewrite Ei; discriminate).
  clear Ed Ei.
  destruct (Qltb tol 0); [discriminate|]. destruct (length p0 =? length c0); [|discriminate].
  split; [exact Hd|]. split; [exact Hi|].
  destruct (observed_loop_spec metric data tol itermax None (notify o (kmeans_update_clusters metric data initial) initial) [] initial)
    as (n & H1 & H2 & H3 & H4 & H5 & H6 & H7).
  destruct (observed_loop metric data tol itermax None _ [] initial) as [o2 [cl ce]].
  cbn [fst snd] in *. injection H as <- <-. cbn [fst]. exists n. split; [exact H1|].
  split; [rewrite H2; cbn [notify ob_clusters ob_centers]; rewrite <- !app_assoc; reflexivity|].
  split; [exact H3|]. split; [intro; apply H4; auto|].
  assert (Hne : forall m j, j <= m -> nth j (initial :: snd (chain metric data initial m)) [] <> []).
  { intros m j. induction j as [|j IHj]; intros Hj; [exact Hi|]. cbn [nth].
    destruct (chain_nth metric data m initial j ltac:(lia)) as [_ ->].
    specialize (IHj ltac:(lia)).
    destruct (kmeans_step_ok metric data (length (nth j (initial :: snd (chain metric data initial m)) [])) _ IHj (le_n _)) as (P & _ & L & _).
    intro Hz. rewrite Hz in L. cbn in L. apply (partition_ne data Hd _ P).
    destruct (kmeans_update_clusters metric data (nth j (initial :: snd (chain metric data initial m)) [])); [reflexivity|discriminate]. }
  split.
  - intros j Hj. apply exceeds_moved; [apply Hne; lia|]. apply H6. exact Hj.
  - intros Hn Hm. assert (n <> 0) by (intros ->; specialize (H5 Hn eq_refl); discriminate).
    apply exceeds_moved in Hm; [|apply Hne; lia]. rewrite (H7 Hn (n - 1) ltac:(lia)) in Hm. discriminate.
Qed.

(** A history has between one and itermax + 1 entries, starts with the initial
    centres, each entry holds the clusters of the nearest centres of the entry
    before (entry 0: of the initial centres) and the means of these clusters,
    the last entry is the result, and the iterations go on exactly while some
    centre moves by more than the tolerance. *)
Theorem C204_history metric data initial tol itermax (o : observer) clusters centers wce :
  observed_process metric data ob_new initial tol itermax = (o, Ok (clusters, centers, wce)) ->
  1 <= ob_len o <= S itermax /\ length (ob_centers o) = ob_len o /\ ob_get_centers o 0 = Ok initial /\
  (forall j, j < ob_len o -> exists cl prev,
     ob_get_clusters o j = Ok cl /\ ob_get_centers o (j - 1) = Ok prev /\
     partitions (length data) cl /\ no_empty cl /\
     forall g, In g cl -> exists k, k < length prev /\ forall i, In i g -> nearest metric prev (nth i data []) k) /\
  (forall j cl ce, ob_get_clusters o (S j) = Ok cl -> ob_get_centers o (S j) = Ok ce ->
     length ce = length cl /\ length cl <= length initial /\
     forall k, k < length cl -> is_mean (dimension data) (map (fun i => nth i data []) (nth k cl [])) (nth k ce [])) /\
  (1 <= itermax -> 2 <= ob_len o /\ ob_get_clusters o (ob_len o - 1) = Ok clusters /\ ob_get_centers o (ob_len o - 1) = Ok centers) /\
  (forall j ce ce', S (S j) < ob_len o -> ob_get_centers o j = Ok ce -> ob_get_centers o (S j) = Ok ce' -> moved metric tol ce ce') /\
  (forall ce ce', ob_len o <= itermax -> ob_get_centers o (ob_len o - 2) = Ok ce -> ob_get_centers o (ob_len o - 1) = Ok ce' ->
     ~ moved metric tol ce ce').
Proof.
  intro H. apply observed_inv in H. destruct H as (Hd & Hi & n & H1 & -> & H3 & H4 & H5 & H6). cbn [fst] in H3. injection H3 as -> ->.
  unfold ob_len, ob_get_clusters, ob_get_centers. cbn [ob_new ob_clusters ob_centers app length].
  destruct (chain_length metric data n initial) as [L1 L2]. rewrite L1, L2.
  set (CL := fst (chain metric data initial n)) in *. set (CE := snd (chain metric data initial n)) in *.
  assert (Ge : forall j, j <= n -> nth_error (initial :: CE) j = Some (nth j (initial :: CE) [])).
  { intros j Hj. apply nth_error_lt. cbn. lia. }
  assert (Gl : forall j, j < n -> nth_error (kmeans_update_clusters metric data initial :: CL) (S j) = Some (nth j CL [])).
  { intros j Hj. apply (nth_error_lt CL). lia. }
  assert (Ok1 : forall j, j <= n -> nth j (initial :: CE) [] <> [] /\ length (nth j (initial :: CE) []) <= length initial).
  { induction j as [|j IHj]; intros Hj; [split; [exact Hi|cbn; lia]|]. cbn [nth]. destruct (IHj ltac:(lia)) as [I1 I2].
    destruct (chain_nth metric data n initial j ltac:(lia)) as [_ E]. fold CE in E. rewrite E.
    destruct (kmeans_step_ok metric data (length initial) _ I1 I2) as (P & _ & L & L' & _). split; [|rewrite L; exact L'].
    intro Hz. rewrite Hz in L. cbn in L. apply (partition_ne data Hd _ P).
    destruct (kmeans_update_clusters metric data (nth j (initial :: CE) [])); [reflexivity|discriminate]. }
  split; [lia|]. split; [reflexivity|]. split; [reflexivity|]. split; [|split; [|split; [|split]]].
  - intros j Hj.
    assert (Hcl : nth_error (kmeans_update_clusters metric data initial :: CL) j =
                  Some (kmeans_update_clusters metric data (nth (j - 1) (initial :: CE) []))).
    { destruct j as [|j]; [reflexivity|]. rewrite Gl by lia. replace (S j - 1) with j by lia.
      destruct (chain_nth metric data n initial j ltac:(lia)) as [E _]. fold CL CE in E. now rewrite E. }
    exists (kmeans_update_clusters metric data (nth (j - 1) (initial :: CE) [])), (nth (j - 1) (initial :: CE) []).
    destruct (Ok1 (j - 1) ltac:(lia)) as [I1 I2]. destruct (kmeans_step_ok metric data _ _ I1 I2) as (P & N & _).
    rewrite Hcl, Ge by lia. split; [reflexivity|]. split; [reflexivity|]. split; [exact P|]. split; [exact N|].
    intros g Hg. rewrite kmeans_assign in Hg. destruct (assign_nearest metric data _ g I1 Hg) as (k & Hk & Hn). exists k. split; [exact Hk|]. apply Hn.
  - intros j cl ce Hcl Hce.
    assert (Hj : j < n). { assert (nth_error (kmeans_update_clusters metric data initial :: CL) (S j) <> None) as Hx by (destruct (nth_error _ (S j)); congruence).
      apply nth_error_Some in Hx. cbn in Hx. lia. }
    rewrite Gl in Hcl by exact Hj. rewrite Ge in Hce by lia. injection Hcl as <-. injection Hce as <-. cbn [nth].
    destruct (chain_nth metric data n initial j Hj) as [E1 E2]. fold CL CE in E1, E2. rewrite E1, E2.
    destruct (Ok1 j ltac:(lia)) as [I1 I2]. destruct (kmeans_step_ok metric data _ _ I1 I2) as (_ & _ & L & L' & M). auto.
  - intro Hit. specialize (H4 ltac:(lia)). destruct n as [|n]; [congruence|]. replace (S (S n) - 1) with (S n) by lia.
    split; [lia|]. rewrite Gl, Ge by lia. split; reflexivity.
  - intros j ce ce' Hj Hce Hce'. rewrite Ge in Hce by lia. rewrite Ge in Hce' by lia. injection Hce as <-. injection Hce' as <-.
    apply H5. lia.
  - intros ce ce' Hl Hce Hce'. specialize (H4 ltac:(lia)). specialize (H6 Hl). destruct n as [|n]; [congruence|].
    replace (S (S n) - 2) with n in Hce by lia. replace (S (S n) - 1) with (S n) in Hce' by lia. replace (S n - 1) with n in H6 by lia.
    rewrite Ge in Hce by lia. rewrite Ge in Hce' by lia. apply Ok_inj in Hce, Hce'. rewrite <- Hce, <- Hce'. exact H6.
Qed.
Print Assumptions C204_history.

(** From entry 1 on the error (squared distances of the points of a cluster to
    its centre) never grows. *)
Theorem C204_error data initial tol itermax (o : observer) r j cl ce cl' ce' :
  uniform (dimension data) data ->
  observed_process sqdist data ob_new initial tol itermax = (o, Ok r) ->
  ob_get_clusters o (S j) = Ok cl -> ob_get_centers o (S j) = Ok ce ->
  ob_get_clusters o (S (S j)) = Ok cl' -> ob_get_centers o (S (S j)) = Ok ce' ->
  (cost sqdist data cl' ce' <= cost sqdist data cl ce)%Q.
Proof.
  intros Hu H A1 A2 A3 A4.
  assert (Ho : exists n, n <= itermax /\ data <> [] /\ o = mkObs (kmeans_update_clusters sqdist data initial :: fst (chain sqdist data initial n))
               (initial :: snd (chain sqdist data initial n))).
  { apply observed_inv in H. destruct H as (Hd & _ & n & Hn & E & _). exists n. cbn in E. auto. }
  destruct Ho as (n & Hn & Hd & ->). destruct r as [[c1 c2] w]. apply C204_history in H. destruct H as (_ & _ & _ & H1 & H2 & _).
  unfold ob_get_clusters, ob_get_centers, ob_len in *. cbn [ob_clusters ob_centers] in *.
  assert (Cons : forall A (x : A) l k, nth_error (x :: l) (S k) = nth_error l k) by reflexivity.
  rewrite Cons in A1, A2, A3, A4.
  destruct (chain_length sqdist data n initial) as [L1 L2].
  set (CL := fst (chain sqdist data initial n)) in *. set (CE := snd (chain sqdist data initial n)) in *.
  assert (Hj : S j < n).
  { destruct (nth_error CL (S j)) eqn:E; [|discriminate]. rewrite <- L1. apply nth_error_Some. congruence. }
  destruct (chain_nth sqdist data n initial (S j) Hj) as [E1 E2]. fold CL CE in E1, E2. change (nth (S j) (initial :: CE) []) with (nth j CE []) in E1, E2.
  rewrite (nth_error_lt CL (S j) []) in A3 by lia. rewrite (nth_error_lt CE (S j) []) in A4 by lia. apply Ok_inj in A3, A4. subst cl' ce'.
  destruct (H1 (S j)) as (cl0 & prev & B1 & _ & P & N & _); [cbn; lia|]. rewrite Cons in B1. rewrite B1 in A1. apply Ok_inj in A1. subst cl0.
  destruct (H2 j cl ce) as (K1 & K2 & K3); [rewrite Cons; exact B1|rewrite Cons; exact A2|].
  assert (OK : kmeans_ok data (length initial) cl ce) by (repeat split; auto; apply K3; auto).
  rewrite (nth_error_lt CE j []) in A2 by lia. apply Ok_inj in A2.
  destruct (kmeans_ok_uniform data Hd _ _ _ OK) as [Hne Huc].
  rewrite E1, E2, A2. eapply Qle_trans; [apply kmeans_step_cost; auto|]. apply cost_ge_best; auto.
Qed.
Print Assumptions C204_error.

(** An observer that was used before keeps its entries, the new ones follow. *)
Theorem C204_used_again metric data (o : observer) initial tol itermax o' r :
  observed_process metric data o initial tol itermax = (o', Ok r) ->
  exists n, observed_process metric data ob_new initial tol itermax = (n, Ok r) /\
    ob_clusters o' = ob_clusters o ++ ob_clusters n /\ ob_centers o' = ob_centers o ++ ob_centers n.
Proof.
  intro H. pose proof (C204_same_result metric data o initial tol itermax) as S1. pose proof (C204_same_result metric data ob_new initial tol itermax) as S2.
  rewrite H in S1. cbn [snd] in S1. rewrite <- S1 in S2.
  destruct (observed_process metric data ob_new initial tol itermax) as [n x] eqn:E. cbn [snd] in S2. subst x. exists n. split; [reflexivity|].
  unfold observed_process in H, E. destruct data as [|p0 t] eqn:Ed; [discriminate|]. destruct initial as [|c0 ct] eqn:Ei; [discriminate|].
  rewrite <- Ed, <- Ei in *. clear Ed Ei.
  destruct (Qltb tol 0); [discriminate|]. destruct (length p0 =? length c0); [|discriminate].
  assert (G : forall left change a b clusters centers,
    exists ac bc, fst (observed_loop metric data tol left change a clusters centers) = mkObs (ob_clusters a ++ ac) (ob_centers a ++ bc) /\
                  fst (observed_loop metric data tol left change b clusters centers) = mkObs (ob_clusters b ++ ac) (ob_centers b ++ bc)).
  { induction left as [|left IH]; intros change a b clusters centers; cbn [observed_loop].
    - exists [], []. rewrite !app_nil_r. destruct a, b. auto.
    - destruct (exceeds change tol).
      + set (cl := kmeans_update_clusters metric data centers). set (ce := kmeans_update_centers data cl).
        destruct (IH (kmeans_changes metric centers ce) (notify a cl ce) (notify b cl ce) cl ce) as (ac & bc & I1 & I2).
        exists (cl :: ac), (ce :: bc). rewrite I1, I2. cbn [notify ob_clusters ob_centers]. rewrite <- !app_assoc. auto.
      + exists [], []. rewrite !app_nil_r. destruct a, b. auto. }
  destruct (G itermax None (notify o (kmeans_update_clusters metric data initial) initial)
              (notify ob_new (kmeans_update_clusters metric data initial) initial) [] initial) as (ac & bc & I1 & I2).
  destruct (observed_loop metric data tol itermax None (notify o _ _) [] initial) as [o1 [x1 x2]].
  destruct (observed_loop metric data tol itermax None (notify ob_new _ _) [] initial) as [o2 [y1 y2]].
  cbn [fst] in I1, I2. injection H as <- _. injection E as <- _. subst o1 o2. cbn [notify ob_new ob_clusters ob_centers app].
  rewrite <- !app_assoc. auto.
Qed.
Print Assumptions C204_used_again.

(** False: the last entry of the history is the result.  With itermax = 0 the
    history has the clusters of the initial centres, get_clusters() none. *)
Theorem C204_last_refuted :
  exists data initial o centers wce cl,
    observed_process sqdist data ob_new initial (1 # 1000) 0 = (o, Ok ([], centers, wce)) /\
    ob_len o = 1 /\ ob_get_clusters o 0 = Ok cl /\ cl <> [].
Proof.
  exists [[0%Q]; [1%Q]; [10%Q]], [[0%Q]; [10%Q]]. do 3 eexists. exists [[0; 1]; [2]]. repeat split; discriminate.
Qed.
Print Assumptions C204_last_refuted.

(** False: every entry has a centre for each cluster.  In entry 0 a centre that
    attracts no point has no cluster, and the centres are shifted. *)
Theorem C204_first_entry_refuted :
  exists data initial o r cl ce,
    observed_process sqdist data ob_new initial (1 # 1000) 10 = (o, Ok r) /\
    ob_get_clusters o 0 = Ok cl /\ ob_get_centers o 0 = Ok ce /\ length cl < length ce /\
    ~ nearest sqdist ce (nth (hd 0 (nth 0 cl [])) data []) 0.
Proof.
  exists [[0%Q]; [1%Q]; [10%Q]], [[1000%Q]; [0%Q]; [10%Q]]. eexists. eexists. exists [[0; 1]; [2]], [[1000%Q]; [0%Q]; [10%Q]].
  split; [vm_compute; reflexivity|]. split; [reflexivity|]. split; [reflexivity|]. split; [cbn; lia|].
  intros [_ H]. specialize (H 1 ltac:(cbn; lia)). vm_compute in H. apply H. reflexivity.
Qed.
Print Assumptions C204_first_entry_refuted.

Example C204_example :
  let data := [[0%Q]; [2%Q]; [3%Q]; [9%Q]; [11%Q]] in
  match observed_process sqdist data ob_new [[2%Q]; [3%Q]] (1 # 1000) 10 with
  | (o, Ok (clusters, centers, _)) =>
      ob_clusters o = [[[0; 1]; [2; 3; 4]]; [[0; 1]; [2; 3; 4]]; [[0; 1; 2]; [3; 4]]; [[0; 1; 2]; [3; 4]]] /\
      clusters = [[0; 1; 2]; [3; 4]] /\
      map (map (map Qred)) (ob_centers o) =
        [[[2%Q]; [3%Q]]; [[1%Q]; [23 # 3]]; [[5 # 3]; [10%Q]]; [[5 # 3]; [10%Q]]]%Q
  | _ => False
  end.
Proof. vm_compute. repeat split. Qed.

(** ** C205: the picture of the clusters *)

(** The calls made by show_clusters. *)
Definition calls_of (sample : list point) (clusters : list (list nat)) : list call :=
  map (fun c => Append (Indexes c sample) 0 "." None None) clusters.

Lemma calls_run (sample : list point) d : sample <> [] -> dimension sample = d -> 1 <= d <= 3 ->
  forall clusters es dim, (dim = None \/ dim = Some d) ->
  exists v, run (mkVis 1 1 [es] [dim] [None]) (calls_of sample clusters) = Ok v.
Proof.
  intros Hs Hd Hr. destruct sample as [|p0 t] eqn:E; [congruence|]. rewrite <- E in *.
  assert (Hdim : forall c, dimension_of (Indexes c sample) = Some d) by (intro c; rewrite E in *; cbn in *; congruence). clear E.
  induction clusters as [|c cs IH]; intros es dim Hdm; [cbn; eauto|].
  cbn [calls_of map run step]. unfold append_cluster. cbn [amount].
  destruct (length c =? 0); [apply IH; exact Hdm|].
  change ((Z.of_nat (vi_number (mkVis 1 1 [es] [dim] [None])) <? 0)%Z || (0 <? 0)%Z) with false.
  change (Z.to_nat 0) with 0. cbn [vi_clusters nth_error vi_dims nth]. rewrite Hdim.
  replace (match dim with Some d' => negb (d' =? d) | None => false end) with false
    by (destruct Hdm as [->| ->]; [reflexivity|rewrite Nat.eqb_refl; reflexivity]).
  destruct (Nat.ltb_spec d 1); [lia|]. destruct (Nat.ltb_spec 3 d); [lia|]. cbn [orb vi_number vi_row vi_titles upd].
  destruct Hdm as [->| ->]; apply IH; right; reflexivity.
Qed.

Definition req (sample : list point) (c : list nat) : request := (Indexes c sample, "."%string, None, None).

Lemma calls_appended (sample : list point) clusters :
  appended (calls_of sample clusters) 0 = map (req sample) (filter nonempty clusters).
Proof.
  unfold calls_of. induction clusters as [|c cs IH]; [reflexivity|]. cbn [map appended flat_map filter].
  change ((0 =? Z.of_nat 0)%Z) with true. cbn [andb amount]. destruct c as [|i c]; cbn [length Nat.eqb negb nonempty]; [apply IH|].
  cbn [map app]. unfold req at 1. apply (f_equal (cons _)). exact IH.
Qed.

Lemma calls_attached (sample : list point) clusters c k : attached (calls_of sample clusters) c k = [].
Proof. unfold calls_of. induction clusters as [|x cs IH]; [reflexivity|]. exact IH. Qed.

Lemma calls_colours (sample : list point) clusters v k :
  run (vis_init 1 1 None) (calls_of sample clusters) = Ok v ->
  get_cluster_color v k 0 = if k <? length (filter nonempty clusters) then Ok (get_color k) else Raise IndexError.
Proof.
  intro Hr. destruct (Nat.ltb_spec k (length (filter nonempty clusters))) as [H|H].
  - assert (E : nth_error (appended (calls_of sample clusters) 0) k = Some (req sample (nth k (filter nonempty clusters) []))).
    { rewrite calls_appended. apply map_nth_error, nth_error_lt. exact H. } unfold req in E.
    apply (C188_reported 1 1 None _ v 0 k _ _ _ _ Hr ltac:(lia) E).
  - apply run_inv in Hr. unfold get_cluster_color. destruct (i_entries _ _ _ _ _ Hr 0 ltac:(lia)) as [L _].
    rewrite (nth_error_lt (vi_clusters v) 0 []) by (rewrite (i_len _ _ _ _ _ Hr); lia).
    rewrite calls_appended, map_length in L.
    destruct (nth_error (nth 0 (vi_clusters v) []) k) eqn:E; [|reflexivity].
    assert (k < length (nth 0 (vi_clusters v) [])) by (apply nth_error_Some; congruence). lia.
Qed.

Lemma no_empty_filter {A} (l : list (list A)) : no_empty l -> filter nonempty l = l.
Proof.
  unfold no_empty. intro H. induction H as [|x l Hx H IH]; [reflexivity|]. cbn. destruct x; [congruence|]. cbn. now rewrite IH.
Qed.

Lemma draw_center_ok d k (p : point) alpha : length p = d -> 1 <= d <= 3 -> draw_center p (colour k None) alpha = [star_of k alpha p].
Proof.
  intros <- H. destruct p as [|x [|y [|z [|w p]]]]; cbn in H; try lia; reflexivity.
Qed.

Lemma draw_centers_ok v d m all initial : 1 <= d <= 3 ->
  (forall k, k < m -> get_cluster_color v k 0 = Ok (get_color k)) ->
  match initial with None => True | Some l => length l = m /\ uniform d l end ->
  forall rest pre, all = pre ++ rest -> length all = m -> uniform d all ->
  draw_centers v (length pre) rest initial =
  Ok (flat_map (fun k => star_of k 1 (nth k all []) :: match initial with None => [] | Some l => [star_of k (2 # 5) (nth k l [])] end)
        (seq (length pre) (length rest))).
Proof.
  intros Hd Hc Hi. induction rest as [|c rest IH]; intros pre Ha Hl Hu; [reflexivity|].
  cbn [draw_centers length seq flat_map].
  assert (Hk : length pre < m) by (rewrite <- Hl, Ha, app_length; cbn; lia).
  rewrite (Hc _ Hk). cbn [bind].
  specialize (IH (pre ++ [c])). rewrite <- app_assoc in IH. specialize (IH Ha Hl Hu).
  rewrite app_length in IH. cbn [length] in IH. rewrite Nat.add_1_r in IH.
  change (get_color (length pre)) with (colour (length pre) None).
  assert (Hn : nth (length pre) all [] = c) by (rewrite Ha, app_nth2, Nat.sub_diag by lia; reflexivity).
  rewrite (draw_center_ok d) by (auto; apply Hu; rewrite Ha; apply in_or_app; right; now left).
  destruct initial as [l|].
  - destruct Hi as [Hi1 Hi2]. rewrite (nth_error_lt l _ []) by (rewrite Hi1; exact Hk). cbn [bind].
    rewrite (draw_center_ok d) by (auto; apply Hi2, nth_In; rewrite Hi1; exact Hk). rewrite IH, Hn. reflexivity.
  - cbn [bind]. rewrite IH, Hn. reflexivity.
Qed.

Lemma draw_ray_ok d k (p c : point) : length p = d -> length c = d -> 1 <= d <= 3 ->
  draw_ray d (colour k None) p c = Ok [Ray (place p) (place c) (colour k None)].
Proof.
  intros Hp Hc H. subst d.
  destruct p as [|x [|y [|z [|w p]]]]; cbn in H; try lia; destruct c as [|x' [|y' [|z' [|w' c]]]]; cbn in Hc; try discriminate; reflexivity.
Qed.

Lemma draw_cluster_rays_ok d k sample cluster c : uniform d sample -> length c = d -> 1 <= d <= 3 ->
  Forall (fun i => i < length sample) cluster ->
  draw_cluster_rays d (colour k None) sample cluster c =
  Ok (map (fun i => Ray (place (nth i sample [])) (place c) (colour k None)) cluster).
Proof.
  intros Hu Hc Hd H. induction H as [|i cluster Hi H IH]; [reflexivity|]. cbn [draw_cluster_rays map].
  rewrite (nth_error_lt sample i [] Hi), (draw_ray_ok d) by (auto; apply Hu, nth_In, Hi). cbn [bind]. rewrite IH. reflexivity.
Qed.

Lemma draw_rays_ok v d m sample all centers : 1 <= d <= 3 -> sample <> [] -> uniform d sample ->
  (forall k, k < m -> get_cluster_color v k 0 = Ok (get_color k)) -> length centers = m -> uniform d centers ->
  Forall (Forall (fun i => i < length sample)) all ->
  forall rest pre, all = pre ++ rest -> length all = m ->
  draw_rays v (length pre) sample rest centers =
  Ok (flat_map (fun k => map (fun i => Ray (place (nth i sample [])) (place (nth k centers [])) (colour k None)) (nth k all []))
        (seq (length pre) (length rest))).
Proof.
  intros Hd Hs Hu Hc Hlc Huc Hall. induction rest as [|c rest IH]; intros pre Ha Hl; [reflexivity|].
  cbn [draw_rays length seq flat_map].
  assert (Hk : length pre < m) by (rewrite <- Hl, Ha, app_length; cbn; lia).
  rewrite (Hc _ Hk). cbn [bind]. rewrite (nth_error_lt centers _ []) by (rewrite Hlc; exact Hk).
  specialize (IH (pre ++ [c])). rewrite <- app_assoc in IH. specialize (IH Ha Hl).
  rewrite app_length in IH. cbn [length] in IH. rewrite Nat.add_1_r in IH.
  assert (Hn : nth (length pre) all [] = c) by (rewrite Ha, app_nth2, Nat.sub_diag by lia; reflexivity).
  destruct sample as [|p0 t] eqn:Es; [congruence|]. rewrite <- Es in *.
  replace (length p0) with d by (symmetry; apply Hu; rewrite Es; now left).
  change (get_color (length pre)) with (colour (length pre) None).
  rewrite draw_cluster_rays_ok; auto.
  - cbn [bind]. rewrite IH, Hn. reflexivity.
  - apply Huc, nth_In. rewrite Hlc. exact Hk.
  - rewrite Forall_forall in Hall. apply Hall. rewrite Ha. apply in_or_app. right. now left.
Qed.

(** The picture that the visualizer of clusters makes. *)
Lemma picture_shows sample clusters d v : sample <> [] -> uniform d sample -> 1 <= d <= 3 ->
  filter nonempty clusters <> [] -> Forall (Forall (fun i => i < length sample)) clusters ->
  run (vis_init 1 1 None) (calls_of sample clusters) = Ok v ->
  exists grid, show v 0 = Ok (grid,
    [mkAxes 0 (d =? 3) (flat_map (fun k => map (fun i => mark_of d (colour k None) "." (Some (if d =? 3 then 30%Q else 5%Q)) (nth i sample []))
        (nth k (filter nonempty clusters) [])) (seq 0 (length (filter nonempty clusters)))) None]).
Proof.
  intros Hs Hu Hd Hne Hin Hr.
  assert (Hdim : forall c, dimension_of (Indexes c sample) = Some d).
  { intro c. destruct sample as [|p0 t] eqn:E; [congruence|]. cbn. f_equal. apply Hu. now left. }
  destruct (C185_shows 1 1 0 None (calls_of sample clusters) v) as [[grid axs] Hp]; try (cbn; lia); auto.
  { intros c d' r Hc Hr' Hd'. assert (c = 0) by lia. subst c. rewrite calls_appended in Hr'. apply in_map_iff in Hr'.
    destruct Hr' as (g & <- & Hg). cbn [content_of req] in *. rewrite Hdim in Hd'. injection Hd' as <-. cbn [fits].
    apply filter_In in Hg. rewrite Forall_forall in Hin. specialize (Hin g (proj1 Hg)).
    eapply Forall_impl; [|exact Hin]. intros i Hi. split; [exact Hi|]. rewrite Hu; [lia|]. apply nth_In, Hi. }
  { intros c d' k r a _ _ _ Ha. rewrite calls_attached in Ha. destruct Ha. }
  pose proof (C185_drawn 1 1 0 None (calls_of sample clusters) v grid axs Hr Hp) as F.
  cbn [seq filter] in F. rewrite calls_appended, map_length in F.
  destruct (filter nonempty clusters) as [|g0 gs] eqn:Ef; [congruence|]. rewrite <- Ef in *.
  replace (negb (length (filter nonempty clusters) =? 0)) with true in F by (rewrite Ef; reflexivity).
  inversion F as [|? a ? axs' (d' & Hd' & Hf & Hcell & H3 & Hm & Ht) F' E1 E2]; subst. inversion F'; subst. clear F F'.
  assert (d' = d).
  { rewrite Forall_forall in Hf. rewrite calls_appended in Hf. specialize (Hf (req sample g0)).
    cbn [content_of req] in Hf. rewrite Hdim in Hf. assert (Some d = Some d') as E; [|congruence]. apply Hf. apply in_map_iff. exists g0. split; [reflexivity|]. rewrite Ef. now left. }
  subst d'. exists grid. rewrite Hp. destruct a as [ce t3 ms ti]. cbn [ax_cell ax_3d ax_marks ax_title] in *. subst ce t3 ms.
  rewrite Ht. replace (title_of _ _ _ _) with (@None string).
  2:{ unfold title_of, calls_of. clear. induction clusters as [|c cs IH]; [reflexivity|]. exact IH. }
  apply (f_equal Ok), (f_equal (Datatypes.pair grid)). f_equal. f_equal.
  unfold expected. rewrite calls_appended, map_length. apply flat_map_ext'. intros k Hk. apply in_seq in Hk.
  rewrite (map_nth_error (req sample) k (filter nonempty clusters)
             (nth_error_lt (filter nonempty clusters) k [] ltac:(lia))).
  unfold req. rewrite calls_attached. cbn [flat_map points_of size_at]. rewrite app_nil_r, map_map. reflexivity.
Qed.

(** With clusters that are not empty, a centre for each of them, and data of
    dimension 1, 2 or 3: one axis with a mark for every point in the colour of
    its cluster, a star for every centre (a pale one for every initial centre)
    and a line from every point to the centre of its cluster, all in the colour
    of the cluster. *)
Theorem C205_shown sample clusters centers initial d :
  sample <> [] -> uniform d sample -> 1 <= d <= 3 ->
  clusters <> [] -> no_empty clusters -> Forall (Forall (fun i => i < length sample)) clusters ->
  length centers = length clusters -> uniform d centers ->
  match initial with None => True | Some l => length l = length clusters /\ uniform d l end ->
  show_clusters sample clusters centers initial 0 =
  Ok ([mkAxes 0 (d =? 3)
         (flat_map (fun k => map (fun i => mark_of d (colour k None) "." (Some (if d =? 3 then 30%Q else 5%Q)) (nth i sample []))
            (nth k clusters [])) (seq 0 (length clusters))) None],
      (flat_map (fun k => star_of k 1 (nth k centers []) ::
                          match initial with None => [] | Some l => [star_of k (2 # 5) (nth k l [])] end) (seq 0 (length clusters)),
       flat_map (fun k => map (fun i => Ray (place (nth i sample [])) (place (nth k centers [])) (colour k None))
            (nth k clusters [])) (seq 0 (length clusters)))).
Proof.
  intros Hs Hu Hd Hne Hn Hin Hl Huc Hi. unfold show_clusters.
  assert (Hdim : dimension sample = d) by (destruct sample as [|p0 t]; [congruence|]; cbn; apply Hu; now left).
  destruct (calls_run sample d Hs Hdim Hd clusters [] None (or_introl eq_refl)) as [v Hr].
  change (mkVis 1 1 [[]] [None] [None]) with (vis_init 1 1 None) in Hr.
  assert (Ha : append_clusters (vis_init 1 1 None) (map (fun c => Indexes c sample) clusters) 0 "." None = (v, Ok tt)).
  { apply C185_append_clusters. rewrite map_map. exact Hr. }
  rewrite Ha. pose proof (no_empty_filter clusters Hn) as Ef.
  destruct (picture_shows sample clusters d v Hs Hu Hd ltac:(rewrite Ef; exact Hne) Hin Hr) as [grid Hp].
  rewrite Ef in Hp. rewrite Hp. cbn [bind snd nth_error].
  assert (Hc : forall k, k < length clusters -> get_cluster_color v k 0 = Ok (get_color k)).
  { intros k Hk. rewrite (calls_colours sample clusters v k Hr), Ef. destruct (Nat.ltb_spec k (length clusters)); [reflexivity|lia]. }
  pose proof (draw_centers_ok v d (length clusters) centers initial Hd Hc Hi centers [] eq_refl Hl Huc) as E1. cbn [length] in E1.
  pose proof (draw_rays_ok v d (length clusters) sample clusters centers Hd Hs Hu Hc Hl Huc Hin clusters [] eq_refl eq_refl) as E2. cbn [length] in E2.
  rewrite E1. cbn [bind]. rewrite E2. cbn [bind].
  rewrite Hl. reflexivity.
Qed.
Print Assumptions C205_shown.

Lemma draw_centers_missing v m : (forall k, get_cluster_color v k 0 = if k <? m then Ok (get_color k) else Raise IndexError) ->
  forall centers index, m < index + length centers -> index <= m -> draw_centers v index centers None = Raise IndexError.
Proof.
  intro Hc. induction centers as [|c rest IH]; intros index Hm Hi; [cbn in Hm; lia|]. cbn [draw_centers]. rewrite Hc.
  destruct (Nat.ltb_spec index m); cbn [bind]; [|reflexivity]. rewrite IH; [reflexivity| |lia]. cbn in Hm. lia.
Qed.

(** More centres than clusters with points: IndexError, nothing is shown. *)
Theorem C205_more_centers sample clusters centers d :
  sample <> [] -> uniform d sample -> 1 <= d <= 3 -> Forall (Forall (fun i => i < length sample)) clusters ->
  length (filter nonempty clusters) < length centers ->
  show_clusters sample clusters centers None 0 = Raise IndexError.
Proof.
  intros Hs Hu Hd Hin Hl. unfold show_clusters.
  assert (Hdim : dimension sample = d) by (destruct sample as [|p0 t]; [congruence|]; cbn; apply Hu; now left).
  destruct (calls_run sample d Hs Hdim Hd clusters [] None (or_introl eq_refl)) as [v Hr].
  change (mkVis 1 1 [[]] [None] [None]) with (vis_init 1 1 None) in Hr.
  assert (Ha : append_clusters (vis_init 1 1 None) (map (fun c => Indexes c sample) clusters) 0 "." None = (v, Ok tt)).
  { apply C185_append_clusters. rewrite map_map. exact Hr. }
  rewrite Ha.
  destruct (filter nonempty clusters) as [|g gs] eqn:Ef.
  - assert (Hv : v = vis_init 1 1 None).
    { clear - Ha Ef. assert (G : forall cs w, filter nonempty cs = [] -> append_clusters w (map (fun c => Indexes c sample) cs) 0 "." None = (w, Ok tt)).
      { induction cs as [|c cs IH]; intros w H; [reflexivity|]. destruct c as [|i c]; [|discriminate]. cbn [map append_clusters]. apply IH. exact H. }
      rewrite (G clusters _ Ef) in Ha. congruence. }
    subst v. reflexivity.
  - destruct (picture_shows sample clusters d v Hs Hu Hd ltac:(rewrite Ef; discriminate) Hin Hr) as [grid Hp].
    rewrite Hp. cbn [bind snd nth_error].
    rewrite (draw_centers_missing v (length (filter nonempty clusters))); [reflexivity| |rewrite Ef; cbn in *; lia|lia].
    intro k. apply calls_colours with (sample := sample). exact Hr.
Qed.
Print Assumptions C205_more_centers.

Lemma partition_in n clusters : partitions n clusters -> Forall (Forall (fun i => i < n)) clusters.
Proof.
  intro P. apply Forall_forall. intros g Hg. apply Forall_forall. intros i Hi.
  assert (H : In i (seq 0 n)). { eapply Permutation_in; [exact P|]. apply in_concat. eauto. }
  apply in_seq in H. lia.
Qed.

Lemma mean_uniform data cl (ce : list point) : length ce = length cl ->
  (forall k, k < length cl -> is_mean (dimension data) (map (fun i => nth i data []) (nth k cl [])) (nth k ce [])) ->
  uniform (dimension data) ce.
Proof.
  intros L H p Hp. destruct (In_nth ce p [] Hp) as (k & Hk & <-). apply H. rewrite <- L. exact Hk.
Qed.

(** In the animation of a history the frames from 1 on are drawn, each from the
    clusters and the centres of its entry; frame 0 is drawn if every initial
    centre got a cluster and fails with IndexError otherwise, and so does the
    animation. *)
Theorem C205_animation metric data initial tol itermax (o : observer) r d :
  observed_process metric data ob_new initial tol itermax = (o, Ok r) ->
  uniform d data -> uniform d initial -> 1 <= d <= 3 ->
  (forall j, 1 <= j < ob_len o -> exists p, frame data o j = Ok p) /\
  (forall cl ce, ob_get_clusters o 0 = Ok cl -> ob_get_centers o 0 = Ok ce ->
     (length cl = length ce -> exists ps, animate data o = Ok ps /\ length ps = S (ob_len o)) /\
     (length cl <> length ce -> length cl < length ce /\ frame data o 0 = Raise IndexError /\ animate data o = Raise IndexError)).
Proof.
  intros H Hu Hui Hd.
  assert (Hs : data <> []) by (apply observed_inv in H; tauto).
  assert (Hle : forall cl, ob_get_clusters o 0 = Ok cl -> length cl <= length initial).
  { apply observed_inv in H. destruct H as (_ & _ & n & _ & -> & _). intros cl Hcl. apply Ok_inj in Hcl. subst cl.
    rewrite kmeans_assign. apply assign_length. }
  assert (Hdim : dimension data = d) by (destruct data as [|p0 t]; [congruence|]; cbn; apply Hu; now left).
  destruct r as [[c1 c2] w]. apply C204_history in H. destruct H as (L & L' & Z & H1 & H2 & _).
  assert (Fr : forall j, 1 <= j < ob_len o -> exists p, frame data o j = Ok p).
  { intros j Hj. destruct (H1 j ltac:(lia)) as (cl & prev & B1 & _ & P & N & _). unfold frame. rewrite B1. cbn [bind].
    destruct j as [|j]; [lia|].
    assert (B2 : exists ce, ob_get_centers o (S j) = Ok ce).
    { unfold ob_get_centers. rewrite (nth_error_lt _ _ []) by lia. eauto. }
    destruct B2 as [ce B2]. rewrite B2. cbn [bind]. destruct (H2 j cl ce B1 B2) as (K1 & _ & K3).
    rewrite (C205_shown data cl ce None d); eauto.
    - apply (partition_ne data Hs). exact P.
    - apply partition_in. exact P.
    - rewrite <- Hdim. eapply mean_uniform; eauto. }
  split; [exact Fr|]. intros cl ce Hcl Hce. destruct (H1 0 ltac:(lia)) as (cl' & prev & B1 & _ & P & N & _).
  rewrite Hcl in B1. apply Ok_inj in B1. subst cl'. rewrite Z in Hce. apply Ok_inj in Hce. subst ce. split.
  - intro E.
    assert (F0 : exists p, frame data o 0 = Ok p).
    { unfold frame. rewrite Hcl, Z. cbn [bind]. rewrite (C205_shown data cl initial None d); eauto.
      - apply (partition_ne data Hs). exact P.
      - apply partition_in. exact P. }
    assert (G : forall ks, Forall (fun k => k < ob_len o) ks -> exists ps, frames data o ks = Ok ps /\ length ps = length ks).
    { induction ks as [|k ks IH]; intro Hk; [exists []; auto|]. inversion_clear Hk as [|? ? Hk1 Hk2]. destruct (IH Hk2) as (ps & E1 & E2).
      assert (exists p, frame data o k = Ok p) as [p Ep] by (destruct k; [exact F0|apply Fr; lia]).
      exists (p :: ps). cbn [frames]. rewrite Ep. cbn [bind]. rewrite E1. cbn. auto. }
    destruct (G (0 :: seq 0 (ob_len o))) as (ps & E1 & E2).
    { constructor; [lia|]. apply Forall_forall. intros k Hk. apply in_seq in Hk. lia. }
    exists ps. split; [exact E1|]. rewrite E2. cbn. now rewrite seq_length.
  - intro E. specialize (Hle cl Hcl). split; [lia|].
    assert (F0 : frame data o 0 = Raise IndexError).
    { unfold frame. rewrite Hcl, Z. cbn [bind]. apply (C205_more_centers data cl initial d); auto; [apply partition_in; exact P|].
      rewrite no_empty_filter by exact N. lia. }
    split; [exact F0|]. unfold animate. cbn [frames]. rewrite F0. reflexivity.
Qed.
Print Assumptions C205_animation.

(** False: every history can be animated. *)
Theorem C205_animation_refuted :
  exists data initial o r,
    observed_process sqdist data ob_new initial (1 # 1000) 10 = (o, Ok r) /\
    (forall p, In p data -> length p = 2) /\ (forall p, In p initial -> length p = 2) /\
    animate data o = Raise IndexError.
Proof.
  exists [[0; 0]; [1; 1]; [10; 10]]%Q, [[0; 0]; [10; 10]; [1000; 1000]]%Q. eexists. eexists.
  split; [vm_compute; reflexivity|]. split; [intros p Hp; repeat (destruct Hp as [<-|Hp]; [reflexivity|]); destruct Hp|].
  split; [intros p Hp; repeat (destruct Hp as [<-|Hp]; [reflexivity|]); destruct Hp|]. vm_compute. reflexivity.
Qed.
Print Assumptions C205_animation_refuted.

Example C205_example :
  show_clusters [[0; 0]; [2; 0]; [9; 9]]%Q [[0; 1]; [2]] [[1; 0]; [9; 9]]%Q (Some [[0; 1]; [8; 8]]%Q) 0 =
  Ok ([mkAxes 0 false [Plot 0 0 "red" "." (Some 5%Q); Plot 2 0 "red" "." (Some 5%Q); Plot 9 9 "blue" "." (Some 5%Q)] None],
      ([Star [1; 0]%Q "red" 1 15; Star [0; 1]%Q "red" (2 # 5) 15; Star [9; 9]%Q "blue" 1 15; Star [8; 8]%Q "blue" (2 # 5) 15],
       [Ray [0; 0]%Q [1; 0]%Q "red"; Ray [2; 0]%Q [1; 0]%Q "red"; Ray [9; 9]%Q [9; 9]%Q "blue"])).
Proof. reflexivity. Qed.

(** The history of a run in the plane, animated: three entries, four frames. *)
Example C205_animation_example :
  let data := [[0; 0]; [2; 0]; [9; 9]]%Q in
  let o := fst (observed_process sqdist data ob_new [[0; 0]; [9; 9]]%Q (1 # 1000) 10) in
  ob_len o = 3 /\ match animate data o with Ok ps => length ps = 4 | Raise _ => False end.
Proof. vm_compute. split; reflexivity. Qed.
