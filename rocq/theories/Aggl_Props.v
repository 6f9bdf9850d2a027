(** C20, C21, C49, C68, C69: agglomerative clustering. *)
From Verif Require Import Base Kmeans_Model Kmeans_Proofs Aggl_Model Aggl_Proofs.

(** C20; the value of an average link is the sum of the squared distances divided by the number of
    points of both clusters, as the code computes it (see C68) *)
Theorem C20_agglomerative_partition data l number : data <> [] -> uniform (dimension data) data -> 1 <= number ->
  exists s, agglomerative data l number = Ok s /\ partitions (length data) (clusters s) /\ no_empty (clusters s) /\
    length (clusters s) = Nat.min (length data) number /\
    dendrogram data l (map (fun i => [i]) (seq 0 (length data))) (clusters s).
Proof. exact (agglomerative_spec data l number). Qed.
Print Assumptions C20_agglomerative_partition.

Theorem C20_refused data l number e : uniform (dimension data) data ->
  (agglomerative data l number = Raise e <-> (data = [] \/ number = 0) /\ e = ValueError).
Proof.
  intros Hu. split.
  - intros H. destruct data as [|p t]; [unfold agglomerative in H; simpl in H; injection H as <-; auto|].
    destruct number as [|m]; [unfold agglomerative in H; simpl in H; injection H as <-; auto|].
    destruct (agglomerative_spec (p :: t) l (S m) ltac:(discriminate) Hu ltac:(lia)) as (s & E & _). congruence.
  - intros [[H|H] E]; subst; unfold agglomerative, new; [reflexivity|]. destruct data; reflexivity.
Qed.
Print Assumptions C20_refused.

(** C21 *)
Theorem C21_single_link data number s : data <> [] -> uniform (dimension data) data -> 1 <= number ->
  agglomerative data SingleLink number = Ok s ->
  let D a b := sqdist (nth a data []) (nth b data []) in
  forall c x y, In c (clusters s) -> In x c -> In y c ->
  forall a b u v, a < b -> b < length (clusters s) -> In u (nth a (clusters s) []) -> In v (nth b (clusters s) []) ->
  chain D (D u v) (fun z => In z c) x y.
Proof.
  intros Hd Hu Hn E D c x y Hc Hx Hy a b u v Hab Hb Hua Hvb.
  destruct (agglomerative_spec data SingleLink number Hd Hu Hn) as (s' & E' & _ & _ & _ & Hden). rewrite E in E'. injection E' as <-.
  destruct (dendrogram_separated data _ _ Hden) as [_ [T [S1 S2]]].
  - unfold no_empty, singles. rewrite Forall_forall. intros g Hg. apply in_map_iff in Hg as [i [<- _]]. discriminate.
  - exists 0%Q. apply singles_separated.
  - eapply chain_weaken; [|intros z Hz; exact Hz|apply S1; auto]. exact (S2 a b u v Hab Hb Hua Hvb).
Qed.
Print Assumptions C21_single_link.

(** the hypotheses hold for actual data, and the four links differ *)
Example C20_C21_nonvacuous : let data := [[0];[1];[4];[9];[11]]%Q in
  data <> [] /\ uniform (dimension data) data /\
  (exists s, agglomerative data SingleLink 2 = Ok s /\ clusters s = [[0;1;2];[3;4]]) /\
  (exists s, agglomerative data CompleteLink 2 = Ok s /\ clusters s = [[0;1;2];[3;4]]) /\
  (exists s, agglomerative data CentroidLink 3 = Ok s /\ clusters s = [[0;1];[2];[3;4]]) /\
  (exists s, agglomerative data AverageLink 9 = Ok s /\ clusters s = [[0];[1];[2];[3];[4]]).
Proof.
  split; [discriminate|]. split; [intros p Hp; simpl in Hp; intuition; subst; reflexivity|].
  repeat split; eexists; (split; [vm_compute; reflexivity|vm_compute; reflexivity]).
Qed.

(** C68: the average link is documented as the average distance between objects in clusters *)
Definition average_of (data : list point) (c1 c2 : list nat) (v : Q) : Prop :=
  (inject_Z (Z.of_nat (length c1 * length c2)) * v == qsum (map (fun ab => sqdist (nth (fst ab) data []) (nth (snd ab) data [])) (list_prod c1 c2)))%Q.

(** going from four to three clusters it joins 3 and 4 (average 121) although the clusters {0,1}
    and {2} have the average 100 *)
Theorem C68_average_link_refuted : exists data s4 s3,
  agglomerative data AverageLink 4 = Ok s4 /\ agglomerative data AverageLink 3 = Ok s3 /\
  clusters s4 = [[0;1];[2];[3];[4]] /\ clusters s3 = [[0;1];[2];[3;4]] /\
  average_of data [3] [4] 121 /\ average_of data [0;1] [2] 100.
Proof.
  exists [[0];[0];[10];[100];[111]]%Q. do 2 eexists. split; [vm_compute; reflexivity|]. split; [vm_compute; reflexivity|].
  split; [vm_compute; reflexivity|]. split; [vm_compute; reflexivity|]. split; vm_compute; reflexivity.
Qed.
Print Assumptions C68_average_link_refuted.

(** what is true: between pairs of clusters of the same sizes the one with the smaller average wins *)
Theorem C68_average_same_sizes data cl cl' : no_empty cl -> best_merge data AverageLink cl cl' ->
  exists i j ci cj v, i < j /\ j < length cl /\ nth i cl [] = ci /\ nth j cl [] = cj /\ In (ci ++ cj) cl' /\ average_of data ci cj v /\
    forall a b w, a < b -> b < length cl -> length (nth a cl []) = length ci -> length (nth b cl []) = length cj ->
      average_of data (nth a cl []) (nth b cl []) w -> (v <= w)%Q.
Proof.
  intros Hne (i & j & before & mid & after & ci & cj & v & Ec & Ei & Ej & Ec' & Hv & Hmin).
  assert (Hlen : length cl = length before + length mid + length after + 2) by (rewrite Ec, !app_length; simpl; rewrite !app_length; simpl; lia).
  assert (Ni : nth i cl [] = ci). { rewrite Ec, Ei. apply nth_app_mid. }
  assert (Nj : nth j cl [] = cj). { rewrite Ec, Ej, nth_two. destruct (Nat.ltb_spec (length before + 1 + length mid) (length before)); [lia|].
    destruct (Nat.eqb_spec (length before + 1 + length mid) (length before)); [lia|]. rewrite Nat.ltb_irrefl, Nat.eqb_refl. reflexivity. }
  assert (Hci : ci <> []) by (rewrite <- Ni; apply (proj1 (Forall_forall _ _) Hne), nth_In; lia).
  assert (Hcj : cj <> []) by (rewrite <- Nj; apply (proj1 (Forall_forall _ _) Hne), nth_In; lia).
  set (P := inject_Z (Z.of_nat (length ci * length cj))). set (S := inject_Z (Z.of_nat (length ci + length cj))).
  assert (HP : (0 < P)%Q). { unfold P, Qlt. simpl. destruct ci, cj; try congruence. simpl. lia. }
  assert (HS : (0 < S)%Q). { unfold S, Qlt. simpl. destruct ci; try congruence. simpl. lia. }
  exists i, j, ci, cj, (S * v / P)%Q. split; [lia|]. split; [lia|]. split; auto. split; auto.
  split; [rewrite Ec'; apply in_app_iff; right; left; auto|]. split.
  - unfold average_of, link_value in *. fold P. fold S in Hv. rewrite <- Hv. field. lra.
  - intros a b w Hab Hb La Lb Hw. unfold average_of in Hw. rewrite La, Lb in Hw. fold P in Hw.
    assert (Hm : (v <= P * w / S)%Q).
    { apply (Hmin a b); auto. unfold link_value. rewrite La, Lb. fold S. rewrite <- Hw. field. lra. }
    apply Qle_shift_div_r; auto. assert (H2 : (v * S <= P * w / S * S)%Q) by (apply Qmult_le_compat_r; lra).
    assert (H3 : (P * w / S * S == P * w)%Q) by (field; lra). lra.
Qed.
Print Assumptions C68_average_same_sizes.

Example C68_nonvacuous : exists cl', no_empty [[0];[1];[2]] /\ best_merge [[0];[5];[6]]%Q AverageLink [[0];[1];[2]] cl'.
Proof.
  destruct (merge_step_spec [[0];[5];[6]]%Q AverageLink (mkA [[0];[1];[2]] [])) as (s' & _ & _ & B & _).
  - intros p Hp. simpl in Hp. intuition; subst; reflexivity.
  - split; [apply Permutation_refl|]. split; [repeat constructor; discriminate|discriminate].
  - simpl. lia.
  - exists (clusters s'). split; [repeat constructor; discriminate|exact B].
Qed.

(** C49 for the centroid link: the second process() starts from the old centres *)
Theorem C49_agglomerative_centroid_reprocess_refuted : exists data s,
  agglomerative data CentroidLink 1 = Ok s /\ process data CentroidLink 1 s = Raise TypeError.
Proof. exists [[0];[1];[5]]%Q. eexists. split; vm_compute; reflexivity. Qed.
Print Assumptions C49_agglomerative_centroid_reprocess_refuted.

(** C69: with the other links a second process() returns the same clusters *)
Lemma step_centers data l s s' : l <> CentroidLink -> merge_step data l s = Ok s' -> centers s' = centers s.
Proof.
  intros Hl. unfold merge_step. destruct l; try congruence; destruct (min_by _ _) as [[i j]|]; try discriminate; destruct (j <? _); try discriminate; intros H; injection H as <-; reflexivity.
Qed.

Lemma loop_centers data l number fuel : l <> CentroidLink -> forall s s', merge_loop data l fuel number s = Ok s' -> centers s' = centers s.
Proof.
  intros Hl. induction fuel as [|f IH]; intros s s'; cbn [merge_loop]; destruct (number <? _); try discriminate; try (intros H; injection H as <-; auto; fail).
  destruct (merge_step data l s) as [s1|] eqn:E; [|discriminate]. cbn [bind]. intros H. rewrite (IH _ _ H). eapply step_centers; eauto.
Qed.

Theorem C69_agglomerative_reprocess data l number s : l <> CentroidLink -> agglomerative data l number = Ok s -> process data l number s = Ok s.
Proof.
  intros Hl. unfold agglomerative. destruct (new data l number) as [s0|] eqn:E; [|discriminate]. cbn [bind]. intros H.
  unfold process in *. rewrite (loop_centers _ _ _ _ Hl _ _ H). exact H.
Qed.
Print Assumptions C69_agglomerative_reprocess.
