(** CLARANS: C33, C92-C94. *)
From Verif Require Import Base Kmeans_Model Clarans_Model Clarans_Proofs.

(** random.sample returns k different indices of the data *)
Definition samples (n k : nat) (sample : nat -> list nat) : Prop := forall i, NoDup (sample i) /\ length (sample i) = k /\ forall x, In x (sample i) -> x < n.

Lemma process_ok (data : list point) k rnd sample numlocal maxneighbor fuel r : clarans_process data k rnd sample numlocal maxneighbor fuel = Ok r -> 0 < k /\ 0 < length data.
Proof. unfold clarans_process. destruct (Nat.eqb_spec (length data) 0); [discriminate|]. destruct (Nat.eqb_spec k 0); [discriminate|]. intros _. lia. Qed.

(** C33.  A run of at least one local search that finishes returns k different medoids, the clusters partition the
    data, none is empty, and each cluster belongs to a medoid that is a nearest one of all its points. *)
Theorem C33_clarans_partition data k rnd sample numlocal maxneighbor fuel clusters medoids : samples (length data) k sample -> 1 <= numlocal ->
  clarans_process data k rnd sample numlocal maxneighbor fuel = Ok (clusters, medoids) ->
  NoDup medoids /\ length medoids = k /\ (forall m, In m medoids -> m < length data) /\
  partitions (length data) clusters /\ no_empty clusters /\
  forall g, In g clusters -> exists m, In m medoids /\ forall i, In i g -> forall m', In m' medoids -> (sqdist (nth i data []) (nth m data []) <= sqdist (nth i data []) (nth m' data []))%Q.
Proof.
  intros Hs Hl E. pose proof (proj1 (process_ok _ _ _ _ _ _ _ _ E)) as Hk.
  destruct (process_spec data k rnd Hk sample Hs maxneighbor fuel numlocal clusters medoids Hl E) as (l & st & _ & _ & _ & _ & -> & -> & C & _). destruct (clusters_spec data k Hk st C) as (P & Ne & M). destruct C as [(N & L & V) _]. split; [exact N|]. split; [exact L|]. split; [exact V|]. split; [exact P|]. split; [exact Ne|].
  intros g Hg. destruct (M g Hg) as (m & Hm). exists m. pose proof (proj1 (Forall_forall _ _) Ne g Hg) as Hne. split; [destruct g as [|i g']; [congruence|]; apply (Hm i (or_introl eq_refl))|]. intros i Hi. apply (Hm i Hi).
Qed.
Definition data6 : list point := [[3%Q]; [1%Q]; [0%Q]; [10%Q]; [11%Q]; [13%Q]].
Definition rnd6 (i : nat) : nat := (i * i * 7 + i * 4 + 1) mod 31.
Definition sample6 (i : nat) : list nat := match i with 0 => [1; 4] | _ => [2; 4] end.
Example C33_example : samples 6 2 sample6 /\ clarans_process data6 2 rnd6 sample6 2 2 60 = Ok ([[0; 1; 2]; [3; 4; 5]], [0; 3]).
Proof. split; [|vm_compute; reflexivity]. intros i. destruct i; (split; [repeat constructor; simpl; intuition lia|]); (split; [reflexivity|]); simpl; intuition lia. Qed.

(** C92.  If no two points coincide, the returned medoids have the least total distance among the results of all
    local searches of the run. *)
Theorem C92_best_local_partial data k rnd sample numlocal maxneighbor fuel clusters medoids : samples (length data) k sample -> 1 <= numlocal ->
  (forall i j, i < length data -> j < length data -> i <> j -> (0 < sqdist (nth i data []) (nth j data []))%Q) ->
  clarans_process data k rnd sample numlocal maxneighbor fuel = Ok (clusters, medoids) ->
  exists results, runs data k rnd sample maxneighbor fuel 0 numlocal 0 results /\ length results = numlocal /\ In medoids (map current results) /\
    forall st c c', In st results -> total_distance data medoids c -> total_distance data (current st) c' -> (c <= c')%Q.
Proof.
  intros Hs Hl Hd E. pose proof (proj1 (process_ok _ _ _ _ _ _ _ _ E)) as Hk.
  destruct (process_spec data k rnd Hk sample Hs maxneighbor fuel numlocal clusters medoids Hl E) as (l & st & R & L & F & I & -> & -> & C & M). exists l. split; [exact R|]. split; [exact L|]. split; [apply in_map; auto|].
  intros st' c c' I' T T'. rewrite (total_distance_fun _ _ _ _ T (estimation_total data k Hk Hd st C)). rewrite (total_distance_fun _ _ _ _ T' (estimation_total data k Hk Hd st' (proj1 (Forall_forall _ _) F st' I'))). auto.
Qed.
(** With coinciding points it is false: the emptied cluster of a coinciding medoid shifts the clusters against the
    medoids, and the worse of two local results (100 against 2) is returned. *)
Definition data7 : list point := [[0%Q]; [0%Q]; [0%Q]; [0%Q]; [5%Q]; [6%Q]; [7%Q]].
Definition sample7 (i : nat) : list nat := match i with 0 => [0; 1; 5] | _ => [4; 5; 6] end.
Theorem C92_best_local_refuted : exists data k rnd sample numlocal maxneighbor fuel clusters medoids, samples (length data) k sample /\ clarans_process data k rnd sample numlocal maxneighbor fuel = Ok (clusters, medoids) /\
  exists results st, runs data k rnd sample maxneighbor fuel 0 numlocal 0 results /\ In st results /\ total_distance data medoids 100 /\ total_distance data (current st) 2.
Proof.
  exists data7, 3, (fun i => i), sample7, 2, 0, 5, [[0; 1; 2; 3; 4]; [5]; [6]], [4; 5; 6]. split; [intros [|i]; (split; [repeat constructor; simpl; intuition lia|]); (split; [reflexivity|]); simpl; intuition lia|]. split; [vm_compute; reflexivity|].
  eexists _, _. split; [eapply runs_cons; [eexists; split; [reflexivity|vm_compute; reflexivity]|]; eapply runs_cons; [eexists; split; [reflexivity|vm_compute; reflexivity]|]; apply runs_nil|]. split; [left; reflexivity|]. cbn [current].
  split.
  - exists (fun i => match i with 5 => 5 | 6 => 6 | _ => 4 end). split; [|reflexivity]. intros i Hi. simpl in Hi. do 7 (destruct i as [|i]; [split; [simpl; auto|intros m' [<-|[<-|[<-|[]]]]; vm_compute; discriminate]|]). lia.
  - exists (fun i => match i with 4 => 5 | 5 => 5 | 6 => 5 | _ => 0 end). split; [|reflexivity]. intros i Hi. simpl in Hi. do 7 (destruct i as [|i]; [split; [simpl; auto|intros m' [<-|[<-|[<-|[]]]]; vm_compute; discriminate]|]). lia.
Qed.
Print Assumptions C92_best_local_refuted.

(** C93.  A candidate is accepted only if it lowers the total distance: false.  For one cluster every candidate is
    accepted while the medoid is not point 0 (pairwise different points), whatever it costs; *)
Theorem C93_accepts_everything data c x b cl : (forall i j, i < length data -> j < length data -> i <> j -> (0 < sqdist (nth i data []) (nth j data []))%Q) ->
  update_clusters data [c] = Ok (b, cl) -> c <> 0 -> c < length data -> x < length data -> x <> c -> negative (candidate_cost data (mkS [c] b cl) c x) = true.
Proof. intros Hd. exact (one_accept data Hd c b cl x). Qed.
(** the witness: medoid 1 (total distance 83) is replaced by the outlier 3 (total distance 245) *)
Definition data4 : list point := [[0%Q]; [1%Q]; [2%Q]; [10%Q]].
Theorem C93_swap_refuted : exists st, consistent data4 1 st /\ current st = [1] /\ negative (candidate_cost data4 st 1 3) = true /\ total_distance data4 [1] 83 /\ total_distance data4 [3] 245.
Proof.
  exists (mkS [1] [0; 0; 0; 0] [[0; 1; 2; 3]]). split; [split; [split; [repeat constructor; simpl; intuition lia|split; [reflexivity|simpl; intuition lia]]|reflexivity]|]. split; [reflexivity|]. split; [vm_compute; reflexivity|].
  split; [exists (fun _ => 1)|exists (fun _ => 3)]; (split; [|reflexivity]); intros i Hi; (split; [left; auto|]); intros m' [<-|[]]; apply Qle_refl.
Qed.
Print Assumptions C93_swap_refuted.

(** C94.  A run for one cluster that finishes returns point 0 as the medoid, for all data of pairwise different
    points and all random numbers ... *)
Theorem C94_single_cluster_medoid data rnd sample numlocal maxneighbor fuel clusters medoids : samples (length data) 1 sample -> 1 <= numlocal -> 1 <= maxneighbor ->
  (forall i j, i < length data -> j < length data -> i <> j -> (0 < sqdist (nth i data []) (nth j data []))%Q) ->
  clarans_process data 1 rnd sample numlocal maxneighbor fuel = Ok (clusters, medoids) -> medoids = [0].
Proof.
  intros Hs Hl Hmx Hd E. pose proof (proj2 (process_ok _ _ _ _ _ _ _ _ E)) as Hn.
  destruct (process_spec data 1 rnd ltac:(lia) sample Hs maxneighbor fuel numlocal clusters medoids Hl E) as (l & st & R & L & F & I & -> & -> & C & M).
  assert (G : forall i j pos l, runs data 1 rnd sample maxneighbor fuel i j pos l -> forall s, In s l -> current s = [0]).
  { induction 1 as [|i j pos s pos' l0 (u & Eu & Eo) _ IH]; intros s0 H0; [destruct H0|]. destruct H0 as [<-|H0]; [|auto]. eapply one_stops; [exact Hd|exact Hmx|exact Hn|apply start_consistent; [apply Hs|exact Eu]|left; reflexivity|exact Eo]. }
  eapply G; eauto.
Qed.
Example C94_example : samples 4 1 (fun _ => [2]) /\ clarans_process data4 1 (fun i => i * (i - 2)) (fun _ => [2]) 1 1 20 = Ok ([[0; 1; 2; 3]], [0]).
Proof. split; [|vm_compute; reflexivity]. intros i. split; [repeat constructor; simpl; intuition lia|]. split; [reflexivity|]. simpl. intuition lia. Qed.
(** ... and where point 0 is worse than every other medoid no run finishes: with any amount of fuel and any random
    numbers the search goes on. *)
Theorem C94_never_finishes (data : list point) rnd sample numlocal maxneighbor fuel : samples (length data) 1 sample -> 1 <= numlocal -> 1 <= maxneighbor -> data <> [] ->
  (forall i j, i < length data -> j < length data -> i <> j -> (0 < sqdist (nth i data []) (nth j data []))%Q) ->
  (forall x, 0 < x < length data -> (sumQ (map (fun p => sqdist (nth p data []) (nth x data [])) (seq 1 (length data - 1))) < sumQ (map (fun p => sqdist (nth p data []) (nth 0 data [])) (seq 1 (length data - 1))))%Q) ->
  clarans_process data 1 rnd sample numlocal maxneighbor fuel = Raise OutOfFuel.
Proof.
  intros Hs Hl Hmx Hne Hd Hw. assert (Hn : 0 < length data) by (destruct data; [congruence|simpl; lia]). unfold clarans_process. destruct (Nat.eqb_spec (length data) 0); [lia|]. cbn [Nat.eqb]. destruct numlocal as [|m]; [lia|]. cbn [search]. destruct (Nat.ltb_spec (length data) 1); [lia|].
  destruct (update_ok data (sample 0)) as (u & Eu); [destruct (Hs 0) as (_ & L & _); intros Z; rewrite Z in L; discriminate|]. rewrite Eu. cbn [bind]. rewrite (never_stops data rnd Hd Hw maxneighbor Hmx Hn fuel 0 _ (start_consistent data 1 _ _ (Hs 0) Eu)). reflexivity.
Qed.
Print Assumptions C94_never_finishes.
(** C94 "process() finishes" is false: such data *)
Theorem C94_finishes_refuted : exists data, forall rnd sample numlocal maxneighbor fuel, samples (length data) 1 sample -> 1 <= numlocal -> 1 <= maxneighbor ->
  clarans_process data 1 rnd sample numlocal maxneighbor fuel = Raise OutOfFuel.
Proof.
  exists [[10%Q]; [0%Q]; [1%Q]; [2%Q]]. intros rnd sample numlocal maxneighbor fuel Hs Hl Hmx. apply C94_never_finishes; auto; [discriminate| |].
  - intros i j Hi Hj Hne. simpl in Hi, Hj. do 4 (destruct i as [|i]; [do 4 (destruct j as [|j]; [try congruence; reflexivity|]); lia|]). lia.
  - intros x Hx. simpl in Hx. destruct x as [|x]; [lia|]. do 3 (destruct x as [|x]; [vm_compute; reflexivity|]). lia.
Qed.

Print Assumptions C33_clarans_partition.
Print Assumptions C92_best_local_partial.
Print Assumptions C93_accepts_everything.
Print Assumptions C94_single_cluster_medoid.
Print Assumptions C94_finishes_refuted.
