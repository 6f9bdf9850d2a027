(** Properties of the centre initialisers and of reservoir sampling: C27, C28, C29, C66. *)
From Verif Require Import Base Kmeans_Model Kmedoids_Model Kmedoids_Proofs Init_Model Init_Proofs.

(** distance used by kmeans_plusplus_initializer.__calculate_shortest_distances: squared differences *)
Definition data_distance (data : list point) (i j : nat) : Q := sqdist (nth j data []) (nth i data []).

(** C27: whatever the random numbers and whatever the sets yield, a new k-means++ initialiser
    returns [amount] distinct valid indexes (also with duplicate points). *)
Theorem C27_plusplus_distinct pick (data : list point) amount candidates draw0 draws :
  picks pick -> 1 <= amount -> amount <= length data ->
  (match candidates with Some k => 1 <= k /\ k <= length data | None => True end) ->
  draw0 < length data -> (forall t j, (0 <= draws t j)%Q) ->
  exists free xs free',
    plus_new (length data) amount candidates = Ok free /\
    plus_initialize pick (data_distance data) (length data) amount candidates draw0 draws free = Ok (xs, free') /\
    length xs = amount /\ NoDup xs /\ (forall x, In x xs -> x < length data).
Proof.
  intros Hp H1 H2 Hc H0 Hd.
  destruct (plus_initialize_spec pick Hp (data_distance data) (length data)
    ltac:(intros i _; apply sqdist_refl) ltac:(intros i j _ _; apply sqdist_nonneg)
    amount candidates draw0 draws H1 H2 Hc H0 Hd) as (xs & f & E1 & E2 & E3 & E4 & E5 & _).
  exists (seq 0 (length data)), xs, f. auto.
Qed.
Print Assumptions C27_plusplus_distinct.

(** bad arguments are refused by the constructor *)
Theorem C27_plusplus_refuses n amount candidates :
  (amount = 0 \/ n < amount \/ exists k, candidates = Some k /\ (k = 0 \/ n < k)) <-> plus_new n amount candidates = Raise ValueError.
Proof.
  unfold plus_new. destruct (Nat.eqb_spec amount 0); [tauto|]. destruct (Nat.ltb_spec n amount); [tauto|]. cbn [orb].
  destruct candidates as [k|].
  - destruct (Nat.eqb_spec k 0); [split; eauto 6|]. destruct (Nat.ltb_spec n k); [split; eauto 6|]. cbn [orb]. split; [|discriminate].
    intros [?|[?|[k' [E ?]]]]; [lia|lia|]. injection E as <-. lia.
  - split; [|discriminate]. intros [?|[?|[k' [E ?]]]]; [lia|lia|discriminate].
Qed.
Print Assumptions C27_plusplus_refuses.

(** three points, two of them equal; one random candidate, then the farthest one *)
Example C27_example :
  (do r <- plus_initialize (hd 0) (data_distance [[1]; [1]; [5]]%Q) 3 3 (Some 1) 0 (fun _ _ => (1#2)%Q) (seq 0 3); Ok (fst r)) = Ok [0; 2; 1]
  /\ (do r <- plus_initialize (hd 0) (data_distance [[1]; [1]; [5]]%Q) 3 2 None 1 (fun _ _ => 0%Q) (seq 0 3); Ok (fst r)) = Ok [1; 2].
Proof. split; vm_compute; reflexivity. Qed.
Example C27_pick_example : picks (hd 0).
Proof. intros [|x l] H; [congruence|left; reflexivity]. Qed.

(** the object is used up by initialize(): a second call on the same object can fail *)
Theorem C27_plusplus_second_call_refuted :
  exists data amount free xs free', amount <= length data /\ plus_new (length data) amount (Some 1) = Ok free /\
    plus_initialize (hd 0) (data_distance data) (length data) amount (Some 1) 0 (fun _ _ => (1#2)%Q) free = Ok (xs, free') /\
    plus_initialize (hd 0) (data_distance data) (length data) amount (Some 1) 0 (fun _ _ => (1#2)%Q) free' = Raise KeyError.
Proof.
  exists [[0]; [1]; [5]; [7]]%Q, 2. eexists. eexists. eexists. vm_compute. split; [lia|]. repeat split; reflexivity.
Qed.
Print Assumptions C27_plusplus_second_call_refuted.

(** C28 *)
Theorem C28_random_distinct pick n amount draws : picks pick -> 1 <= amount -> amount <= n ->
  exists available xs available', random_new n amount = Ok available /\
    random_initialize pick n amount draws available = Ok (xs, available') /\
    length xs = amount /\ NoDup xs /\ (forall x, In x xs -> x < n).
Proof.
  intros Hp H1 H2. destruct (random_initialize_spec pick Hp n amount draws H1 H2) as (xs & a & E1 & E2 & E3). eexists. exists xs, a. eauto.
Qed.
Print Assumptions C28_random_distinct.

Theorem C28_random_refuses n amount : (amount = 0 \/ n < amount) <-> random_new n amount = Raise ValueError.
Proof.
  unfold random_new. destruct (Nat.eqb_spec amount 0); [tauto|]. destruct (Nat.ltb_spec n amount); [tauto|]. split; [lia|discriminate].
Qed.
Print Assumptions C28_random_refuses.

(** the draw 0 twice and the draw len(data), which randint may produce, are all handled *)
Example C28_example : (do r <- random_initialize (hd 0) 4 3 (fun i => nth i [0; 0; 4] 0) (seq 0 4); Ok (fst r)) = Ok [0; 1; 2].
Proof. reflexivity. Qed.

(** repeated calls on one object fail once fewer indexes than centres are left *)
Theorem C28_random_exhausted pick n amount draws available : picks pick -> NoDup available ->
  amount <> n -> length available < amount -> random_initialize pick n amount draws available = Raise KeyError.
Proof.
  intros Hp Hnd Hn Hl. unfold random_initialize. destruct (Nat.eqb_spec amount n); [contradiction|].
  apply create_centers_fails; auto. rewrite map_length, seq_length. auto.
Qed.
Print Assumptions C28_random_exhausted.

Theorem C28_random_second_call_refuted : exists n amount available xs available',
  random_new n amount = Ok available /\ random_initialize (hd 0) n amount (fun i => i) available = Ok (xs, available') /\
  random_initialize (hd 0) n amount (fun i => i) available' = Raise KeyError.
Proof. exists 3, 2. do 3 eexists. vm_compute. repeat split; reflexivity. Qed.
Print Assumptions C28_random_second_call_refuted.

(** C29 *)
Theorem C29_reservoir_r {A} (data : list A) n draws : n <= length data ->
  exists sample, reservoir_r data n draws = Ok sample /\ length sample = n /\
    exists pos, length pos = n /\ NoDup pos /\ (forall p, In p pos -> p < length data) /\ map (nth_error data) pos = map Some sample.
Proof. exact (reservoir_r_sampled data n draws). Qed.
Print Assumptions C29_reservoir_r.

(** thresholds are random numbers; the value 0 exactly (probability 2^-53) is excluded *)
Theorem C29_reservoir_x {A} (data : list A) n thresholds slots : 1 <= n -> n <= length data -> (forall j, (0 < thresholds j)%Q) ->
  exists fuel sample, forall f, fuel <= f -> reservoir_x f data n thresholds slots = Ok (Some sample) /\ length sample = n /\
    exists pos, length pos = n /\ NoDup pos /\ (forall p, In p pos -> p < length data) /\ map (nth_error data) pos = map Some sample.
Proof. exact (reservoir_x_ends data n thresholds slots). Qed.
Print Assumptions C29_reservoir_x.

Theorem C29_too_many {A} (data : list A) n draws fuel thresholds slots :
  (length data < n <-> reservoir_r data n draws = Raise ValueError) /\
  (length data < n <-> reservoir_x fuel data n thresholds slots = Raise ValueError).
Proof.
  unfold reservoir_r, reservoir_x. destruct (Nat.ltb_spec (length data) n); split; split; auto; try lia; discriminate.
Qed.
Print Assumptions C29_too_many.

(** reservoir_x(data, 0) does not return for non-empty data *)
Theorem C29_reservoir_x_zero_refuted : exists (data : list nat), forall thresholds slots,
  (forall j, (thresholds j < 1)%Q) -> forall fuel, reservoir_x fuel data 0 thresholds slots = Ok None.
Proof. exists [7]. intros thr slots H. apply reservoir_x_zero_hangs; auto. discriminate. Qed.
Print Assumptions C29_reservoir_x_zero_refuted.

Example C29_example : reservoir_r [10; 11; 12; 13] 2 (fun i => nth i [0; 0; 1; 0] 0) = Ok [13; 12]
  /\ reservoir_x 20 [10; 11; 12; 13; 14; 15] 2 (fun j => nth j [1#3; 9#10]%Q (1#2)%Q) (fun j => nth j [1; 0] 0) = Ok (Some [15; 12]).
Proof. split; vm_compute; reflexivity. Qed.

(** C66: the draws of reservoir_r are independent and uniform on [0..i]; over all of them every
    position of the data is included equally often, i.e. with probability n / len(data).
    [draws] is any sequence for the positions n .. len(data)-1. *)
Definition draw_sequences (n N : nat) : list (list nat) := outcomes n (N - n).
Lemma draw_sequences_spec n N ds : n <= N ->
  (In ds (draw_sequences n N) <-> length ds = N - n /\ forall j, j < N - n -> nth j ds 0 <= n + j) /\ NoDup (draw_sequences n N).
Proof.
  intros HN. unfold draw_sequences. generalize (N - n) as k. clear. intros k. split.
  - revert ds. induction k as [|k IH]; intros ds; cbn [outcomes].
    + split; [intros [<-|[]]; split; auto; lia|]. intros [H _]. destruct ds; [left; auto|discriminate].
    + rewrite in_flat_map. split.
      * intros [d [Hd H]]. apply in_map_iff in H as [m [<- Hm]]. apply in_seq in Hm. apply IH in Hd as [H1 H2]. rewrite app_length. simpl. split; [lia|].
        intros j Hj. destruct (Nat.eq_dec j k) as [->|]; [rewrite app_nth2, <- H1, Nat.sub_diag by lia; simpl; lia|]. rewrite app_nth1 by lia. apply H2. lia.
      * intros [H1 H2]. destruct ds as [|m ds _] using rev_ind; [discriminate|]. rewrite app_length in H1. simpl in H1. exists ds. split.
        -- apply IH. split; [lia|]. intros j Hj. specialize (H2 j ltac:(lia)). rewrite app_nth1 in H2 by lia. auto.
        -- apply (in_map (fun x => ds ++ [x])), in_seq. specialize (H2 k ltac:(lia)). rewrite app_nth2 in H2 by lia. replace (k - length ds) with 0 in H2 by lia. simpl in H2. lia.
  - induction k as [|k IH]; cbn [outcomes]; [constructor; [simpl; tauto|constructor]|].
    revert IH. generalize (outcomes n k) as l. generalize (seq_NoDup (S (n + k)) 0). generalize (seq 0 (S (n + k))) as ms. intros ms Hms l Hl.
    induction Hl as [|d l Hd Hl IH]; cbn [flat_map]; [constructor|]. apply NoDup_app_intro; auto.
    + apply FinFun.Injective_map_NoDup; auto. intros a b E. apply app_inj_tail in E. tauto.
    + intros x H1 H2. apply in_map_iff in H1 as [m [<- _]]. apply in_flat_map in H2 as [d' [Hd' H2]]. apply in_map_iff in H2 as [m' [E _]].
      apply app_inj_tail in E as [-> _]. contradiction.
Qed.

Theorem C66_reservoir_r_uniform n N p : n <= N -> p < N ->
  length (filter (fun ds => match reservoir_r (seq 0 N) n (draw_of n ds) with Ok sample => mem p sample | Raise _ => false end) (draw_sequences n N)) * N
    = n * length (draw_sequences n N).
Proof.
  intros H Hp. unfold draw_sequences. pose proof (reservoir_r_uniform n (N - n) p ltac:(lia)) as U.
  replace (n + (N - n)) with N in U by lia. rewrite <- U. f_equal. apply filter_ext_len. intros ds _.
  rewrite (reservoir_r_positions (seq 0 N) 0) by (rewrite seq_length; auto). rewrite seq_length. f_equal.
  rewrite (map_ext_in _ (fun x => x)); [apply map_id|]. intros q Hq.
  assert (q < N); [|apply seq_nth; auto].
  assert (Hl : length (seq 0 N) = N) by apply seq_length. clear U Hp.
  assert (Hin : forall rest i res, (forall x, In x rest -> x < N) -> (forall x, In x res -> x < N) -> forall x, In x (reservoir_r_loop n (draw_of n ds) i rest res) -> x < N).
  { induction rest as [|y t IH]; intros i res H1 H2 x Hx; cbn [reservoir_r_loop] in Hx; auto.
    apply IH in Hx; auto. intros; apply H1; simpl; auto. intros z Hz. destruct (draw_of n ds i <? n); auto. apply in_upd in Hz as [->|Hz]; auto. apply H1. simpl; auto. }
  apply (Hin (seq n (N - n)) n (seq 0 n)) in Hq; auto; intros x Hx; apply in_seq in Hx; lia.
Qed.
Print Assumptions C66_reservoir_r_uniform.

Example C66_example : length (draw_sequences 2 4) = 12 /\
  length (filter (fun ds => match reservoir_r (seq 0 4) 2 (draw_of 2 ds) with Ok s => mem 0 s | Raise _ => false end) (draw_sequences 2 4)) = 6.
Proof. vm_compute. auto. Qed.
