(** The self-organized map in other units. *)
From Verif Require Import Base Kmeans_Model Small_Model Topology_Model Som_Model Kmeans_Proofs Small_Proofs Som_Proofs Scaled_Proofs Unit_Props.
Open Scope nat_scope.

(** the same awards and captured objects, the weights in the new coordinates *)
Definition same_map (s : Q) (v : point) (a b : som_state) : Prop :=
  Forall2 (moved s v) (s_weights a) (s_weights b) /\ s_award b = s_award a /\ s_captured b = s_captured a.

Section Two.
Variables (s : Q) (v : point).
Hypothesis Hs : (0 < s)%Q.
Variables (rows cols : nat) (conn : som_conn) (influence : Q -> Q -> Q).

Lemma squares : (0 < s * s)%Q.
Proof. nra. Qed.
Lemma competition_same ws ws' x x' : Forall2 (moved s v) ws ws' -> moved s v x x' -> competition ws' x' = competition ws x.
Proof.
  intros H Hx. unfold competition. destruct H as [|w w' ws ws' Hw H]; [reflexivity|]. f_equal. apply (times_argmin (s * s) squares).
  assert (G : Forall2 (moved s v) (w :: ws) (w' :: ws')) by (constructor; assumption). clear Hw H. induction G as [|a b l l' Hab Hl IH]; cbn [map]; constructor; [|exact IH]. apply (moved_sqdist s v); assumption.
Qed.
Lemma move_coord n k w x d : d < n -> coord (move n k w x) d = (coord w d + k * (coord x d - coord w d))%Q.
Proof. intro H. unfold move. unfold coord at 1. rewrite nth_map_seq0 by exact H. reflexivity. Qed.
Lemma move_moved k w w' x x' : moved s v w w' -> moved s v x x' -> moved s v (move (length v) k w x) (move (length v) k w' x').
Proof.
  intros (A1 & A2 & A3) (B1 & B2 & B3). split; [unfold move; rewrite map_length, seq_length; reflexivity|]. split; [unfold move; rewrite map_length, seq_length; reflexivity|].
  intros d Hd. rewrite !move_coord by exact Hd. rewrite (A3 d Hd), (B3 d Hd). ring.
Qed.
Lemma upd_both {A} (R : A -> A -> Prop) l l' : Forall2 R l l' -> forall i x x', (i < length l -> R x x') -> Forall2 R (upd l i x) (upd l' i x').
Proof. induction 1 as [|a b l l' Hab Hl IH]; intros [|i] x x' H; cbn [upd]; constructor; auto; [apply H; cbn; lia|]. apply IH. intro. apply H. cbn. lia. Qed.

Lemma adaptation_moved radius rate index x x' ws ws' : Forall2 (moved s v) ws ws' -> moved s v x x' ->
  Forall2 (moved s v) (adaptation rows cols conn influence radius rate index x ws) (adaptation rows cols conn influence radius rate index x' ws').
Proof.
  intros H Hx. unfold adaptation. destruct ws as [|w0 t].
  - inversion H; subst.
    assert (E : forall (f g : nat -> point) (h : nat -> bool) l, fold_left (fun ws j => if h j then upd ws j (f j) else ws) l ([] : list point) = []) by (intros f g h l; induction l as [|j l IH]; cbn [fold_left]; [reflexivity|]; destruct (h j); exact IH).
    assert (E2 : forall y l, fold_left (fun ws j => let distance := loc_distance cols index j in if Qltb distance radius then upd ws j (move (length (hd [] ([] : list point))) (rate * influence distance radius) (nth j ws []) y) else ws) l ([] : list point) = []).
    { intros y l. induction l as [|j l IH]; cbn [fold_left]; [reflexivity|]. cbv zeta. destruct (Qltb (loc_distance cols index j) radius); exact IH. }
    destruct conn; cbn [upd]; rewrite ?E2; constructor.
  - inversion H as [|? w0' ? t' H0 Ht]; subst. cbn [hd]. destruct H0 as (L1 & L2 & H0). rewrite L1, L2. assert (H' : Forall2 (moved s v) (w0 :: t) (w0' :: t')) by (constructor; [split; [auto|split; auto]|exact Ht]).
    assert (G : forall l a a', Forall2 (moved s v) a a' ->
      Forall2 (moved s v) (fold_left (fun ws j => let distance := loc_distance cols index j in if Qltb distance radius then upd ws j (move (length v) (rate * influence distance radius) (nth j ws []) x) else ws) l a)
                          (fold_left (fun ws j => let distance := loc_distance cols index j in if Qltb distance radius then upd ws j (move (length v) (rate * influence distance radius) (nth j ws []) x') else ws) l a')).
    { induction l as [|j l IH]; intros a a' Ha; cbn [fold_left]; [exact Ha|]. apply IH. cbv zeta. destruct (Qltb (loc_distance cols index j) radius); [|exact Ha]. apply upd_both; [exact Ha|]. intro Hj. apply move_moved; [apply nth_moved; assumption|exact Hx]. }
    destruct conn; apply G; try exact H'; (apply upd_both; [exact H'|]); intro Hj; (apply move_moved; [apply nth_moved; assumption|exact Hx]).
Qed.
Lemma pass_same radius rate record : forall data data', Forall2 (moved s v) data data' -> forall i a b, same_map s v a b ->
  same_run (same_map s v) (epoch_pass rows cols conn influence radius rate record data i a) (epoch_pass rows cols conn influence radius rate record data' i b).
Proof.
  induction 1 as [|x x' data data' Hx Hd IH]; intros i a b H; cbn [epoch_pass]; [exact H|]. destruct H as (H1 & H2 & H3). rewrite (competition_same _ _ _ _ H1 Hx). destruct (competition (s_weights a) x) as [index|e]; cbn [bind]; [|reflexivity].
  apply IH. destruct record; (split; [apply adaptation_moved; assumption|]); cbn [s_award s_captured]; rewrite ?H2, ?H3; split; reflexivity.
Qed.
Lemma maximal_times (a a' b b' : list point) : Forall2 (moved s v) a a' -> Forall2 (moved s v) b b' -> length b = length a ->
  times s (maximal_adaptation rows cols (length v) a b) (maximal_adaptation rows cols (length v) a' b').
Proof.
  intros Ha Hb L. unfold maximal_adaptation.
  assert (G : forall l l', Forall2 (times s) l l' -> forall x x', times s x x' -> times s (fold_left (fun m y => if Qltb m y then y else m) l x) (fold_left (fun m y => if Qltb m y then y else m) l' x')).
  { induction 1 as [|y y' l l' Hy Hl IH]; intros x x' Hx; cbn [fold_left]; [exact Hx|]. apply IH. rewrite (scale_ltb s Hs _ _ _ _ Hx Hy). destruct (Qltb x y); assumption. }
  apply G; [|unfold times; ring]. induction (seq 0 (rows * cols)) as [|n l IH]; cbn [flat_map]; [constructor|]. apply Forall2_app; [|exact IH]. apply map_times. intros d Hd. apply in_seq in Hd. unfold times.
  destruct (Nat.lt_ge_cases n (length a)) as [Hn|Hn].
  - destruct (nth_moved s v a a' Ha n Hn) as (_ & _ & E1). destruct (nth_moved s v b b' Hb n ltac:(lia)) as (_ & _ & E2). rewrite (E1 d), (E2 d) by lia.
    rewrite <- (Qabs_pos s) at 3 by lra. rewrite <- Qabs_Qmult. apply Qabs_wd. ring.
  - pose proof (both_length _ _ _ Ha). pose proof (both_length _ _ _ Hb). rewrite (nth_overflow a (n:=n)), (nth_overflow a' (n:=n)), (nth_overflow b (n:=n)), (nth_overflow b' (n:=n)) by lia. replace (coord [] d) with 0%Q by (unfold coord; destruct d; reflexivity). change (Qabs (0 - 0)) with 0%Q. ring.
Qed.
Lemma clear_same a b : same_map s v a b -> same_map s v (clear_statistics a) (clear_statistics b).
Proof. intros (H1 & H2 & H3). unfold clear_statistics. split; [exact H1|]. cbn [s_award s_captured]. rewrite H2, H3. auto. Qed.
Lemma adaptation_count radius rate index x ws : length (adaptation rows cols conn influence radius rate index x ws) = length ws.
Proof.
  unfold adaptation. assert (G : forall k l a, length (fold_left (fun ws j => let distance := loc_distance cols index j in if Qltb distance radius then upd ws j (move k (rate * influence distance radius) (nth j ws []) x) else ws) l a) = length a).
  { intros k l. induction l as [|j l IH]; intro a; cbn [fold_left]; [reflexivity|]. rewrite IH. cbv zeta. destruct (Qltb _ _); [apply upd_length|reflexivity]. }
  destruct conn; rewrite G, ?upd_length; reflexivity.
Qed.
Lemma pass_count radius rate record : forall data i a b, epoch_pass rows cols conn influence radius rate record data i a = Ok b -> length (s_weights b) = length (s_weights a).
Proof.
  induction data as [|x t IH]; intros i a b E; cbn [epoch_pass] in E; [injection E as <-; reflexivity|]. destruct (competition (s_weights a) x) as [index|e]; cbn [bind] in E; [|discriminate].
  apply IH in E. rewrite E. destruct record; cbn [s_weights]; apply adaptation_count.
Qed.

Variables (radius rate : nat -> Q) (threshold threshold' : Q).
Hypothesis Ht : times s threshold threshold'.
Definition same_end (a b : nat * som_state) : Prop := fst b = fst a /\ same_map s v (snd a) (snd b).
Definition same_before (p p' : option (list point)) (n : nat) : Prop :=
  match p, p' with None, None => True | Some a, Some b => Forall2 (moved s v) a b /\ length a = n | _, _ => False end.
Lemma loop_same_map autostop data data' epochs : Forall2 (moved s v) data data' -> data <> [] -> forall left epoch p p' a b, same_before p p' (length (s_weights a)) -> same_map s v a b ->
  same_run same_end (train_loop rows cols conn influence radius rate threshold autostop data epochs epoch left p a)
                    (train_loop rows cols conn influence radius rate threshold' autostop data' epochs epoch left p' b).
Proof.
  intros Hd Hne. assert (L : length (hd [] data) = length v /\ length (hd [] data') = length v) by (destruct Hd as [|x x' ? ? (A & B & _)]; [congruence|auto]). destruct L as [L L'].
  induction left as [|left IH]; intros epoch p p' a b Hp H; cbn [train_loop]; [split; auto|].
  set (a1 := if autostop then clear_statistics a else a). set (b1 := if autostop then clear_statistics b else b). assert (H1 : same_map s v a1 b1) by (unfold a1, b1; destruct autostop; [apply clear_same|]; exact H).
  assert (C1 : length (s_weights a1) = length (s_weights a)) by (unfold a1; destruct autostop; reflexivity).
  pose proof (pass_same (radius epoch) (rate epoch) (autostop || (epoch =? epochs)) data data' Hd 0 a1 b1 H1) as P.
  pose proof (pass_count (radius epoch) (rate epoch) (autostop || (epoch =? epochs)) data 0 a1) as C2.
  destruct (epoch_pass rows cols conn influence (radius epoch) (rate epoch) (autostop || (epoch =? epochs)) data 0 a1) as [a2|e], (epoch_pass rows cols conn influence (radius epoch) (rate epoch) (autostop || (epoch =? epochs)) data' 0 b1) as [b2|e']; cbn [same_run] in P; try contradiction; cbn [bind]; [|exact P].
  specialize (C2 a2 eq_refl). assert (N : same_before (Some (s_weights a2)) (Some (s_weights b2)) (length (s_weights a2))) by (split; [apply P|reflexivity]).
  destruct autostop; [|apply IH; assumption]. destruct p as [w|], p' as [w'|]; cbn [same_before] in Hp; try contradiction; [|apply IH; assumption].
  rewrite L, L'. destruct Hp as [Hw Lw]. rewrite (scale_ltb s Hs _ _ _ _ (maximal_times w w' _ _ Hw (proj1 P) ltac:(lia)) Ht). destruct (Qltb _ threshold); [split; [reflexivity|exact P]|apply IH; assumption].
Qed.

(** the initial weights *)
Lemma moved_ltb a a' b b' (c : Q) : (a' == s * a + c)%Q -> (b' == s * b + c)%Q -> Qltb a' b' = Qltb a b.
Proof.
  intros Ha Hb. destruct (Qltb a b) eqn:E.
  - apply Qltb_true in E. apply Qltb_true. rewrite Ha, Hb. nra.
  - apply Qltb_false in E. apply Qltb_false. rewrite Ha, Hb. nra.
Qed.
Lemma list_coord (f : nat -> Q) n d : d < n -> coord (map f (seq 0 n)) d = f d.
Proof. intro H. unfold coord. rewrite nth_map_seq0 by exact H. reflexivity. Qed.
Lemma corner_moved c c' p p' : moved s v (fst c) (fst c') -> moved s v (snd c) (snd c') -> moved s v p p' ->
  moved s v (fst (dimension_point (length v) c p)) (fst (dimension_point (length v) c' p')) /\ moved s v (snd (dimension_point (length v) c p)) (snd (dimension_point (length v) c' p')).
Proof.
  intros (A1 & A2 & A3) (B1 & B2 & B3) (C1 & C2 & C3). unfold dimension_point. cbn [fst snd]. rewrite !map_map.
  split; (split; [rewrite map_length, seq_length; reflexivity|split; [rewrite map_length, seq_length; reflexivity|]]); intros d Hd; rewrite !list_coord by exact Hd; unfold dimension_coord;
    rewrite (moved_ltb _ _ _ _ (coord v d) (B3 d Hd) (C3 d Hd)), (moved_ltb _ _ _ _ (coord v d) (C3 d Hd) (A3 d Hd)); destruct (Qltb (coord (snd c) d) (coord p d)); [apply A3|destruct (Qltb (coord p d) (coord (fst c) d)); [apply C3|apply A3]|apply C3|destruct (Qltb (coord p d) (coord (fst c) d)); apply B3]; exact Hd.
Qed.
Lemma minmax_moved data data' : Forall2 (moved s v) data data' -> data <> [] -> exists c c', dimension_minmax data = Ok c /\ dimension_minmax data' = Ok c' /\ moved s v (fst c) (fst c') /\ moved s v (snd c) (snd c').
Proof.
  intros H Hne. destruct H as [|p0 p0' t t' H0 Ht']; [congruence|]. unfold dimension_minmax. pose proof H0 as (L1 & L2 & _). rewrite L1, L2.
  assert (G : Forall2 (moved s v) (p0 :: t) (p0' :: t')) by (constructor; assumption).
  assert (F : forall l l', Forall2 (moved s v) l l' -> forall c c', moved s v (fst c) (fst c') -> moved s v (snd c) (snd c') ->
    moved s v (fst (fold_left (dimension_point (length v)) l c)) (fst (fold_left (dimension_point (length v)) l' c')) /\ moved s v (snd (fold_left (dimension_point (length v)) l c)) (snd (fold_left (dimension_point (length v)) l' c'))).
  { induction 1 as [|p p' l l' Hp Hl IH]; intros c c' A B; cbn [fold_left]; [auto|]. destruct (corner_moved c c' p p' A B Hp). apply IH; assumption. }
  destruct (F _ _ G (p0, p0) (p0', p0') H0 H0) as [F1 F2]. eexists _, _. split; [reflexivity|]. split; [reflexivity|]. auto.
Qed.
(** the ways that place the neurons relative to the data *)
Definition relative (init : som_init) : Prop := match init with UniformGrid => True | RandomSurface _ => True | _ => False end.
Lemma weights_moved init data data' : relative init -> Forall2 (moved s v) data data' -> data <> [] ->
  exists ws ws', create_initial_weights rows cols init data = Ok ws /\ create_initial_weights rows cols init data' = Ok ws' /\ Forall2 (moved s v) ws ws'.
Proof.
  intros Hi H Hne. destruct (minmax_moved data data' H Hne) as (c & c' & E & E' & (A1 & A2 & A3) & (B1 & B2 & B3)).
  assert (L : length (hd [] data) = length v /\ length (hd [] data') = length v) by (destruct H as [|x x' ? ? (A & B & _)]; [congruence|auto]). destruct L as [L L'].
  unfold create_initial_weights, dimension_width, dimension_center. rewrite E, E', L, L'. cbn [bind]. eexists _, _. split; [reflexivity|]. split; [reflexivity|].
  induction (seq 0 (rows * cols)) as [|i l IH]; cbn [map]; constructor; [|exact IH]. split; [rewrite map_length, seq_length; reflexivity|]. split; [rewrite map_length, seq_length; reflexivity|]. intros d Hd. rewrite !list_coord by exact Hd.
  destruct init; cbn [relative] in Hi; try contradiction.
  - unfold grid_coord. destruct d as [|[|d]]; [destruct (1 <? rows)|destruct (1 <? cols)|]; rewrite ?list_coord by exact Hd; rewrite (A3 _ Hd), ?(B3 _ Hd); first [field; fail | unfold Qdiv; ring].
  - rewrite (A3 d Hd), (B3 d Hd). ring.
Qed.
End Two.

(** C281.  A map trained on the same points in another unit and from another origin, with the threshold of the automatic stop in the new unit: it stops
    after the same epoch, the neurons have won the same points, and their weights are the old ones in the new coordinates; ... *)
Theorem C281_train s v rows cols conn influence radius rate threshold init data data' epochs autostop st : (0 < s)%Q -> relative init -> Forall2 (moved s v) data data' ->
  same_run (fun a b => fst b = fst a /\ same_map s v (snd a) (snd b))
    (train rows cols conn influence radius rate threshold init data epochs autostop st) (train rows cols conn influence radius rate (s * threshold)%Q init data' epochs autostop st).
Proof.
  intros Hs Hi H. unfold train. destruct data as [|p0 t]; [inversion H; subst; reflexivity|]. destruct (weights_moved s v Hs rows cols init _ _ Hi H ltac:(discriminate)) as (ws & ws' & E & E' & M). rewrite E, E'. cbn [bind].
  apply (loop_same_map s v Hs rows cols conn influence radius rate threshold (s * threshold)%Q); [unfold times; reflexivity|exact H|discriminate|exact I|]. split; [exact M|split; reflexivity].
Qed.
Print Assumptions C281_train.
(** ... so it also answers the same for new points, ... *)
Theorem C281_simulate s v a b x x' : (0 < s)%Q -> same_map s v a b -> moved s v x x' -> simulate b x' = simulate a x.
Proof. intros Hs (H & _) Hx. apply (competition_same s v Hs); assumption. Qed.
Print Assumptions C281_simulate.
(** ... and SOM-SC gives the same clusters. *)
Theorem C281_somsc s v influence radius rate threshold data data' amount epouch : (0 < s)%Q -> Forall2 (moved s v) data data' ->
  same_run (fun a b => somsc_clusters (Some b) = somsc_clusters (Some a)) (somsc_process influence radius rate threshold data amount epouch) (somsc_process influence radius rate (s * threshold)%Q data' amount epouch).
Proof.
  intros Hs H. unfold somsc_process, somsc_verify. rewrite (both_length _ _ _ H). destruct (length data =? 0); [reflexivity|]. destruct (amount <=? 0)%Z; [reflexivity|]. destruct (epouch <? 0)%Z; [reflexivity|]. cbn [bind].
  pose proof (C281_train s v 1 (Z.to_nat amount) SGridFour influence radius rate threshold UniformGrid data data' (Z.to_nat epouch) true (som_create (1 * Z.to_nat amount)) Hs I H) as T.
  destruct (train 1 (Z.to_nat amount) SGridFour influence radius rate threshold UniformGrid data (Z.to_nat epouch) true (som_create (1 * Z.to_nat amount))) as [[n a]|e], (train 1 (Z.to_nat amount) SGridFour influence radius rate (s * threshold)%Q UniformGrid data' (Z.to_nat epouch) true (som_create (1 * Z.to_nat amount))) as [[n' b]|e']; cbn [same_run] in T; try contradiction; cbn [bind same_run]; [|exact T].
  destruct T as (_ & _ & _ & T). cbn [snd] in *. unfold somsc_clusters. rewrite T. reflexivity.
Qed.
Print Assumptions C281_somsc.
Definition heights : list point := [[0]; [1]; [10]]%Q.
Definition heights_inch : list point := [[7]; [19 # 2]; [32]]%Q.
Definition half_influence (d r : Q) : Q := (1 # 2)%Q.
Lemma heights_moved : Forall2 (moved (5 # 2) [7%Q]) heights heights_inch.
Proof. repeat (apply Forall2_cons || apply Forall2_nil); (split; [reflexivity|split; [reflexivity|]]); intros [|d] Hd; try (cbn in Hd; lia); reflexivity. Qed.
Example C281_example : relative UniformGrid /\ Forall2 (moved (5 # 2) [7%Q]) heights heights_inch /\
  exists a, train 1 2 SGridFour half_influence (fun _ => 2%Q) (fun _ => 1 # 10) (1 # 100) UniformGrid heights_inch 1 true (som_create 2) = Ok a /\ s_captured (snd a) = [[0; 1]; [2]].
Proof. split; [exact I|]. split; [exact heights_moved|]. eexists. split; [vm_compute; reflexivity|]. vm_compute. reflexivity. Qed.
(** Weights that are drawn without a look at the spread of the data do not follow the unit: random_centroid adds numbers between -0.5 and 0.5. *)
Theorem C281_centroid_refuted : exists s v data data' draws a b, (0 < s)%Q /\ Forall2 (moved s v) data data' /\ Forall (fun p => Forall (fun x => (- (1 # 2) <= x <= 1 # 2)%Q) p) draws /\
  train 1 2 SGridFour half_influence (fun _ => 0%Q) (fun _ => 1 # 10) (1 # 100) (RandomCentroid draws) data 1 false (som_create 2) = Ok a /\
  train 1 2 SGridFour half_influence (fun _ => 0%Q) (fun _ => 1 # 10) (s * (1 # 100)) (RandomCentroid draws) data' 1 false (som_create 2) = Ok b /\
  s_captured (snd a) <> s_captured (snd b).
Proof.
  exists (1 # 100)%Q, [0%Q], [[0]; [10]; [4]]%Q, [[0]; [1 # 10]; [4 # 100]]%Q, [[1 # 10]; [2 # 10]]%Q. eexists _, _. split; [reflexivity|]. split.
  { repeat (apply Forall2_cons || apply Forall2_nil); (split; [reflexivity|split; [reflexivity|]]); intros [|d] Hd; try (cbn in Hd; lia); reflexivity. }
  split; [repeat constructor; discriminate|]. split; [vm_compute; reflexivity|]. split; [vm_compute; reflexivity|]. vm_compute. discriminate.
Qed.
Print Assumptions C281_centroid_refuted.
