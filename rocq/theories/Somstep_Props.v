(** C140, C141: adaptation of the self-organised map and the end of its training *)
From Verif Require Import Base Kmeans_Model Kmeans_Proofs Small_Model Topology_Model Topology_Proofs Som_Model Som_Proofs Somstep_Proofs.

(** ** C140 adaptation *)
Theorem C140_adaptation :
  forall rows cols conn influence D radius rate index x weights,
  (forall a b r, (a == b)%Q -> (influence a r == influence b r)%Q) ->
  index < rows * cols -> length weights = rows * cols -> length (hd [] weights) = D ->
  adapted rows cols conn influence D radius rate index x weights (adaptation rows cols conn influence radius rate index x weights).
Proof. intros. apply adaptation_adapted; auto. Qed.
Print Assumptions C140_adaptation.

(** a 2 x 2 map with four neighbours: the winner 0 moves half way, its neighbours 1 and 2 a quarter, the diagonal neuron stays *)
Example C140_case :
  map (map Qred) (adaptation 2 2 SGridFour (fun _ _ => 1 # 2)%Q 2 (1 # 2) 0 [4; 4] [[0; 0]; [8; 0]; [0; 8]; [8; 8]])%Q =
    [[2; 2]; [7; 1]; [1; 7]; [8; 8]]%Q /\
  map (map Qred) (adaptation 2 2 SGridEight (fun _ _ => 1 # 2)%Q 3 (1 # 2) 0 [4; 4] [[0; 0]; [8; 0]; [0; 8]; [8; 8]])%Q =
    [[2; 2]; [7; 1]; [1; 7]; [7; 7]]%Q /\
  map (map Qred) (adaptation 2 2 SFuncNeighbor (fun _ _ => 1 # 2)%Q 1 (1 # 2) 0 [4; 4] [[0; 0]; [8; 0]; [0; 8]; [8; 8]])%Q =
    [[1; 1]; [8; 0]; [0; 8]; [8; 8]]%Q.
Proof. vm_compute. auto. Qed.

(** every epoch of the training presents all points in order, each to a nearest neuron *)
Theorem C140_epoch :
  forall rows cols conn influence D radius rate record data s s',
  (forall a b r, (a == b)%Q -> (influence a r == influence b r)%Q) ->
  0 < rows * cols -> length (s_weights s) = rows * cols -> (forall v, In v (s_weights s) -> length v = D) ->
  epoch_pass rows cols conn influence radius rate record data 0 s = Ok s' ->
  presented rows cols conn influence D radius rate data (s_weights s) (s_weights s').
Proof. intros rows cols conn influence D radius rate record data s s' Hi Hp L HD E. eapply epoch_presented; eauto. Qed.
Print Assumptions C140_epoch.

Example C140_epoch_case : exists s',
  epoch_pass 1 2 SGridFour (fun _ _ => 0)%Q 1 (1 # 2) true [[4]; [0]]%Q 0 (mk_som [[0]; [10]]%Q [0; 0] [[]; []]) = Ok s' /\
  map (map Qred) (s_weights s') = [[1]; [10]]%Q.
Proof. eexists. split; [reflexivity|]. vm_compute. reflexivity. Qed.

(** ** C141 autostop *)
Theorem C141_autostop :
  forall rows cols conn influence radius rate threshold init data epochs s e s',
  (forall a b r, (a == b)%Q -> (influence a r == influence b r)%Q) ->
  0 < rows * cols -> data <> [] -> (forall p, In p data -> length p = length (hd [] data)) -> 1 <= epochs -> (0 < threshold)%Q ->
  train rows cols conn influence radius rate threshold init data epochs true s = Ok (e, s') ->
  let D := length (hd [] data) in
  exists ws, length ws = S e /\ 1 <= e <= epochs /\
    create_initial_weights rows cols init data = Ok (nth 0 ws []) /\ s_weights s' = nth e ws [] /\
    (forall k, 1 <= k <= e -> presented rows cols conn influence D (radius k) (rate k) data (nth (k - 1) ws []) (nth k ws [])) /\
    (forall k, 2 <= k < e -> ~ small_change (rows * cols) D threshold (nth (k - 1) ws []) (nth k ws [])) /\
    (e < epochs -> 2 <= e /\ small_change (rows * cols) D threshold (nth (e - 1) ws []) (nth e ws [])).
Proof.
  intros rows cols conn influence radius rate threshold init data epochs s e s' Hx Hp Hd HD He Ht E D.
  destruct (create_initial_ok rows cols init data Hd) as (w & Ew & Lw). unfold train in E. rewrite Ew in E. cbn [bind] in E.
  assert (Dw : forall v, In v w -> length v = D).
  { intros v Hv. unfold create_initial_weights, dimension_width, dimension_center in Ew. destruct data as [|p t]; [congruence|].
    unfold dimension_minmax in Ew. cbn [bind] in Ew. apply Ok_inj in Ew. rewrite <- Ew in Hv. apply in_map_iff in Hv as (i & <- & _).
    now rewrite map_length, seq_length. }
  destruct (autostop_loop rows cols conn influence radius rate threshold data epochs Ht epochs 1 None _ e s' ltac:(lia) ltac:(lia) E)
    as (ws & L & B1 & B2 & La & St & _ & C & F). cbn [s_weights] in *.
  assert (Inv : forall k, k <= length ws -> length (nth k (w :: ws) []) = rows * cols /\ forall v, In v (nth k (w :: ws) []) -> length v = D).
  { induction k as [|k IH]; intros Hk; [auto|]. destruct (IH ltac:(lia)) as [I1 I2]. destruct (St k ltac:(lia)) as (a & c & s1 & E1 & E2).
    rewrite <- E2. apply (epoch_presented rows cols conn influence Hx D _ _ _ _ _ (mk_som _ a c) s1 Hp I1 I2 E1). }
  exists (w :: ws). cbn [length]. specialize (B1 ltac:(lia)). split; [f_equal; lia|]. split; [lia|]. split; [exact Ew|]. split.
  { rewrite <- La. replace e with (length ws) by lia. clear. generalize w. induction ws as [|v ws IH]; intros u; [reflexivity|].
    change (last (u :: v :: ws) []) with (last (v :: ws) []). rewrite IH. reflexivity. }
  split.
  { intros k Hk. destruct k as [|k]; [lia|]. replace (S k - 1) with k by lia. destruct (Inv k ltac:(lia)) as [I1 I2].
    destruct (St k ltac:(lia)) as (a & c & s1 & E1 & E2). rewrite <- E2.
    apply (epoch_presented rows cols conn influence Hx D _ _ _ _ _ (mk_som _ a c) s1 Hp I1 I2 E1). }
  split.
  { intros k Hk. replace (k - 1) with (S (k - 2)) by lia. replace (nth k (w :: ws) []) with (nth (S (k - 2)) ws []); [apply C; lia|].
    replace k with (S (S (k - 2))) at 2 by lia. reflexivity. }
  intros Hlt. destruct (F Hlt) as [(v & Ev & _)|(L2 & Sm)]; [discriminate|]. split; [lia|].
  replace (e - 1) with (S (length ws - 2)) by lia. replace (nth e (w :: ws) []) with (nth (length ws - 1) ws []); [exact Sm|].
  replace e with (S (length ws - 1)) by lia. reflexivity.
Qed.
Print Assumptions C141_autostop.

(** the training ends in the second of ten epochs *)
Example C141_case : exists s, train 1 2 SGridFour (fun _ _ => 1 # 2)%Q (fun _ => 1 # 2)%Q (fun _ => 1 # 2)%Q 1%Q UniformGrid [[0]; [8]; [1]; [9]]%Q 10 true (som_create 2) = Ok (2, s).
Proof. eexists. vm_compute. reflexivity. Qed.
