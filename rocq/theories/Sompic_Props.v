(** C220-C223: a self-organised feature map that is pickled, the lists it hands
    out and its pictures. *)
From Verif Require Import Base Kmeans_Model Kmeans_Proofs Small_Model Small_Proofs Topology_Model Topology_Proofs Topology_Props
  Som_Model Som_Proofs Som_Props Sompic_Model.

(** ** C220 A pickled map answers as the original *)

(** The maps a program can have: new ones, ones it has worked with, and ones
    that were pickled and loaded. *)
Inductive lives (influence : Q -> Q -> Q) (radius rate : nat -> nat -> Q) (threshold : Q) : som -> Prop :=
| lives_new rows cols conn : lives influence radius rate threshold (new_som rows cols conn)
| lives_call c o : lives influence radius rate threshold o ->
    lives influence radius rate threshold (snd (invoke influence radius rate threshold c o))
| lives_loaded o : lives influence radius rate threshold o -> lives influence radius rate threshold (setstate (getstate o)).

Definition connected (o : som) : Prop :=
  o_conn o <> SFuncNeighbor -> o_neighbors o = Some (som_create_connections (o_conn o) (o_rows o) (o_cols o)).

Lemma invoke_same_shape influence radius rate threshold c o :
  let o' := snd (invoke influence radius rate threshold c o) in
  o_rows o' = o_rows o /\ o_cols o' = o_cols o /\ o_conn o' = o_conn o /\ o_location o' = o_location o /\
  (o_conn o <> SFuncNeighbor -> o_neighbors o' = o_neighbors o).
Proof.
  destruct c; cbn [invoke snd]; auto 6.
  - destruct (o_conn o) eqn:E; cbn; rewrite ?E; repeat split; auto. congruence.
  - match goal with |- context [match ?e with Ok _ => _ | Raise _ => _ end] => destruct e as [[n s]|x] end; cbn; auto 6.
Qed.

Lemma lives_connected influence radius rate threshold o : lives influence radius rate threshold o -> connected o.
Proof.
  induction 1 as [rows cols conn|c o H IH|o H IH].
  - intros N. cbn in *. destruct conn; try reflexivity. contradiction N; reflexivity.
  - intros N. destruct (invoke_same_shape influence radius rate threshold c o) as (E1 & E2 & E3 & E4 & E5).
    rewrite E3 in N. rewrite (E5 N), E1, E2, E3. auto.
  - intros N. reflexivity.
Qed.

(** two maps that differ at most in the data they remember *)
Definition alike (o o' : som) : Prop :=
  o_rows o' = o_rows o /\ o_cols o' = o_cols o /\ o_conn o' = o_conn o /\ o_state o' = o_state o /\ connected o /\ connected o'.

Lemma connected_ok o : connected o -> own_connections o = Ok tt.
Proof.
  intros H. unfold own_connections. unfold connected in H.
  destruct (o_conn o); auto; rewrite H by discriminate;
    match goal with |- context [list_eq_dec ?d ?a ?b] => destruct (list_eq_dec d a b) end; congruence.
Qed.

Lemma invoke_connected influence radius rate threshold c o :
  connected o -> connected (snd (invoke influence radius rate threshold c o)).
Proof.
  intros H N. destruct (invoke_same_shape influence radius rate threshold c o) as (E1 & E2 & E3 & E4 & E5).
  rewrite E3 in N. rewrite (E5 N), E1, E2, E3. auto.
Qed.

Definition is_training (c : call) : Prop := match c with Train _ _ _ _ => True | _ => False end.

Lemma alike_invoke influence radius rate threshold c o o' : alike o o' ->
  (forall d, c = DensityMatrix d -> o_data o' = o_data o) ->
  fst (invoke influence radius rate threshold c o') = fst (invoke influence radius rate threshold c o) /\
  alike (snd (invoke influence radius rate threshold c o)) (snd (invoke influence radius rate threshold c o')) /\
  (o_data o' = o_data o \/ is_training c ->
   o_data (snd (invoke influence radius rate threshold c o')) = o_data (snd (invoke influence radius rate threshold c o))).
Proof.
  intros (E1 & E2 & E3 & E4 & C1 & C2) Hd.
  assert (K1 := connected_ok _ C1). assert (K2 := connected_ok _ C2).
  assert (I1 := invoke_connected influence radius rate threshold c o C1).
  assert (I2 := invoke_connected influence radius rate threshold c o' C2).
  assert (D : o_data o' = o_data o \/ False -> o_data o' = o_data o) by tauto.
  unfold alike. destruct c; cbn [invoke fst snd is_training] in *; rewrite ?E1, ?E2, ?E3, ?E4, ?K1, ?K2 in *;
    try (repeat split; auto; fail).
  - destruct (o_conn o) eqn:Ec; repeat split; auto; cbn; rewrite ?E1, ?E2, ?E3, ?E4; auto.
  - rewrite (Hd divider eq_refl). repeat split; auto.
  - destruct (train _ _ _ _ _ _ _ _ _ _ _ _) as [[n s]|e]; cbn [bind fst snd o_rows o_cols o_conn o_state o_data] in *;
      repeat split; auto.
Qed.

(** the density matrix needs the data: it is asked for after a training *)
Definition density_after_training (cs : list call) : Prop :=
  forall before divider after, cs = before ++ DensityMatrix divider :: after -> exists c, In c before /\ is_training c.

Lemma alike_run influence radius rate threshold : forall cs o o', alike o o' ->
  (o_data o' = o_data o \/ density_after_training cs) ->
  fst (invoke_all influence radius rate threshold cs o') = fst (invoke_all influence radius rate threshold cs o).
Proof.
  induction cs as [|c cs IH]; intros o o' A H; [reflexivity|].
  cbn [invoke_all].
  destruct (alike_invoke influence radius rate threshold c o o' A) as (E & A' & D).
  { intros d ->. destruct H as [H|H]; [exact H|]. destruct (H [] d cs eq_refl) as (x & [] & _). }
  destruct (invoke influence radius rate threshold c o) as [a o1] eqn:Eo.
  destruct (invoke influence radius rate threshold c o') as [a' o1'] eqn:Eo'.
  cbn [fst snd] in *. subst a'.
  assert (R : fst (invoke_all influence radius rate threshold cs o1') = fst (invoke_all influence radius rate threshold cs o1)).
  { apply IH; [exact A'|]. destruct H as [H|H]; [left; auto|].
    assert (T : is_training c \/ ~ is_training c) by (destruct c; cbn; tauto).
    destruct T as [T|T]; [left; auto|]. right. intros before d after ->.
    destruct (H (c :: before) d after eq_refl) as (x & [->|Hx] & Tx); [contradiction|]. exists x. auto. }
  destruct (invoke_all influence radius rate threshold cs o1) as [l o2].
  destruct (invoke_all influence radius rate threshold cs o1') as [l' o2']. cbn [fst] in *. congruence.
Qed.

(** What is missing: the density matrix (and the picture of the network) of the
    loaded map before it is trained again. *)
Theorem C220_loaded_partial : forall influence radius rate threshold o cs,
  lives influence radius rate threshold o -> density_after_training cs ->
  fst (invoke_all influence radius rate threshold cs (setstate (getstate o))) =
  fst (invoke_all influence radius rate threshold cs o).
Proof.
  intros influence radius rate threshold o cs H S. apply alike_run; [|auto].
  assert (C := lives_connected _ _ _ _ _ H).
  repeat split; auto. cbn. destruct (o_state o); reflexivity.
Qed.
Print Assumptions C220_loaded_partial.

Definition half (d r : Q) : Q := (1 # 2)%Q.
Definition some_training : call := Train UniformGrid case_data 2 false.
Definition trained : som := snd (invoke half (fun _ _ => 1 # 2)%Q (fun _ _ => 1 # 2)%Q (1 # 1000) some_training (new_som 1 2 SGridFour)).

Example C220_case : lives half (fun _ _ => 1 # 2)%Q (fun _ _ => 1 # 2)%Q (1 # 1000) trained /\
  density_after_training [Awards; Simulate [0; 1]%Q; some_training; DensityMatrix 2] /\
  fst (invoke_all half (fun _ _ => 1 # 2)%Q (fun _ _ => 1 # 2)%Q (1 # 1000) [Awards; Captured; Simulate [0; 1]%Q; WinnerNumber]
         (setstate (getstate trained))) = [ANumbers [2; 5]; ALists [[1; 6]; [0; 2; 3; 4; 5]]; ANumber 0; ANumber 2].
Proof.
  split; [apply lives_call, lives_new|]. split; [|vm_compute; reflexivity].
  intros before d after E. destruct before as [|? [|? [|? [|? [|? ?]]]]]; try discriminate.
  cbn in E. injection E as E1 E2 E3 E4 E5. exists some_training. split; [|exact I]. rewrite <- E3. cbn. auto.
Qed.

(** A loaded map has no density matrix and no picture of the network until it
    is trained again. *)
Theorem C220_data_lost : forall influence radius rate threshold o divider awards belongs coupling dataset,
  fst (invoke influence radius rate threshold (DensityMatrix divider) (setstate (getstate o))) = AError AttributeError /\
  (forall w rest, s_weights (o_state o) = w :: rest -> 1 <= length w <= 3 ->
   show_network awards belongs coupling dataset (setstate (getstate o)) = Raise AttributeError).
Proof.
  intros. split; [reflexivity|]. intros w rest E [H1 H2]. unfold show_network. cbn. rewrite E.
  destruct (length w) as [|[|[|[|n]]]]; try lia; reflexivity.
Qed.
Print Assumptions C220_data_lost.

Theorem C220_loaded_refuted : exists influence radius rate threshold o c,
  lives influence radius rate threshold o /\
  fst (invoke influence radius rate threshold c (setstate (getstate o))) <> fst (invoke influence radius rate threshold c o) /\
  fst (invoke influence radius rate threshold c (setstate (getstate o))) = AError AttributeError /\
  fst (invoke influence radius rate threshold c o) = ACounts [[1; 3]].
Proof.
  exists half, (fun _ _ => 1 # 2)%Q, (fun _ _ => 1 # 2)%Q, (1 # 1000)%Q, trained, (DensityMatrix 4).
  assert (E : fst (invoke half (fun _ _ => 1 # 2)%Q (fun _ _ => 1 # 2)%Q (1 # 1000) (DensityMatrix 4) trained) = ACounts [[1; 3]])
    by (vm_compute; reflexivity).
  split; [apply lives_call, lives_new|]. rewrite E. split; [discriminate|]. split; reflexivity.
Qed.
Print Assumptions C220_loaded_refuted.

(** ** C221 Lists handed out by a map *)

(** Trainings one after another. *)
Fixpoint train_often influence radius rate threshold rows cols conn (ts : list (som_init * list point * nat * bool)) (h : shared)
    : res shared :=
  match ts with
  | [] => Ok h
  | (init, data, epochs, autostop) :: rest =>
      do h' <- train_shared influence radius rate threshold rows cols conn init data epochs autostop h;
      train_often influence radius rate threshold rows cols conn rest h'
  end.

Definition tidy (h : shared) : Prop :=
  h_weights h < h_next h /\ h_award h < h_next h /\ h_captured h < h_next h /\
  h_weights h <> h_award h /\ h_weights h <> h_captured h /\ h_award h <> h_captured h /\ read h <> None.

Lemma share_tidy size : tidy (share size).
Proof. unfold tidy. cbn. repeat split; try lia. discriminate. Qed.

Lemma put_here f a c : put f a c a = Some c.
Proof. unfold put. rewrite Nat.eqb_refl. reflexivity. Qed.
Lemma put_there f a c b : b <> a -> put f a c b = f b.
Proof. unfold put. destruct (Nat.eqb_spec b a); congruence. Qed.

Lemma train_shared_spec influence radius rate threshold rows cols conn init data epochs autostop h h' : tidy h ->
  train_shared influence radius rate threshold rows cols conn init data epochs autostop h = Ok h' ->
  tidy h' /\ h_award h' = h_award h /\ h_captured h' = h_captured h /\ h_next h < h_next h' /\
  (forall a, a < h_next h -> a <> h_award h -> a <> h_captured h -> h_heap h' a = h_heap h a).
Proof.
  intros (T1 & T2 & T3 & T4 & T5 & T6 & T7). unfold train_shared.
  destruct (read h) as [s|] eqn:R; [|discriminate].
  destruct (train _ _ _ _ _ _ _ _ _ _ _ _) as [[n s']|e] eqn:E; cbn [bind]; [|discriminate].
  intros X. injection X as <-. unfold tidy, read. cbn [h_heap h_next h_weights h_award h_captured snd].
  rewrite put_here.
  rewrite (put_there _ (h_captured h) _ (h_award h)) by lia. rewrite put_here.
  rewrite (put_there _ (h_captured h) _ (h_next h)) by lia. rewrite (put_there _ (h_award h) _ (h_next h)) by lia. rewrite put_here.
  split; [repeat split; try lia; discriminate|]. do 2 (split; [reflexivity|]). split; [lia|].
  intros a H1 H2 H3. rewrite !put_there by lia. reflexivity.
Qed.

(** The list of weights of a map is not changed by later trainings. *)
Theorem C221_weights_stay : forall influence radius rate threshold rows cols conn before after h h',
  train_often influence radius rate threshold rows cols conn before (share (rows * cols)) = Ok h ->
  train_often influence radius rate threshold rows cols conn after h = Ok h' ->
  h_heap h' (h_weights h) = h_heap h (h_weights h).
Proof.
  intros influence radius rate threshold rows cols conn before after h h' E1 E2.
  assert (T : tidy h).
  { assert (T := share_tidy (rows * cols)). revert E1 T. generalize (share (rows * cols)). clear.
    induction before as [|[[[init data] epochs] autostop] before IH]; cbn [train_often]; intros h0 E T; [apply Ok_inj in E; congruence|].
    destruct (train_shared _ _ _ _ _ _ _ _ _ _ _ h0) as [h1|e] eqn:E1; cbn [bind] in E; [|discriminate].
    eapply IH; eauto. eapply train_shared_spec; eauto. }
  assert (G : forall a, a < h_next h -> a <> h_award h -> a <> h_captured h -> h_heap h' a = h_heap h a).
  { revert h E1 E2 T. clear. intros h _. revert h.
    induction after as [|[[[init data] epochs] autostop] after IH]; cbn [train_often]; intros h E T a H1 H2 H3; [apply Ok_inj in E; congruence|].
    destruct (train_shared _ _ _ _ _ _ _ _ _ _ _ h) as [h1|e] eqn:E1; cbn [bind] in E; [|discriminate].
    destruct (train_shared_spec _ _ _ _ _ _ _ _ _ _ _ _ _ T E1) as (T1 & A & C & N & F).
    rewrite (IH h1 E T1 a) by (rewrite ?A, ?C; auto; lia). apply F; auto. }
  destruct T as (T1 & T2 & T3 & T4 & T5 & _). apply G; auto.
Qed.
Print Assumptions C221_weights_stay.

(** The lists of awards and of captured objects always show the last training,
    whenever they were asked for. *)
Theorem C221_statistics_shared : forall influence radius rate threshold rows cols conn before after h h' s',
  train_often influence radius rate threshold rows cols conn before (share (rows * cols)) = Ok h ->
  train_often influence radius rate threshold rows cols conn after h = Ok h' ->
  read h' = Some s' ->
  h_heap h' (h_award h) = Some (CNumbers (s_award s')) /\ h_heap h' (h_captured h) = Some (CLists (s_captured s')).
Proof.
  intros influence radius rate threshold rows cols conn before after h h' s' E1 E2 R.
  assert (A : h_award h' = h_award h /\ h_captured h' = h_captured h).
  { clear E1 R. revert h E2. induction after as [|[[[init data] epochs] autostop] after IH]; cbn [train_often]; intros h E.
    - apply Ok_inj in E. subst. auto.
    - destruct (train_shared _ _ _ _ _ _ _ _ _ _ _ h) as [h1|e] eqn:E1; cbn [bind] in E; [|discriminate].
      destruct (IH h1 E) as [-> ->]. unfold train_shared in E1. destruct (read h); [|discriminate].
      destruct (train _ _ _ _ _ _ _ _ _ _ _ _) as [r|e]; cbn [bind] in E1; [|discriminate].
      apply Ok_inj in E1. subst h1. auto. }
  destruct A as [<- <-]. unfold read in R.
  destruct (h_heap h' (h_weights h')) as [[w| |]|]; try discriminate.
  destruct (h_heap h' (h_award h')) as [[| a|]|]; try discriminate.
  destruct (h_heap h' (h_captured h')) as [[| | c]|]; try discriminate.
  injection R as <-. auto.
Qed.
Print Assumptions C221_statistics_shared.

(** Hence a report kept from before a training changes under the user's hands. *)
Theorem C221_reports_stay_refuted : exists influence radius rate threshold rows cols conn before after h h',
  train_often influence radius rate threshold rows cols conn before (share (rows * cols)) = Ok h /\
  train_often influence radius rate threshold rows cols conn after h = Ok h' /\
  h_heap h (h_award h) = Some (CNumbers [2; 5]) /\ h_heap h' (h_award h) = Some (CNumbers [1; 1]) /\
  h_heap h (h_captured h) = Some (CLists [[1; 6]; [0; 2; 3; 4; 5]]) /\ h_heap h' (h_captured h) = Some (CLists [[0]; [1]]).
Proof.
  exists half, (fun _ _ => 1 # 2)%Q, (fun _ _ => 1 # 2)%Q, (1 # 1000)%Q, 1, 2, SGridFour,
    [(UniformGrid, case_data, 2, false)], [(UniformGrid, [[0; 0]; [0; 9]]%Q, 1, false)].
  eexists. eexists. split; [vm_compute; reflexivity|]. split; [vm_compute; reflexivity|].
  vm_compute. repeat split.
Qed.
Print Assumptions C221_reports_stay_refuted.

(** ** C222 The matrix of winners *)

(** The square in column x and row y shows the awards of neuron (y, x) … *)
Theorem C222_squares_partial : forall o x y, x < o_cols o -> y < o_rows o ->
  w_square (show_winner_matrix o) x y = Some (nth (y * o_cols o + x) (s_award (o_state o)) 0).
Proof.
  intros o x y Hx Hy. unfold show_winner_matrix. cbn [w_square].
  rewrite (map_nth_error _ y (seq 0 (o_rows o)) (d := y)).
  - rewrite (map_nth_error _ x (seq 0 (o_cols o)) (d := x)); [reflexivity|].
    rewrite (nth_error_nth' _ 0) by (rewrite seq_length; lia). rewrite seq_nth by lia. reflexivity.
  - rewrite (nth_error_nth' _ 0) by (rewrite seq_length; lia). rewrite seq_nth by lia. reflexivity.
Qed.
Print Assumptions C222_squares_partial.

(** … but the number written there is that of neuron (x, y). *)
Theorem C222_texts_transposed : forall o x y n,
  In (x, y, n) (w_texts (show_winner_matrix o)) <->
  x < o_rows o /\ y < o_cols o /\ n = nth (x * o_cols o + y) (s_award (o_state o)) 0.
Proof.
  intros o x y n. unfold show_winner_matrix. cbn [w_texts]. rewrite in_flat_map. split.
  - intros (i & Hi & H). apply in_map_iff in H. destruct H as (j & E & Hj). injection E as -> -> <-.
    apply in_seq in Hi. apply in_seq in Hj. repeat split; lia.
  - intros (Hx & Hy & ->). exists x. split; [apply in_seq; lia|]. apply in_map_iff. exists y. split; [reflexivity|apply in_seq; lia].
Qed.
Print Assumptions C222_texts_transposed.

(** So the numbers fit the squares exactly for square maps whose awards are
    symmetric. *)
Theorem C222_texts_fit : forall o,
  (forall x y n, In (x, y, n) (w_texts (show_winner_matrix o)) -> w_square (show_winner_matrix o) x y = Some n) <->
  (0 < o_rows o * o_cols o -> o_rows o = o_cols o) /\
  (forall x y, x < o_rows o -> y < o_cols o ->
     nth (x * o_cols o + y) (s_award (o_state o)) 0 = nth (y * o_cols o + x) (s_award (o_state o)) 0).
Proof.
  intros o.
  assert (W : forall x y, w_square (show_winner_matrix o) x y <> None -> x < o_cols o /\ y < o_rows o).
  { intros x y. unfold show_winner_matrix. cbn [w_square].
    destruct (nth_error (map _ (seq 0 (o_rows o))) y) as [row|] eqn:E; [|congruence].
    intros H. split.
    - apply nth_error_In in E. apply in_map_iff in E. destruct E as (i & <- & _).
      apply nth_error_Some in H. rewrite map_length, seq_length in H. exact H.
    - assert (L : y < length (map (fun i : nat => map (fun j => nth (i * o_cols o + j) (s_award (o_state o)) 0) (seq 0 (o_cols o))) (seq 0 (o_rows o)))).
      { apply nth_error_Some. rewrite E. discriminate. }
      rewrite map_length, seq_length in L. exact L. }
  split.
  - intros H.
    assert (B : forall x y, x < o_rows o -> y < o_cols o -> x < o_cols o /\ y < o_rows o).
    { intros x y Hx Hy. apply W. rewrite (H x y _ (proj2 (C222_texts_transposed o x y _) (conj Hx (conj Hy eq_refl)))). discriminate. }
    split.
    + intros P. destruct (Nat.eq_dec (o_rows o) (o_cols o)) as [E|N]; [exact E|].
      destruct (B (o_rows o - 1) (o_cols o - 1)) as [B1 B2]; lia.
    + intros x y Hx Hy. destruct (B x y Hx Hy) as [B1 B2].
      assert (E := H x y _ (proj2 (C222_texts_transposed o x y _) (conj Hx (conj Hy eq_refl)))).
      rewrite (C222_squares_partial o x y B1 B2) in E. congruence.
  - intros [S T] x y n Hn. apply C222_texts_transposed in Hn. destruct Hn as (Hx & Hy & ->).
    assert (P : o_rows o = o_cols o) by (apply S; nia).
    rewrite (C222_squares_partial o x y) by lia. rewrite (T x y Hx Hy). reflexivity.
Qed.
Print Assumptions C222_texts_fit.

Example C222_case : o_rows (new_som 2 2 SGridFour) * o_cols (new_som 2 2 SGridFour) = 4 /\
  forall x y n, In (x, y, n) (w_texts (show_winner_matrix (new_som 2 2 SGridFour))) ->
    w_square (show_winner_matrix (new_som 2 2 SGridFour)) x y = Some n.
Proof.
  split; [reflexivity|]. intros x y n H. cbn in H.
  repeat (destruct H as [H|H]; [injection H as <- <- <-; reflexivity|]). contradiction.
Qed.

Theorem C222_texts_refuted : exists influence radius rate threshold o x y n m,
  lives influence radius rate threshold o /\
  In (x, y, n) (w_texts (show_winner_matrix o)) /\ w_square (show_winner_matrix o) x y = Some m /\ n <> m.
Proof.
  exists half, (fun _ _ => 1 # 2)%Q, (fun _ _ => 1 # 2)%Q, (1 # 1000)%Q.
  exists (snd (invoke half (fun _ _ => 1 # 2)%Q (fun _ _ => 1 # 2)%Q (1 # 1000)
                (Train UniformGrid [[0; 0]; [0; 8]; [0; 8]; [8; 0]; [8; 8]; [0; 7]]%Q 1 false) (new_som 2 2 SFuncNeighbor))).
  exists 0, 1. eexists. eexists. split; [apply lives_call, lives_new|]. split; [vm_compute; right; left; reflexivity|].
  split; [vm_compute; reflexivity|]. vm_compute. discriminate.
Qed.
Print Assumptions C222_texts_refuted.

(** ** C223 The picture of the network *)

Definition is_mark (d : drawn) : bool := match d with Mark _ _ => true | _ => false end.
Definition is_line (d : drawn) : bool := match d with Line _ _ _ => true | _ => false end.
Definition is_label (c : colour) (d : drawn) : bool :=
  match d, c with Label _ _ Blue, Blue => true | Label _ _ Black, Black => true | _, _ => false end.

Lemma filter_flat_map {A B} (p : B -> bool) (f : A -> list B) l :
  filter p (flat_map f l) = flat_map (fun a => filter p (f a)) l.
Proof. induction l as [|a l IH]; cbn; [reflexivity|]. rewrite filter_app, IH. reflexivity. Qed.
Lemma filter_none {B} (p : B -> bool) l : (forall b, In b l -> p b = false) -> filter p l = [].
Proof. induction l as [|b l IH]; cbn; intros H; [reflexivity|]. rewrite (H b) by auto. apply IH. auto. Qed.
Lemma filter_all {B} (p : B -> bool) l : (forall b, In b l -> p b = true) -> filter p l = l.
Proof. induction l as [|b l IH]; cbn; intros H; [reflexivity|]. rewrite (H b) by auto. f_equal. apply IH. auto. Qed.
Lemma flat_map_single {A B} (f : A -> B) l : flat_map (fun a => [f a]) l = map f l.
Proof. induction l as [|a l IH]; cbn; [reflexivity|]. rewrite IH. reflexivity. Qed.
Lemma flat_map_ext' {A B} (f g : A -> list B) l : (forall a, In a l -> f a = g a) -> flat_map f l = flat_map g l.
Proof.
  induction l as [|a l IH]; intros H; [reflexivity|]. cbn [flat_map]. f_equal; [apply H; left; reflexivity|].
  apply IH. intros b Hb. apply H. right. exact Hb.
Qed.

Lemma map_nth_seq {A B} (f : A -> B) (l : list A) d : map (fun k => f (nth k l d)) (seq 0 (length l)) = map f l.
Proof.
  induction l as [|a l IH]; [reflexivity|]. cbn [length seq map]. f_equal. rewrite <- seq_shift, map_map. exact IH.
Qed.

Lemma labels_are awards belongs dimension data s index d :
  In d (neuron_labels awards belongs dimension data s index) -> is_mark d = false /\ is_line d = false.
Proof.
  unfold neuron_labels. destruct (3 <=? dimension); [contradiction|]. rewrite in_app_iff. intros [H|H].
  - destruct awards; [|contradiction]. destruct H as [<-|[]]. auto.
  - destruct data as [points|]; [|contradiction]. destruct belongs; [|contradiction].
    destruct H as [<-|H]; [auto|]. apply in_map_iff in H. destruct H as (k & <- & _). auto.
Qed.
Lemma lines_are coupling dimension o index d : In d (neuron_lines coupling dimension o index) -> is_line d = true.
Proof.
  unfold neuron_lines. destruct (dimension =? 1); [contradiction|].
  destruct (o_conn o); try contradiction; (destruct coupling; [|contradiction]); intros H;
    apply in_map_iff in H; destruct H as (k & <- & _); auto.
Qed.

(** what the theorems are about: a map with as many weights as neurons, in a
    space of one to three dimensions *)
Definition shown_in (dimension : nat) (o : som) : Prop :=
  1 <= dimension <= 3 /\ 0 < o_rows o * o_cols o /\ length (s_weights (o_state o)) = o_rows o * o_cols o /\
  (forall w, In w (s_weights (o_state o)) -> length w = dimension).

Lemma show_network_ok awards belongs coupling dataset dimension o data : shown_in dimension o -> o_data o = Set_ data ->
  show_network awards belongs coupling dataset o =
  Ok ((match data with
       | Some points => if dataset then map (fun x => Mark (place dimension x) Blue) points else []
       | None => []
       end) ++
      flat_map (fun index => neuron_mark dimension (o_state o) index ::
                 neuron_labels awards belongs dimension data (o_state o) index ++ neuron_lines coupling dimension o index)
        (seq 0 (o_rows o * o_cols o))).
Proof.
  intros (H1 & H2 & H3 & H4) D. unfold show_network.
  destruct (s_weights (o_state o)) as [|w ws] eqn:E; [cbn in H3; lia|].
  rewrite (H4 w) by (left; reflexivity). rewrite D.
  destruct dimension as [|[|[|[|n]]]]; try lia; reflexivity.
Qed.

(** Every object and every neuron is drawn exactly once, at its place; a neuron
    is green if it won an object in the last training, otherwise yellow. *)
Theorem C223_marks : forall awards belongs coupling dimension o points,
  shown_in dimension o -> o_data o = Set_ (Some points) ->
  exists picture, show_network awards belongs coupling true o = Ok picture /\
    filter is_mark picture =
    map (fun x => Mark (place dimension x) Blue) points ++
    map (fun i => Mark (place dimension (nth i (s_weights (o_state o)) []))
                    (if nth i (s_award (o_state o)) 0 =? 0 then Yellow else Green)) (seq 0 (o_rows o * o_cols o)).
Proof.
  intros awards belongs coupling dimension o points H D.
  rewrite (show_network_ok awards belongs coupling true dimension o _ H D). eexists. split; [reflexivity|].
  rewrite filter_app, filter_flat_map. f_equal.
  - apply filter_all. intros b Hb. apply in_map_iff in Hb. destruct Hb as (x & <- & _). reflexivity.
  - rewrite <- (flat_map_single _ (seq 0 (o_rows o * o_cols o))). apply flat_map_ext'. intros i _.
    cbn [filter neuron_mark is_mark]. unfold neuron_mark. cbn [is_mark]. f_equal. apply filter_none. intros b Hb.
    apply in_app_iff in Hb. destruct Hb as [Hb|Hb].
    + apply labels_are in Hb. tauto.
    + apply lines_are in Hb. destruct b; cbn in *; congruence.
Qed.
Print Assumptions C223_marks.

(** In two and three dimensions every connection of the map is drawn exactly
    once: the lines are those of a list of pairs of neurons without repetitions
    that consists of the neighbouring pairs of C38. *)
Theorem C223_lines_partial : forall influence radius rate threshold awards belongs dataset dimension o picture,
  lives influence radius rate threshold o -> shown_in dimension o -> 2 <= dimension -> o_conn o <> SFuncNeighbor ->
  show_network awards belongs true dataset o = Ok picture ->
  exists pairs, NoDup pairs /\
    (forall i j, In (i, j) pairs <-> i < j < o_rows o * o_cols o /\
                                     adjacent (o_conn o) (Z.of_nat (o_cols o)) (Z.of_nat i) (Z.of_nat j)) /\
    filter is_line picture =
    map (fun ij => Line (place dimension (nth (fst ij) (s_weights (o_state o)) []))
                        (place dimension (nth (snd ij) (s_weights (o_state o)) [])) Green) pairs.
Proof.
  intros influence radius rate threshold awards belongs dataset dimension o picture L H Hd Hc E.
  assert (C := lives_connected _ _ _ _ _ L Hc).
  destruct (o_data o) as [|data] eqn:D.
  { exfalso. revert E. unfold show_network. destruct H as (H1 & H2 & H3 & H4).
    destruct (s_weights (o_state o)) as [|w ws]; [discriminate|]. rewrite D.
    destruct ((1 <=? length w) && (length w <=? 3)); discriminate. }
  rewrite (show_network_ok awards belongs true dataset dimension o data H D) in E. apply Ok_inj in E. subst picture.
  set (nb := fun i => map Z.to_nat (filter (fun j => (Z.of_nat i <? j)%Z) (nth i (som_create_connections (o_conn o) (o_rows o) (o_cols o)) []))).
  exists (flat_map (fun i => map (pair i) (nb i)) (seq 0 (o_rows o * o_cols o))).
  assert (N : forall i j, i < o_rows o * o_cols o ->
            (In j (nb i) <-> i < j < o_rows o * o_cols o /\ adjacent (o_conn o) (Z.of_nat (o_cols o)) (Z.of_nat i) (Z.of_nat j))).
  { intros i j Hi. destruct (C38_som_neighbours_exact (o_conn o) (o_rows o) (o_cols o) i Hi) as [_ X].
    unfold nb. rewrite in_map_iff. split.
    - intros (z & <- & Hz). apply filter_In in Hz. destruct Hz as [Hz Hlt]. apply Z.ltb_lt in Hlt.
      apply X in Hz. destruct Hz as [Hr Ha]. rewrite Z2Nat.id by lia. split; [lia|exact Ha].
    - intros [Hij Ha]. exists (Z.of_nat j). split; [apply Nat2Z.id|]. apply filter_In. split; [|apply Z.ltb_lt; lia].
      apply X. split; [lia|exact Ha]. }
  assert (ND : forall i, i < o_rows o * o_cols o -> NoDup (nb i)).
  { intros i Hi. destruct (C38_som_neighbours_exact (o_conn o) (o_rows o) (o_cols o) i Hi) as [X _].
    unfold nb. apply (NoDup_filter (fun j => (Z.of_nat i <? j)%Z)) in X. revert X.
    assert (P : forall z, In z (filter (fun j => (Z.of_nat i <? j)%Z) (nth i (som_create_connections (o_conn o) (o_rows o) (o_cols o)) [])) -> (0 <= z)%Z).
    { intros z Hz. apply filter_In in Hz. destruct Hz as [_ Hz]. apply Z.ltb_lt in Hz. lia. }
    revert P. generalize (filter (fun j => (Z.of_nat i <? j)%Z) (nth i (som_create_connections (o_conn o) (o_rows o) (o_cols o)) [])).
    induction l as [|z l IH]; intros P X; cbn; [constructor|]. inversion X as [|? ? X1 X2]; subst.
    constructor; [|apply IH; auto; intros; apply P; right; auto].
    intros Y. apply in_map_iff in Y. destruct Y as (y & Ey & Hy). apply X1.
    replace z with y; [exact Hy|]. apply Z2Nat.inj; auto; apply P; [right|left]; auto. }
  split; [|split].
  - assert (G : forall l, NoDup l -> (forall i, In i l -> i < o_rows o * o_cols o) -> NoDup (flat_map (fun i => map (pair i) (nb i)) l)).
    { induction l as [|i l IH]; intros X B; cbn; [constructor|]. inversion X as [|? ? X1 X2]; subst.
      apply NoDup_app_intro.
      - apply FinFun.Injective_map_NoDup; [intros a b Q; congruence|]. apply ND. apply B. left. reflexivity.
      - apply IH; auto. intros; apply B; right; auto.
      - intros [a b] Ha Hb. apply in_map_iff in Ha. destruct Ha as (? & Q & _). injection Q as <- <-.
        apply in_flat_map in Hb. destruct Hb as (k & Hk & Q). apply in_map_iff in Q. destruct Q as (? & Q & _). injection Q as -> ->. contradiction. }
    apply G; [apply seq_NoDup|]. intros i Hi. apply in_seq in Hi. lia.
  - intros i j. rewrite in_flat_map. split.
    + intros (k & Hk & Q). apply in_map_iff in Q. destruct Q as (? & Q & Hn). injection Q as -> ->.
      apply in_seq in Hk. apply N in Hn; [exact Hn|lia].
    + intros Q. exists i. assert (Hi : i < o_rows o * o_cols o) by lia. split; [apply in_seq; lia|].
      apply in_map. apply N; auto.
  - rewrite filter_app, filter_flat_map. rewrite filter_none.
    + cbn [app]. rewrite !flat_map_concat_map, concat_map, !map_map. f_equal. apply map_ext_in. intros i Hi. apply in_seq in Hi.
      cbn [filter is_line neuron_mark]. unfold neuron_mark. cbn [is_line]. rewrite filter_app. rewrite filter_none.
      * cbn [app]. rewrite filter_all by (intros b Hb; eapply lines_are; eauto).
        unfold neuron_lines. destruct (Nat.eqb_spec dimension 1) as [Q|_]; [lia|]. rewrite C.
        unfold nb. rewrite !map_map. destruct (o_conn o); try reflexivity. congruence.
      * intros b Hb. apply labels_are in Hb. tauto.
    + intros b Hb. destruct data as [points|]; [|contradiction]. destruct dataset; [|contradiction].
      apply in_map_iff in Hb. destruct Hb as (x & <- & _). reflexivity.
Qed.
Print Assumptions C223_lines_partial.

(** In one and two dimensions the number of the winner stands at every object:
    there is one blue label per object, with the number of the neuron that
    captured it. *)
Theorem C223_belongs_partial : forall awards coupling dataset dimension o points,
  shown_in dimension o -> dimension <= 2 -> o_data o = Set_ (Some points) ->
  captured_once (o_rows o * o_cols o) (length points) (s_award (o_state o)) (s_captured (o_state o)) ->
  exists picture pairs, show_network awards true coupling dataset o = Ok picture /\
    Permutation (map snd pairs) (seq 0 (length points)) /\
    (forall i k, In (i, k) pairs -> In k (nth i (s_captured (o_state o)) [])) /\
    filter (is_label Blue) picture = map (fun ik => Label (place dimension (nth (snd ik) points [])) (fst ik) Blue) pairs.
Proof.
  intros awards coupling dataset dimension o points H Hd D (L & P & _).
  rewrite (show_network_ok awards true coupling dataset dimension o _ H D).
  eexists. exists (flat_map (fun i => map (pair i) (nth i (s_captured (o_state o)) [])) (seq 0 (o_rows o * o_cols o))).
  split; [reflexivity|]. split; [|split].
  - apply Permutation_trans with (2 := P). rewrite <- L.
    replace (map snd _) with (concat (map (fun i => nth i (s_captured (o_state o)) []) (seq 0 (length (s_captured (o_state o)))))).
    + rewrite (map_nth_seq (fun l => l)), map_id. apply Permutation_refl.
    + rewrite flat_map_concat_map, concat_map, map_map. f_equal. apply map_ext. intros i. rewrite map_map. cbn [snd]. symmetry. apply map_id.
  - intros i k Q. apply in_flat_map in Q. destruct Q as (j & _ & Q). apply in_map_iff in Q. destruct Q as (? & Q & Hk).
    injection Q as -> ->. exact Hk.
  - rewrite filter_app, filter_flat_map, filter_none.
    + cbn [app]. rewrite !flat_map_concat_map, concat_map, !map_map. f_equal. apply map_ext_in. intros i _.
      cbn [filter is_label neuron_mark]. unfold neuron_mark. cbn [is_label]. rewrite filter_app.
      rewrite (filter_none _ (neuron_lines coupling dimension o i)), app_nil_r.
      * unfold neuron_labels. destruct (Nat.leb_spec 3 dimension) as [Q|_]; [lia|].
        rewrite map_map. cbn [fst snd].
        rewrite filter_app, filter_none, app_nil_l.
        -- cbn [filter is_label]. apply filter_all. intros b Hb. apply in_map_iff in Hb. destruct Hb as (x & <- & _). reflexivity.
        -- intros b Hb. destruct awards; [|contradiction]. destruct Hb as [<-|[]]. reflexivity.
      * intros b Hb. apply lines_are in Hb. destruct b; cbn in *; congruence.
    + intros b Hb. destruct dataset; [|contradiction]. apply in_map_iff in Hb. destruct Hb as (x & <- & _). reflexivity.
Qed.
Print Assumptions C223_belongs_partial.

(** … and the number of awards stands at every neuron. *)
Theorem C223_awards_partial : forall coupling dataset dimension o data,
  shown_in dimension o -> dimension <= 2 -> o_data o = Set_ data ->
  exists picture, show_network true false coupling dataset o = Ok picture /\
    filter (is_label Black) picture =
    map (fun i => Label (place dimension (nth i (s_weights (o_state o)) [])) (nth i (s_award (o_state o)) 0) Black)
      (seq 0 (o_rows o * o_cols o)).
Proof.
  intros coupling dataset dimension o data H Hd D.
  rewrite (show_network_ok true false coupling dataset dimension o _ H D). eexists. split; [reflexivity|].
  rewrite filter_app, filter_flat_map, filter_none.
  - cbn [app]. rewrite <- (flat_map_single _ (seq 0 (o_rows o * o_cols o))). apply flat_map_ext'. intros i _.
    cbn [filter is_label neuron_mark]. unfold neuron_mark. cbn [is_label]. rewrite filter_app.
    rewrite (filter_none _ (neuron_lines coupling dimension o i)), app_nil_r.
    + unfold neuron_labels. destruct (Nat.leb_spec 3 dimension) as [Q|_]; [lia|]. destruct data; reflexivity.
    + intros b Hb. apply lines_are in Hb. destruct b; cbn in *; congruence.
  - intros b Hb. destruct data as [points|]; [|contradiction]. destruct dataset; [|contradiction].
    apply in_map_iff in Hb. destruct Hb as (x & <- & _). reflexivity.
Qed.
Print Assumptions C223_awards_partial.

(** What was asked for is not always drawn: no connection in one dimension, no
    number in three. *)
Theorem C223_line_connections_refuted : exists influence radius rate threshold o picture,
  lives influence radius rate threshold o /\ shown_in 1 o /\ adjacent (o_conn o) (Z.of_nat (o_cols o)) 0 1 /\
  show_network false false true true o = Ok picture /\ filter is_line picture = [].
Proof.
  exists half, (fun _ _ => 1 # 2)%Q, (fun _ _ => 1 # 2)%Q, (1 # 1000)%Q.
  exists (snd (invoke half (fun _ _ => 1 # 2)%Q (fun _ _ => 1 # 2)%Q (1 # 1000)
                (Train UniformGrid [[0]; [8]]%Q 1 false) (new_som 2 1 SGridFour))).
  eexists. split; [apply lives_call, lives_new|]. split.
  { split; [lia|]. split; [vm_compute; lia|]. split; [vm_compute; reflexivity|].
    intros w Hw. vm_compute in Hw. repeat (destruct Hw as [<-|Hw]; [reflexivity|]). contradiction. }
  split; [vm_compute; reflexivity|]. split; [vm_compute; reflexivity|vm_compute; reflexivity].
Qed.
Print Assumptions C223_line_connections_refuted.

Theorem C223_space_numbers_refuted : exists influence radius rate threshold o picture,
  lives influence radius rate threshold o /\ shown_in 3 o /\
  show_network true true true true o = Ok picture /\
  filter (is_label Blue) picture = [] /\ filter (is_label Black) picture = [].
Proof.
  exists half, (fun _ _ => 1 # 2)%Q, (fun _ _ => 1 # 2)%Q, (1 # 1000)%Q.
  exists (snd (invoke half (fun _ _ => 1 # 2)%Q (fun _ _ => 1 # 2)%Q (1 # 1000)
                (Train UniformGrid [[0; 0; 0]; [8; 8; 8]]%Q 1 false) (new_som 2 1 SGridFour))).
  eexists. split; [apply lives_call, lives_new|]. split.
  { split; [lia|]. split; [vm_compute; lia|]. split; [vm_compute; reflexivity|].
    intros w Hw. vm_compute in Hw. repeat (destruct Hw as [<-|Hw]; [reflexivity|]). contradiction. }
  split; [vm_compute; reflexivity|]. split; vm_compute; reflexivity.
Qed.
Print Assumptions C223_space_numbers_refuted.

Lemma trained_shown : shown_in 2 trained.
Proof.
  split; [lia|]. split; [vm_compute; lia|]. split; [vm_compute; reflexivity|].
  intros w Hw. vm_compute in Hw. repeat (destruct Hw as [<-|Hw]; [reflexivity|]). contradiction.
Qed.

Example C223_case : shown_in 2 trained /\ o_data trained = Set_ (Some case_data) /\
  o_conn trained <> SFuncNeighbor /\ s_captured (o_state trained) = [[1; 6]; [0; 2; 3; 4; 5]] /\
  exists picture, show_network false true true true trained = Ok picture /\ length (filter is_mark picture) = 9 /\
    length (filter is_line picture) = 1 /\ length (filter (is_label Blue) picture) = 7.
Proof.
  split; [exact trained_shown|]. split; [vm_compute; reflexivity|]. split; [vm_compute; discriminate|]. split; [vm_compute; reflexivity|].
  eexists. split; [vm_compute; reflexivity|]. repeat split.
Qed.
