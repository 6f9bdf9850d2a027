(** C256 networks that live in the C++ library. *)
From Verif Require Import Base Topology_Model Order_Model Netpic_Model Codec_Model Codec_Proofs Ensembles_Model Wrapper_Model Wrapper_Props Libnet_Model.
From Coq Require Import Reals Lra.
Open Scope nat_scope.

Definition sensible (o : object) : Prop := o_num o = r_size (o_remote o) /\ (o_matrix o = None \/ o_matrix o = Some (sync_connectivity_matrix (o_remote o))).
Lemma matrix_of o : sensible o -> o_matrix (with_matrix o) = Some (sync_connectivity_matrix (o_remote o)).
Proof. intros [_ [H|H]]; unfold with_matrix; rewrite H; auto. Qed.
Lemma lookup_in o i j : sensible o -> i < r_size (o_remote o) -> j < r_size (o_remote o) -> lookup (with_matrix o) i j = Ok (CNumber (if r_conn (o_remote o) i j then 1 else 0)%Q).
Proof.
  intros S Hi Hj. unfold lookup. rewrite (matrix_of o S). unfold sync_connectivity_matrix.
  rewrite (map_nth_error _ i (seq 0 (r_size (o_remote o))) (d := i)); [|rewrite (nth_error_nth' _ 0), seq_nth by (rewrite ?seq_length; auto); reflexivity].
  rewrite (map_nth_error _ j (seq 0 (r_size (o_remote o))) (d := j)); [reflexivity|]. rewrite (nth_error_nth' _ 0), seq_nth by (rewrite ?seq_length; auto). reflexivity.
Qed.
(** every call keeps the object as it was, but for the matrix: so the answers do not depend on earlier calls *)
Lemma connection_sensible o i j : sensible o -> sensible (fst (connection o i j)) /\ o_remote (fst (connection o i j)) = o_remote o.
Proof. intros [H [E|E]]; unfold connection, with_matrix; cbn [fst]; rewrite E; cbn; unfold sensible; cbn; auto. Qed.
Lemma fresh_sensible r sample : length sample = r_size r -> sensible (sync_by_library r) /\ sensible (syncnet_by_library r sample).
Proof. intros H. split; split; cbn; auto. Qed.

(** The value that has_connection returns is 1.0 or 0.0: equal to True exactly for connected oscillators, but never True itself. *)
Theorem C256_value o i j : sensible o -> i < r_size (o_remote o) -> j < r_size (o_remote o) ->
  exists c, snd (connection o i j) = Ok c /\ eq_true c = r_conn (o_remote o) i j /\ is_true c = false.
Proof. intros S Hi Hj. eexists. split; [apply lookup_in; auto|]. destruct (r_conn _ _ _); split; reflexivity. Qed.
Print Assumptions C256_value.
Theorem C256_neighbors o i : sensible o -> i < r_size (o_remote o) ->
  exists l, snd (neighbors o i) = Ok l /\ NoDup l /\ (forall a b l1 l2 l3, l = l1 ++ a :: l2 ++ b :: l3 -> a < b) /\ forall j, In j l <-> j < r_size (o_remote o) /\ r_conn (o_remote o) i j = true.
Proof.
  intros S Hi. destruct S as [S S']. assert (S0 : sensible o) by (split; auto). unfold neighbors. cbn [snd]. rewrite S.
  assert (K : forall js, (forall j, In j js -> j < r_size (o_remote o)) -> neighbors_from (with_matrix o) i js = Ok (filter (r_conn (o_remote o) i) js)).
  { induction js as [|j js IH]; intros H; auto. cbn [neighbors_from filter]. rewrite lookup_in by (auto; apply H; left; auto). cbn [bind]. rewrite IH by (intros; apply H; right; auto). cbn [bind]. destruct (r_conn (o_remote o) i j); reflexivity. }
  rewrite K by (intros j Hj; apply in_seq in Hj; lia). eexists. split; [reflexivity|]. split; [apply NoDup_filter, seq_NoDup|]. split; [|intros j; rewrite filter_In, in_seq; split; intros; intuition lia].
  intros a b l1 l2 l3. generalize (r_size (o_remote o)) as n, 0 as s. intros n. revert l1. induction n as [|n IH]; intros l1 s E; [destruct l1; discriminate|]. cbn [seq filter] in E.
  destruct (r_conn (o_remote o) i s); [|apply (IH l1 (Datatypes.S s)); auto]. destruct l1 as [|x l1]; [|injection E as _ E; apply (IH l1 (Datatypes.S s)); auto].
  injection E as <- E. assert (B : In b (filter (r_conn (o_remote o) i) (seq (Datatypes.S s) n))) by (rewrite E; apply in_or_app; right; left; auto). apply filter_In in B as [B _]. apply in_seq in B. lia.
Qed.
Print Assumptions C256_neighbors.
(** A second question gets the same answer. *)
Theorem C256_again o i j i' j' : sensible o -> i < r_size (o_remote o) -> j < r_size (o_remote o) -> snd (connection (fst (connection o i' j')) i j) = snd (connection o i j) /\ snd (neighbors (fst (connection o i' j')) i) = snd (neighbors o i).
Proof.
  intros S Hi Hj. destruct (connection_sensible o i' j' S) as [S' R]. split.
  - unfold connection at 1 3. cbn [snd]. rewrite !lookup_in; auto; rewrite R; auto.
  - unfold connection, neighbors. cbn [fst snd]. assert (W : with_matrix (with_matrix o) = with_matrix o) by (unfold with_matrix; destruct (o_matrix o) eqn:E; [rewrite E|cbn]; auto). rewrite W. unfold with_matrix. destruct (o_matrix o); reflexivity.
Qed.
Print Assumptions C256_again.
Theorem C256_length r sample : len (sync_by_library r) = r_size r /\ len (syncnet_by_library r sample) = length sample.
Proof. split; reflexivity. Qed.
Print Assumptions C256_length.

(** No pair counts as connected where [is True] is used. *)
Lemma nobody o i j : sensible o -> is_connected o i j = false.
Proof.
  intros S. unfold is_connected, connection. cbn [snd]. unfold lookup. rewrite (matrix_of o S). destruct (nth_error _ i) as [row|] eqn:E; auto. apply nth_error_In in E. unfold sync_connectivity_matrix in E. apply in_map_iff in E as (x & <- & _).
  destruct (nth_error _ j) as [c|] eqn:E'; auto. apply nth_error_In, in_map_iff in E' as (y & <- & _). reflexivity.
Qed.
(** so the local order is always 0, however synchronous and connected the network is (for a python network it is positive as soon as there is a connection: C122), *)
Theorem C256_order_zero o phases : sensible o -> local_order phases o = 0%R.
Proof.
  intros S. unfold local_order, calculate_local_sync_order. assert (P : connected_pairs (len o) (is_connected o) = []).
  { unfold connected_pairs. induction (list_prod _ _) as [|x l IH]; auto. cbn [filter]. rewrite nobody by auto. exact IH. }
  rewrite P. unfold rsum. cbn [map fold_left length Nat.eqb]. unfold Rdiv. apply Rmult_0_l.
Qed.
Print Assumptions C256_order_zero.
(** and the picture of a network has dots only. *)
Theorem C256_dots_only r sample marks : length sample = r_size r -> show (syncnet_by_library r sample) = Ok marks -> forall m, In m marks -> exists p, m = Dot p.
Proof.
  intros H. pose proof (proj2 (fresh_sensible r sample H)) as S. unfold show. cbn [o_locs syncnet_by_library o_num]. destruct (dimension_of sample) as [d|]; [|discriminate]. cbn [bind]. fold (syncnet_by_library r sample).
  generalize (seq 0 (length sample)) as places. intros places. revert marks. induction places as [|i t IH]; intros marks E; cbn [draw] in E; [apply Ok_inj in E; subst; intros m []|].
  destruct (location sample i) as [q|]; [|discriminate]. cbn [bind] in E. destruct (place d q) as [q'|]; [|discriminate]. cbn [bind] in E.
  assert (F : filter (is_connected (syncnet_by_library r sample) i) (seq i (length sample - i)) = []) by (clear - S; induction (seq i (length sample - i)) as [|x l IHl]; auto; cbn [filter]; rewrite nobody by auto; exact IHl).
  rewrite F in E. cbn [lines bind] in E. destruct (draw d sample _ t) as [rest|] eqn:D; [|discriminate]. cbn [bind app] in E. apply Ok_inj in E. subst marks. intros m [<-|Hm]; [eauto|]. apply (IH rest); auto.
Qed.
Print Assumptions C256_dots_only.
Definition pair_net : remote := mkRemote 2 (fun i j => negb (i =? j)).
Theorem C256_order_refuted : exists r phases, calculate_local_sync_order phases (r_size r) (r_conn r) = 1%R /\ local_order phases (sync_by_library r) = 0%R.
Proof.
  exists pair_net, [1%R; 1%R]. split; [|apply C256_order_zero; apply (fresh_sensible pair_net [[0%Q]; [1%Q]]); auto].
  unfold calculate_local_sync_order. assert (P : connected_pairs (r_size pair_net) (r_conn pair_net) = [(0, 1); (1, 0)]) by reflexivity. rewrite P.
  unfold rsum, rlen. cbn [map fold_left fst snd nth length Nat.eqb INR]. rewrite !(Rminus_diag_eq 1 1), Rabs_R0, Ropp_0, exp_0 by auto. lra.
Qed.
Print Assumptions C256_order_refuted.
Theorem C256_picture_refuted : exists r sample, r_conn r 0 1 = true /\ length sample = r_size r /\ show (syncnet_by_library r sample) = Ok [Dot [0; 0]%Q; Dot [1; 0]%Q].
Proof. exists pair_net, [[0; 0]%Q; [1; 0]%Q]. repeat split; reflexivity. Qed.
Print Assumptions C256_picture_refuted.
Theorem C256_hsyncnet_refuted : exists r, r_size r = 2 /\ len (hsyncnet_by_library r) = 0 /\ show (hsyncnet_by_library r) = Raise AttributeError.
Proof. exists pair_net. repeat split; reflexivity. Qed.
Print Assumptions C256_hsyncnet_refuted.
(** height, width and structure of a grid are unknown to the object *)
Theorem C256_grid_refuted : exists n net r, network_init n CGridFour RMatrix None = Ok net /\ n_height net = 2 /\ n_type net = CGridFour /\ r_size r = n /\ (forall i j, r_conn r i j = has_connection net i j) /\
  o_height (sync_by_library r) = 0 /\ o_width (sync_by_library r) = 0 /\ o_structure (sync_by_library r) = None.
Proof. exists 4. eexists. exists (mkRemote 4 (fun i j => match network_init 4 CGridFour RMatrix None with Ok net => has_connection net i j | Raise _ => false end)). repeat split; reflexivity. Qed.
Print Assumptions C256_grid_refuted.
Example C256_example : sensible (sync_by_library pair_net) /\ snd (neighbors (sync_by_library pair_net) 0) = Ok [1] /\ snd (connection (sync_by_library pair_net) 0 1) = Ok (CNumber 1).
Proof. split; [split; auto|split; reflexivity]. Qed.

(** ** C257.  Outputs in the library: the state that is asked for, and the names of the oscillators *)
Theorem C257_state lib size ix : (0 < size < 2 ^ 64)%Z ->
  library_ensembles lib size ix None = library_ensembles lib size ix (Some (size - 1)%Z) /\
  forall i, (0 <= i < size)%Z -> library_ensembles lib size None (Some i) = Ok (lib (ASize i)).
Proof. intros H. split; [reflexivity|]. intros i Hi. unfold library_ensembles, iteration_arg. rewrite size_id by (unfold size_range; lia). reflexivity. Qed.
Print Assumptions C257_state.
Theorem C257_names lib size ix it : let l := lib (iteration_arg it size) in (forall e i, In e l -> In i e -> i < length ix) ->
  exists l', library_ensembles lib size (Some ix) it = Ok l' /\ length l' = length l /\
    forall k, k < length l -> length (nth k l' []) = length (nth k l []) /\ forall m, m < length (nth k l []) -> nth m (nth k l' []) 0 = nth (nth m (nth k l []) 0) ix 0.
Proof.
  cbv zeta. unfold library_ensembles. generalize (lib (iteration_arg it size)) as l. intros l H.
  assert (R : forall e, (forall i, In i e -> i < length ix) -> renamed ix e = Ok (map (fun i => nth i ix 0) e)).
  { induction e as [|i e IH]; intros He; auto. unfold renamed in *. rewrite mapM_cons, (nth_error_nth' ix 0) by (apply He; left; auto). cbn [bind]. rewrite IH by (intros; apply He; right; auto). reflexivity. }
  assert (M : mapM (renamed ix) l = Ok (map (map (fun i => nth i ix 0)) l)).
  { induction l as [|e l IH]; auto. rewrite mapM_cons, R by (intros i; apply (H e i); left; auto). cbn [bind]. rewrite IH by (intros e' i He; apply H; right; auto). reflexivity. }
  exists (map (map (fun i => nth i ix 0)) l). split; auto. split; [apply map_length|]. intros k Hk.
  rewrite (nth_indep _ [] (map (fun i => nth i ix 0) [])), map_nth by (rewrite map_length; auto). split; [apply map_length|]. intros m Hm.
  rewrite (nth_indep _ 0 (nth 0 ix 0)) by (rewrite map_length; auto). apply (map_nth (fun i => nth i ix 0)).
Qed.
Print Assumptions C257_names.
(** so a division of all oscillators becomes a division of their names *)
Theorem C257_division lib size ix it l' : Permutation (concat (lib (iteration_arg it size))) (seq 0 (length ix)) -> library_ensembles lib size (Some ix) it = Ok l' -> Permutation (concat l') ix.
Proof.
  intros P E. destruct (C257_names lib size ix it) as (l'' & E' & L & N); [intros e i He Hi; apply (Permutation_in i) in P; [apply in_seq in P; lia|apply in_concat; eauto]|]. rewrite E' in E. apply Ok_inj in E. subst l''.
  assert (Q : l' = map (map (fun i => nth i ix 0)) (lib (iteration_arg it size))).
  { apply (nth_ext _ _ [] []); [rewrite map_length; auto|]. intros k Hk. rewrite L in Hk. destruct (N k Hk) as [N1 N2]. rewrite (nth_indep (map _ _) [] (map (fun i => nth i ix 0) [])), map_nth by (rewrite map_length; auto).
    apply (nth_ext _ _ 0 0); [rewrite map_length; auto|]. intros m Hm. rewrite N1 in Hm. rewrite N2 by auto. rewrite (nth_indep (map _ _) 0 (nth 0 ix 0)) by (rewrite map_length; auto). rewrite (map_nth (fun i => nth i ix 0)). reflexivity. }
  assert (A : map (fun i => nth i ix 0) (seq 0 (length ix)) = ix).
  { clear. apply (nth_ext _ _ 0 0); [rewrite map_length, seq_length; auto|]. intros k Hk. rewrite map_length, seq_length in Hk.
    rewrite (nth_indep _ 0 (nth 0 ix 0)) by (rewrite map_length, seq_length; auto). rewrite (map_nth (fun i => nth i ix 0)), seq_nth by auto. reflexivity. }
  rewrite Q, <- concat_map. eapply Permutation_trans; [apply Permutation_map; exact P|]. rewrite A. apply Permutation_refl.
Qed.
Print Assumptions C257_division.
(** Counting from the end, iteration = -1, works in python only: the library is asked for the state 18446744073709551615. *)
Theorem C257_negative_refuted : exists lib, (forall z, lib (ASize z) = (if (z =? 0)%Z then [[0; 1]] else [])) /\ library_ensembles lib 1 None None = Ok [[0; 1]] /\
  library_ensembles lib 1 None (Some (-1)%Z) = Ok (lib (ASize 18446744073709551615)) /\ library_ensembles lib 1 None (Some (-1)%Z) <> library_ensembles lib 1 None None.
Proof. exists (fun a => match a with ASize z => if (z =? 0)%Z then [[0; 1]] else [] | _ => [] end). repeat split; try reflexivity. discriminate. Qed.
Print Assumptions C257_negative_refuted.
Example C257_example : library_ensembles (fun _ => [[0; 2]; [1]]) 5 (Some [10; 20; 30]) None = Ok [[10; 30]; [20]].
Proof. reflexivity. Qed.
