(** Theorems about the readers of graphs and of answers and about the borders
    of a picture: C163 - C170. *)
From Verif Require Import Base Files_Model Files_Proofs.

(** * C163: a graph written by its edges *)

(** The vertices are exactly 1, …, n: the matrix is n by n and holds 1 exactly
    where an edge is written, in either direction. *)
Theorem C163_matrix (ls : list gline) (n : nat) :
  Forall well_formed ls -> of_kind DE ls ->
  (forall v, mentioned (edges ls) v <-> (1 <= v <= Z.of_nat n)%Z) ->
  (space_lines ls = [] \/ length (space_lines ls) = n) ->
  exists g, read_graph ls = Ok g /\
    g_descr g = GMatrix /\
    g_comments g = comment_lines ls /\
    space_description g = match space_lines ls with [] => None | s => Some s end /\
    length (g_data g) = n /\
    (forall i, i < n -> length (nth i (g_data g) []) = n) /\
    forall i j, i < n -> j < n ->
      (listed (edges ls) (Z.of_nat i + 1) (Z.of_nat j + 1) -> cell (g_data g) i j = 1%Q) /\
      (~ listed (edges ls) (Z.of_nat i + 1) (Z.of_nat j + 1) -> cell (g_data g) i j = 0%Q).
Proof.
  intros Hw [Hk (l0 & Hl0 & Hk0)] Hv Hsp.
  destruct (read_lines_total DE ls r0 Hw Hk) as [s E]; [now left|].
  destruct (read_lines_ok _ _ _ E) as (_ & A1 & A2 & A3 & A4 & (T1 & _ & _)).
  cbn [r0 r_comments r_space r_data r_map app] in A1, A2, A3.
  specialize (A4 [] map_ok_nil). cbn [app] in A4. destruct A4 as (M1 & M2 & M3).
  assert (Ht : r_type s = Some DE) by (exact (T1 _ _ Hl0 Hk0)).
  assert (Hr : row_lines ls = []).
  { clear - Hk. induction ls as [|l ls IH]; [reflexivity|].
    assert (IH' : row_lines ls = []) by (apply IH; intros; eapply Hk; eauto; now right).
    destruct l; simpl; auto; specialize (Hk _ _ (or_introl eq_refl) eq_refl); discriminate. }
  assert (Hsize : length (r_map s) = n).
  { apply keys_size; [exact M1|]. intro v. now rewrite M2, Hv. }
  destruct (edge_rows_spec (r_map s) n (seq 0 (length (r_map s))) Hsize) as (rows & Er & Lr & Sr).
  { intros a b Hin. apply Hv. apply M3 in Hin. destruct Hin; [exists a; now right | exists a; now left]. }
  { intros i Hi. apply in_seq in Hi. apply M2, Hv. lia. }
  rewrite seq_length in Lr, Sr.
  unfold read_graph. rewrite E. cbn [bind]. rewrite Ht, Er. cbn [bind].
  rewrite A3, Hr, A2. cbn [app].
  assert (Hchk : match space_lines ls with [] => false | _ => negb (length rows =? length (space_lines ls)) end = false).
  { destruct (space_lines ls) as [|x xs] eqn:Es; [reflexivity|].
    destruct Hsp as [Hc|Hc]; [discriminate|]. rewrite Lr, Hsize, Hc, Nat.eqb_refl. reflexivity. }
  rewrite Hchk. eexists. split; [reflexivity|].
  unfold graph_init, space_description. cbn [g_descr g_comments g_space g_data].
  split; [reflexivity|]. split; [exact A1|]. split; [reflexivity|]. split; [lia|].
  split.
  - intros i Hi. apply Sr. lia.
  - intros i j Hi Hj. destruct (Sr i) as [_ S]; [lia|]. specialize (S j Hj).
    rewrite seq_nth in S by lia. cbn [Nat.add] in S. destruct S as [S1 S2].
    split; intro H; [apply S1 | apply S2; intro Hc; apply H]; now apply M3.
Qed.
Print Assumptions C163_matrix.

(** A file of edges is accepted only if its vertices are numbered 1, …, n
    without a gap. *)
Theorem C163_requires_numbering (ls : list gline) (g : graph) :
  of_kind DE ls -> read_graph ls = Ok g ->
  (forall v, mentioned (edges ls) v <-> (1 <= v <= Z.of_nat (length (g_data g)))%Z).
Proof.
  intros [Hk (l0 & Hl0 & Hk0)] H. unfold read_graph in H.
  destruct (read_lines r0 ls) as [s|e] eqn:E; cbn [bind] in H; [|discriminate].
  destruct (read_lines_ok _ _ _ E) as (_ & A1 & A2 & A3 & A4 & (T1 & _ & _)).
  specialize (A4 [] map_ok_nil). cbn [app] in A4. destruct A4 as (M1 & M2 & M3).
  assert (Ht : r_type s = Some DE) by (exact (T1 _ _ Hl0 Hk0)).
  assert (Hr : row_lines ls = []).
  { clear - Hk. induction ls as [|l ls IH]; [reflexivity|].
    assert (IH' : row_lines ls = []) by (apply IH; intros; eapply Hk; eauto; now right).
    destruct l; simpl; auto; specialize (Hk _ _ (or_introl eq_refl) eq_refl); discriminate. }
  rewrite Ht in H.
  destruct (edge_rows (r_map s) (seq 0 (length (r_map s)))) as [rows|e] eqn:Er; cbn [bind] in H; [|discriminate].
  assert (Hlen : length rows = length (r_map s)).
  { clear - Er. replace (length (r_map s)) with (length (seq 0 (length (r_map s)))) by apply seq_length.
    revert rows Er. generalize (seq 0 (length (r_map s))). intro is. induction is as [|i is IH]; intros rows Er; cbn [edge_rows] in Er.
    - apply Ok_inj in Er. now subst.
    - destruct (mget _ _); [|discriminate]. destruct (set_ones _ _); cbn [bind] in Er; [|discriminate].
      destruct (edge_rows _ is) as [rs|] eqn:Ers; cbn [bind] in Er; [|discriminate].
      apply Ok_inj in Er. subst. simpl. f_equal. now apply IH. }
  assert (Hg : g_data g = rows).
  { rewrite A3, Hr in H. cbn [app r0 r_data] in H.
    destruct (match r_space s with [] => false | _ => _ end); [discriminate|].
    apply Ok_inj in H. now subst. }
  rewrite Hg, Hlen.
  assert (Hincl : incl (upto (length (r_map s))) (keys (r_map s))).
  { intros v Hv. apply upto_in in Hv.
    replace v with (Z.of_nat (Z.to_nat (v - 1)) + 1)%Z by lia.
    eapply edge_rows_keys; [exact Er|]. apply in_seq. lia. }
  assert (Hback : incl (keys (r_map s)) (upto (length (r_map s)))).
  { apply NoDup_length_incl; [apply upto_nodup| |exact Hincl].
    unfold keys. rewrite map_length, upto_length. lia. }
  intro v. rewrite <- M2, <- upto_in. split; [apply Hback | apply Hincl].
Qed.
Print Assumptions C163_requires_numbering.

Definition C163_file : list gline :=
  [LComment 7; LEdge [1; 3]%Z; LBlank; LEdge [3; 2]%Z; LSpace [0; 1]%Q; LSpace [1; 1]%Q; LSpace [2; 0]%Q].

Example C163_case :
  Forall well_formed C163_file /\ of_kind DE C163_file /\
  (forall v, mentioned (edges C163_file) v <-> (1 <= v <= Z.of_nat 3)%Z) /\
  length (space_lines C163_file) = 3 /\
  exists g, read_graph C163_file = Ok g /\
    g_data g = [[0; 0; 1]; [0; 0; 1]; [1; 1; 0]]%Q.
Proof.
  split; [repeat constructor|]. split; [split|].
  - intros l t Hin Hk. simpl in Hin. repeat (destruct Hin as [<-|Hin]; [simpl in Hk; congruence|]). destruct Hin.
  - exists (LEdge [1; 3])%Z. split; [simpl; auto | reflexivity].
  - split; [|split; [reflexivity | eexists; split; reflexivity]].
    intro v. split.
    + intros (w & [H|H]); simpl in H; repeat (destruct H as [H|H]; [injection H as <- <-; lia|]); destruct H.
    + intro H. assert (v = 1 \/ v = 2 \/ v = 3)%Z as [-> | [-> | ->]] by lia.
      * exists 3%Z. simpl. auto.
      * exists 3%Z. simpl. auto.
      * exists 1%Z. simpl. auto.
Qed.

(** * C164: a graph with an isolated vertex *)

(** Five vertices are placed, the edges join some of the numbers 1 to 5, the
    vertex 3 has none: the file is refused with a KeyError. *)
Theorem C164_isolated_refuted :
  exists (ls : list gline) (n : nat),
    Forall well_formed ls /\ of_kind DE ls /\ length (space_lines ls) = n /\
    (forall v, mentioned (edges ls) v -> (1 <= v <= Z.of_nat n)%Z) /\
    read_graph ls = Raise KeyError.
Proof.
  exists [LSpace [0; 0]%Q; LSpace [1; 0]%Q; LSpace [2; 0]%Q; LSpace [3; 0]%Q; LSpace [4; 0]%Q;
          LEdge [1; 2]%Z; LEdge [4; 5]%Z], 5.
  split; [repeat constructor|]. split; [split|].
  - intros l t Hin Hk. simpl in Hin. repeat (destruct Hin as [<-|Hin]; [simpl in Hk; congruence|]). destruct Hin.
  - exists (LEdge [1; 2])%Z. split; [simpl; auto 8 | reflexivity].
  - split; [reflexivity|]. split; [|reflexivity].
    intros v (w & [H|H]); simpl in H; repeat (destruct H as [H|H]; [injection H as <- <-; lia|]); destruct H.
Qed.
Print Assumptions C164_isolated_refuted.

(** The same happens to vertices counted from zero, whatever the edges are. *)
Theorem C164_from_zero (ls : list gline) :
  of_kind DE ls -> mentioned (edges ls) 0 -> exists e, read_graph ls = Raise e.
Proof.
  intros Hk H0. destruct (read_graph ls) as [g|e] eqn:E; [|eauto]. exfalso.
  apply (C163_requires_numbering ls g Hk E) in H0. lia.
Qed.
Print Assumptions C164_from_zero.

(** * C165: a graph written by rows; one kind of description only *)

Theorem C165_rows (ls : list gline) (t : dtype) :
  t <> DE -> Forall well_formed ls -> of_kind t ls ->
  (space_lines ls = [] \/ length (space_lines ls) = length (row_lines ls)) ->
  exists g, read_graph ls = Ok g /\
    g_data g = row_lines ls /\
    g_descr g = (match t with DV => GVector | _ => GMatrix end) /\
    g_comments g = comment_lines ls /\
    space_description g = match space_lines ls with [] => None | s => Some s end.
Proof.
  intros Hne Hw [Hk (l0 & Hl0 & Hk0)] Hsp.
  destruct (read_lines_total t ls r0 Hw Hk) as [s E]; [now left|].
  destruct (read_lines_ok _ _ _ E) as (_ & A1 & A2 & A3 & _ & (T1 & _ & _)).
  cbn [r0 r_comments r_space r_data r_map app] in A1, A2, A3.
  assert (Ht : r_type s = Some t) by (exact (T1 _ _ Hl0 Hk0)).
  unfold read_graph. rewrite E. cbn [bind]. rewrite Ht, A3, A2.
  assert (Hchk : match space_lines ls with [] => false | _ => negb (length (row_lines ls) =? length (space_lines ls)) end = false).
  { destruct (space_lines ls) as [|x xs] eqn:Es; [reflexivity|].
    destruct Hsp as [Hc|Hc]; [discriminate|]. rewrite Hc, Nat.eqb_refl. reflexivity. }
  destruct t; try congruence; cbn [bind]; rewrite Hchk; eexists; (split; [reflexivity|]);
    unfold graph_init, space_description; cbn [g_descr g_comments g_space g_data]; auto.
Qed.
Print Assumptions C165_rows.

(** Whatever is accepted describes the graph by lines of one kind, has
    well-formed lines only, and as many places as vertices if any. *)
Theorem C165_one_kind (ls : list gline) (g : graph) :
  read_graph ls = Ok g ->
  Forall well_formed ls /\ (exists t, of_kind t ls) /\
  (space_lines ls = [] \/ length (space_lines ls) = length (g_data g)).
Proof.
  intro H. unfold read_graph in H.
  destruct (read_lines r0 ls) as [s|e] eqn:E; cbn [bind] in H; [|discriminate].
  destruct (read_lines_ok _ _ _ E) as (W & A1 & A2 & A3 & _ & (T1 & _ & T3)).
  split; [exact W|].
  destruct (match r_type s with Some DE => _ | _ => _ end) as [data|e]; cbn [bind] in H; [|discriminate].
  destruct (r_type s) as [t|] eqn:Ht; [|discriminate]. split.
  - exists t. split.
    + intros l t' Hin Hk. specialize (T1 l t' Hin Hk). congruence.
    + destruct (existsb (fun l => match kind l with Some _ => true | None => false end) ls) eqn:Ex.
      * apply existsb_exists in Ex. destruct Ex as (l & Hin & Hl). exists l. split; [exact Hin|].
        destruct (kind l) as [t'|] eqn:K; [|discriminate]. rewrite (T1 l t' Hin K). reflexivity.
      * exfalso. assert (Some t = None); [|discriminate]. apply T3; [reflexivity|]. intros l Hin.
        destruct (kind l) eqn:K; [|reflexivity]. exfalso.
        assert (existsb (fun l => match kind l with Some _ => true | None => false end) ls = true).
        { apply existsb_exists. exists l. rewrite K. auto. }
        congruence.
  - rewrite A2 in H. cbn [r0 r_space app] in H. destruct (space_lines ls) as [|x xs] eqn:Es; [now left|]. right.
    rewrite <- Es in *. destruct (length data =? length (space_lines ls)) eqn:El; simpl in H; [|discriminate].
    apply Nat.eqb_eq in El. apply Ok_inj in H. subst. cbn [graph_init g_data]. lia.
Qed.
Print Assumptions C165_one_kind.

Example C165_case :
  let ls := [LComment 1; LMatrix [0; 1]%Q; LMatrix [1; 0]%Q; LComment 2] in
  Forall well_formed ls /\ of_kind DM ls /\ space_lines ls = [] /\
  read_graph (ls ++ [LVector [1]%Q]) = Raise NameError /\
  read_graph (ls ++ [LSpace [1; 1]%Q]) = Raise NameError.
Proof.
  split; [repeat constructor|]. split; [split|].
  - intros l t Hin Hk. simpl in Hin. repeat (destruct Hin as [<-|Hin]; [simpl in Hk; congruence|]). destruct Hin.
  - exists (LMatrix [0; 1]%Q). split; [simpl; auto | reflexivity].
  - repeat split.
Qed.

(** * C166: the kind of a graph built without naming it *)

(** A square matrix of zeros and ones. *)
Definition zero_one (data : list (list Q)) : Prop :=
  Forall (fun row => length row = length data /\ Forall (fun e => e = 0%Q \/ e = 1%Q) row) data.

Theorem C166_guess_refuted :
  exists data, zero_one data /\ data <> [] /\ g_descr (graph_init data None [] []) = GVector.
Proof.
  exists [[0; 1]; [1; 0]]%Q. split; [|split; [discriminate | reflexivity]].
  unfold zero_one. repeat (apply Forall_cons || apply Forall_nil || split); auto.
Qed.
Print Assumptions C166_guess_refuted.

(** No matrix is ever recognised: every graph with a vertex is taken for lists
    of neighbours. *)
Theorem C166_guess (data : list (list Q)) (space : list (list Q)) (comments : list nat) :
  g_descr (graph_init data None space comments) = GMatrix <-> data = [].
Proof.
  unfold graph_init. cbn [g_descr]. split; [|intros ->; reflexivity].
  assert (Hrow : forall row d, d = GVector \/ row <> [] ->
            fold_left (fun d0 e => if negb (Qeq_bool e 0) || negb (Qeq_bool e 1) then GVector else d0) row d = GVector).
  { induction row as [|e row IH]; intros d Hd; simpl.
    - destruct Hd; congruence.
    - apply IH. left. destruct (negb (Qeq_bool e 0) || negb (Qeq_bool e 1)) eqn:Ee; [reflexivity|].
      apply orb_false_elim in Ee. destruct Ee as [E0 E1].
      apply negb_false_iff, Qeq_bool_iff in E0. apply negb_false_iff, Qeq_bool_iff in E1.
      rewrite E0 in E1. discriminate. }
  assert (Hrows : forall size rows, guess_rows size rows GVector = GVector).
  { intros size. induction rows as [|row rows IH]; cbn [guess_rows]; [reflexivity|].
    destruct (negb (length row =? size)); [reflexivity|]. rewrite Hrow by (now left). exact IH. }
  destruct data as [|row data]; [reflexivity|]. cbn [guess_rows].
  destruct (negb (length row =? length (row :: data))) eqn:El; [discriminate|].
  apply negb_false_iff, Nat.eqb_eq in El.
  rewrite Hrow; [rewrite Hrows; discriminate|]. right. intro Hc. subst. discriminate.
Qed.
Print Assumptions C166_guess.

(** * C167: the answers of the samples *)

(** A readable file: each line goes to exactly one cluster or to the noise, no
    cluster is empty, the noise is exactly the lines marked so; later calls
    give the same. *)
Theorem C167_partition (file : list aline) (r : reader) (cs : list (list nat)) :
  get_clusters file reader_init = (r, Ok cs) ->
  exists noise,
    get_noise file r = (r, Ok noise) /\
    get_clusters file r = (r, Ok cs) /\
    get_cluster_lengths file r = (r, Ok (map (@length nat) cs)) /\
    partitions (length file) (cs ++ [noise]) /\
    no_empty cs /\
    (forall i, In i noise <-> noise_is file i) /\
    readable file.
Proof.
  unfold get_clusters, read_answer. cbn [reader_init a_clusters].
  destruct (answer_lines [] [] 0 file) as [[cs' noise] e] eqn:E. intro H.
  destruct e as [e|]; [discriminate|]. injection H as Hr Hc. cbn [a_clusters] in Hc. subst cs' r.
  exists noise. unfold get_noise, get_cluster_lengths, get_clusters, read_answer. cbn [a_clusters a_noise bind].
  split; [reflexivity|]. split; [reflexivity|]. split; [reflexivity|].
  destruct (answer_lines_partition _ _ _ _ _ _ E) as (P & Hne & En); [constructor|].
  cbn [concat app] in P, En. split; [|split; [exact Hne|split]].
  - unfold partitions. rewrite concat_app. cbn [concat]. rewrite app_nil_r. exact P.
  - intro i. rewrite En, filter_In, in_seq, Nat.sub_0_r. unfold noise_is.
    destruct (nth_error file i) as [l|] eqn:Ei.
    + assert (Hlt : i < length file) by (apply nth_error_Some; congruence).
      destruct l; split; intro H; try (destruct H; discriminate); try discriminate; auto. split; [lia | reflexivity].
    + split; [intros [_ H]; discriminate | discriminate].
  - intro Hbad. clear - E Hbad. revert E. generalize (@nil (list nat)) at 1. generalize (@nil nat) at 1. generalize 0.
    induction file as [|l file IH]; intros i n0 c0 E; [destruct Hbad|].
    cbn [answer_lines] in E. destruct (answer_line c0 n0 i l) as [[c1 n1]|] eqn:El; [|discriminate].
    destruct Hbad as [->|Hbad]; [cbn [answer_line] in El; discriminate|]. eapply IH; eauto.
Qed.
Print Assumptions C167_partition.

(** If the labels occur in order (each label's predecessors before it), every
    readable file is read and the cluster k consists of exactly the lines
    labelled k, in order. *)
Theorem C167_in_order (file : list aline) :
  readable file -> in_order file ->
  exists r cs,
    get_clusters file reader_init = (r, Ok cs) /\
    (forall k i, k < length cs -> (In i (nth k cs []) <-> label_is file (Z.of_nat k) i)) /\
    (forall k, StronglySorted lt (nth k cs [])) /\
    (forall i z, label_is file z i -> (0 <= z < Z.of_nat (length cs))%Z).
Proof.
  intros Hr Ho.
  destruct (answer_lines_in_order file file [] [] 0 Ho Hr) as (cs & noise & E & Hc & Hl).
  - reflexivity.
  - simpl. intros; lia.
  - simpl. intro z. split; [intros (j & Hj & _); lia | lia].
  - exists (mkReader (Some cs) (Some noise)), cs. unfold get_clusters, read_answer. cbn [reader_init a_clusters].
    rewrite E. cbn [a_clusters Nat.add] in *. split; [reflexivity|]. split; [|split].
    + intros k i Hk. rewrite Hc by exact Hk. unfold labelled. rewrite filter_In, in_seq. unfold label_is.
      destruct (nth_error file i) as [l|] eqn:Ei.
      * assert (i < length file) by (apply nth_error_Some; congruence).
        destruct l as [|z|]; split; intro H'; try (destruct H'; discriminate); try discriminate.
        -- destruct H' as [_ Hz]. apply Z.eqb_eq in Hz. now subst.
        -- injection H' as ->. split; [lia | apply Z.eqb_refl].
      * split; [intros [_ H]; discriminate | discriminate].
    + intro k. destruct (Nat.lt_ge_cases k (length cs)) as [Hk|Hk].
      * rewrite Hc by exact Hk. unfold labelled. generalize (length file) as m. generalize 0 as a. intros a m.
        revert a. induction m as [|m IH]; intro a; simpl; [constructor|].
        assert (Hf : Forall (lt a) (filter (fun j => match nth_error file j with Some (ALabel z) => Z.eqb z (Z.of_nat k) | _ => false end) (seq (S a) m))).
        { apply Forall_forall. intros x Hx. apply filter_In in Hx. destruct Hx as [Hx _]. apply in_seq in Hx. lia. }
        destruct (nth_error file a) as [[|z|]|]; auto. destruct (Z.eqb z (Z.of_nat k)); auto. constructor; auto.
      * rewrite nth_overflow by exact Hk. constructor.
    + intros i z Hz. apply Hl. exists i. split; [|exact Hz]. apply nth_error_Some. unfold label_is in Hz. congruence.
Qed.
Print Assumptions C167_in_order.

Example C167_case :
  let file := [ALabel 0; ANoise; ALabel 1; ALabel 0; ALabel 2; ALabel 1]%Z in
  readable file /\ in_order file /\
  snd (get_clusters file reader_init) = Ok [[0; 3]; [2; 5]; [4]].
Proof.
  split; [|split; [|reflexivity]].
  - unfold readable. simpl. intuition discriminate.
  - intros i z H. unfold label_is in *.
    destruct i as [|[|[|[|[|[|[|i]]]]]]]; simpl in H; try discriminate; injection H as <-;
      (split; [lia|]); intros k Hk; try lia.
    + assert (k = 0)%Z as -> by lia. exists 0. auto.
    + assert (k = 0 \/ k = 1)%Z as [-> | ->] by lia; [exists 0 | exists 2]; split; auto.
    + assert (k = 0)%Z as -> by lia. exists 0. auto with arith.
Qed.

(** * C168: any labels; files that cannot be read *)

(** The labels 1, 0, 1: lines with different labels share a cluster, lines
    with the same label do not, and no error is reported. *)
Theorem C168_labels_refuted :
  exists file cs,
    readable file /\ (forall i z, label_is file z i -> (0 <= z <= 1)%Z) /\
    snd (get_clusters file reader_init) = Ok cs /\
    (exists c i j, In c cs /\ In i c /\ In j c /\ label_is file 1 i /\ label_is file 0 j) /\
    (exists i j, label_is file 1 i /\ label_is file 1 j /\ ~ exists c, In c cs /\ In i c /\ In j c).
Proof.
  exists [ALabel 1; ALabel 0; ALabel 1]%Z, [[0; 1]; [2]].
  split; [unfold readable; simpl; intuition discriminate|]. split.
  { intros i z H. unfold label_is in H. destruct i as [|[|[|[|i]]]]; simpl in H; try discriminate; injection H as <-; lia. }
  split; [reflexivity|]. split.
  - exists [0; 1], 0, 1. simpl. repeat split; auto.
  - exists 0, 2. split; [reflexivity|]. split; [reflexivity|]. intros (c & Hc & H0 & H2).
    simpl in Hc. destruct Hc as [<-|[<-|[]]]; simpl in *; intuition discriminate.
Qed.
Print Assumptions C168_labels_refuted.

(** The file is refused once; asked again, the reader answers with the
    clusters of the lines before the error. *)
Theorem C168_after_error_refuted :
  exists file r cs noise,
    get_clusters file reader_init = (r, Raise ValueError) /\
    snd (get_clusters file r) = Ok cs /\ snd (get_noise file r) = Ok noise /\
    ~ partitions (length file) (cs ++ [noise]).
Proof.
  exists [ALabel 0; ABad; ALabel 0]%Z, (mkReader (Some [[0]]) (Some [])), [[0]], [].
  split; [reflexivity|]. split; [reflexivity|]. split; [reflexivity|].
  intro H. apply Permutation_length in H. discriminate.
Qed.
Print Assumptions C168_after_error_refuted.

(** * C169: the borders of a picture *)

(** A picture with a dark pixel: the box lies in the picture, holds every dark
    pixel, and touches one on each of its four sides. *)
Theorem C169_box (width height : nat) (ps : list pixel) :
  length ps = height * width ->
  (exists r c, dark_at width ps r c) ->
  exists ws hs we he,
    gray_pattern_borders width height ps = (ws, hs, we, he) /\
    ws < we <= width /\ hs < he <= height /\
    (forall r c, dark_at width ps r c -> ws <= c < we /\ hs <= r < he) /\
    (exists r, dark_at width ps r ws) /\ (exists r, dark_at width ps r (we - 1)) /\
    (exists c, dark_at width ps hs c) /\ (exists c, dark_at width ps (he - 1) c).
Proof.
  intros Hlen (r0 & c0 & Hd0).
  assert (Hw : 0 < width) by (destruct Hd0; lia).
  destruct (borders_loop_spec width height ps ps Hw Hlen 0 0 width 0 height 0 0)
    as (ws & hs & we & he & E & Sw & Sh); auto.
  { left. split; [|auto]. intros x (r & _ & H). lia. }
  { left. split; [|auto]. intros x (r & _ & H). lia. }
  exists ws, hs, (we + 1), (he + 1). unfold gray_pattern_borders. rewrite E. split; [reflexivity|].
  destruct Sw as [(Hn & _)|(W1 & W2 & W3)]; [exfalso; eapply Hn; eauto|].
  destruct Sh as [(Hn & _)|(H1 & H2 & H3)]; [exfalso; eapply Hn; eauto|].
  rewrite !Nat.add_sub.
  assert (Hin : forall r c, dark_at width ps r c -> c < width /\ r < height).
  { intros r c (Hc & p & Hp & _). assert (r * width + c < length ps) by (apply nth_error_Some; congruence).
    split; [exact Hc | nia]. }
  assert (Wlo := W1 _ W3). assert (Hlo := H1 _ H3).
  split; [destruct W3 as (r & Hd); apply Hin in Hd; lia|].
  split; [destruct H3 as (r & Hd); apply Hin in Hd; lia|].
  split; [|auto]. intros r c Hd.
  assert (ws <= c <= we) by (apply W1; eauto). assert (hs <= r <= he) by (apply H1; eauto). lia.
Qed.
Print Assumptions C169_box.

Example C169_case :
  let w := (255, 255, 255)%Q in let b := (0, 10, 200)%Q in
  let ps := [w; w; w; w;
             w; w; b; w;
             w; b; w; w] in
  length ps = 3 * 4 /\ dark_at 4 ps 1 2 /\ gray_pattern_borders 4 3 ps = (1, 1, 3, 3).
Proof.
  split; [reflexivity|]. split; [|reflexivity]. split; [lia|]. eexists. split; reflexivity.
Qed.

(** * C170: blank pictures and grey pixels *)

(** Without a dark pixel the box is turned inside out. *)
Theorem C170_blank (width height : nat) (ps : list pixel) :
  0 < width -> length ps = height * width ->
  (forall r c, ~ dark_at width ps r c) ->
  gray_pattern_borders width height ps = (width, height, 1, 1).
Proof.
  intros Hw Hlen Hno.
  destruct (borders_loop_spec width height ps ps Hw Hlen 0 0 width 0 height 0 0)
    as (ws & hs & we & he & E & Sw & Sh); auto.
  { left. split; [|auto]. intros x (r & _ & H). lia. }
  { left. split; [|auto]. intros x (r & _ & H). lia. }
  unfold gray_pattern_borders. rewrite E.
  destruct Sw as [(_ & -> & ->)|(_ & (r & Hd) & _)]; [|exfalso; eapply Hno; eauto].
  destruct Sh as [(_ & -> & ->)|(_ & (r & Hd) & _)]; [|exfalso; eapply Hno; eauto].
  reflexivity.
Qed.
Print Assumptions C170_blank.

Theorem C170_blank_refuted :
  exists width height ps ws hs we he,
    length ps = height * width /\ 0 < width /\ 0 < height /\
    gray_pattern_borders width height ps = (ws, hs, we, he) /\ (we < ws /\ he < hs).
Proof.
  exists 2, 2, (repeat (255, 255, 255)%Q 4), 2, 2, 1, 1. repeat split; lia.
Qed.
Print Assumptions C170_blank_refuted.

(** The grey value lies between the darkest and the brightest primary, except
    that it loses one ten-thousandth. *)
Theorem C170_gray (image : list pixel) (lo hi : Q) :
  (0 <= lo)%Q ->
  Forall (fun p => let '(r, g, b) := p in lo <= r <= hi /\ lo <= g <= hi /\ lo <= b <= hi)%Q image ->
  length (rgb2gray image) = length image /\
  Forall (fun v => (9999 # 10000) * lo <= v <= (9999 # 10000) * hi)%Q (rgb2gray image).
Proof.
  intros Hlo H. unfold rgb2gray. split; [apply map_length|].
  apply Forall_forall. intros v Hv. apply in_map_iff in Hv. destruct Hv as ([[r g] b] & <- & Hin).
  rewrite Forall_forall in H. specialize (H _ Hin). cbn in H. unfold luma. lra.
Qed.
Print Assumptions C170_gray.

(** C170.  The value of a pixel: the weighted sum of its colours, in the order of the pixels. *)
Theorem C170_gray_value (image : list pixel) : forall k, k < length image ->
  let '(r, g, b) := nth k image (0, 0, 0)%Q in
  (nth k (rgb2gray image) 0 == (2989 # 10000) * r + (5870 # 10000) * g + (1140 # 10000) * b)%Q.
Proof.
  intros k Hk. destruct (nth k image (0, 0, 0)%Q) as [[r g] b] eqn:E. unfold rgb2gray.
  rewrite (nth_indep _ 0%Q (luma (0, 0, 0)%Q)) by (rewrite map_length; exact Hk). rewrite map_nth, E. rewrite luma_brightness. reflexivity.
Qed.
Print Assumptions C170_gray_value.
Example C170_gray_value_case : (nth 1 (rgb2gray [(0, 0, 0); (100, 10, 20)])%Q 0 == 3804 # 100)%Q.
Proof. reflexivity. Qed.

Theorem C170_gray_refuted : exists v : Q, (0 <= v <= 255)%Q /\ ~ Forall2 Qeq (rgb2gray [(v, v, v)]) [v].
Proof.
  exists 255%Q. split; [lra|]. intro H. inversion H; subst. vm_compute in H3. discriminate.
Qed.
Print Assumptions C170_gray_refuted.
