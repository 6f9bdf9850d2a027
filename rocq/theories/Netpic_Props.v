(** C239: the pictures of syncnet and cnn networks. *)
From Verif Require Import Base Topology_Model Cldist_Model Cldist_Proofs Syncnet_Model Syncnet_Proofs Cnn_Model Cnn_Proofs Cnn_Props Netpic_Model.
From Verif Require Syncnet_Props.
Open Scope nat_scope.

(** ** specification *)
Fixpoint dots (l : list mark) : list point :=
  match l with [] => [] | Dot p :: t => p :: dots t | Line _ _ :: t => dots t end.
Fixpoint strokes (l : list mark) : list (point * point) :=
  match l with [] => [] | Dot _ :: t => strokes t | Line p q :: t => (p, q) :: strokes t end.

(** a list with every linked pair of [n] places once, in one direction or the other *)
Definition each_once (n : nat) (linked : nat -> nat -> Prop) (l : list (nat * nat)) : Prop :=
  NoDup l /\ (forall i j, In (i, j) l -> i < n /\ j < n /\ linked i j /\ ~ In (j, i) l) /\
  forall i j, i < n -> j < n -> linked i j -> In (i, j) l \/ In (j, i) l.

Definition picture_of (locs : list point) (linked : nat -> nat -> Prop) (marks : list mark) : Prop :=
  dots marks = locs /\
  exists l, each_once (length locs) linked l /\ strokes marks = map (fun ij => (nth (fst ij) locs [], nth (snd ij) locs [])) l.

(** ** drawing *)
Lemma dots_app a b : dots (a ++ b) = dots a ++ dots b.
Proof. induction a as [|[p|p q] t IH]; cbn [app dots]; [reflexivity|now rewrite IH|exact IH]. Qed.
Lemma strokes_app a b : strokes (a ++ b) = strokes a ++ strokes b.
Proof. induction a as [|[p|p q] t IH]; cbn [app strokes]; [reflexivity|exact IH|now rewrite IH]. Qed.

Section Draw.
Variable d : nat.
Variable locs : list point.
Hypothesis Hd : forall p, In p locs -> length p = d.

Lemma location_ok i : i < length locs -> exists p, location locs i = Ok p /\ place d p = Ok p /\ p = nth i locs [].
Proof.
  intro Hi. exists (nth i locs []). unfold location. rewrite (nth_error_nth' locs []) by exact Hi. split; [reflexivity|]. split; [|reflexivity].
  assert (L : length (nth i locs []) = d) by (apply Hd, nth_In; exact Hi). unfold place. rewrite L, Nat.leb_refl. rewrite <- L. now rewrite firstn_all.
Qed.

Lemma lines_ok i ends : i < length locs -> (forall j, In j ends -> j < length locs) ->
  exists l, lines d locs i ends = Ok l /\ dots l = [] /\ strokes l = map (fun j => (nth i locs [], nth j locs [])) ends.
Proof.
  intros Hi. induction ends as [|j t IH]; intro He; cbn [lines].
  - exists []. auto.
  - destruct IH as (l & E & D & S); [intros k Hk; apply He; right; exact Hk|].
    destruct (location_ok i Hi) as (p & P1 & P2 & P3). destruct (location_ok j (He j (or_introl eq_refl))) as (q & Q1 & Q2 & Q3).
    rewrite P1. cbn [bind]. rewrite P2. cbn [bind]. rewrite Q1. cbn [bind]. rewrite Q2. cbn [bind]. rewrite E. cbn [bind].
    exists (Line p q :: l). split; [reflexivity|]. cbn [dots strokes map]. rewrite D, S, P3, Q3. auto.
Qed.

Lemma draw_ok ends places : (forall i, In i places -> i < length locs /\ forall j, In j (ends i) -> j < length locs) ->
  exists l, draw d locs ends places = Ok l /\ dots l = map (fun i => nth i locs []) places /\
    strokes l = map (fun ij => (nth (fst ij) locs [], nth (snd ij) locs [])) (flat_map (fun i => map (fun j => (i, j)) (ends i)) places).
Proof.
  induction places as [|i t IH]; intro H; cbn [draw].
  - exists []. auto.
  - destruct (H i (or_introl eq_refl)) as (Hi & He). destruct IH as (l & E & D & S); [intros k Hk; apply H; right; exact Hk|].
    destruct (location_ok i Hi) as (p & P1 & P2 & P3). destruct (lines_ok i (ends i) Hi He) as (own & O1 & O2 & O3).
    rewrite P1. cbn [bind]. rewrite P2. cbn [bind]. rewrite O1. cbn [bind]. rewrite E. cbn [bind].
    exists (Dot p :: own ++ l). split; [reflexivity|]. cbn [dots strokes map flat_map]. rewrite dots_app, strokes_app, O2, O3, D, S, P3, map_app, map_map. auto.
Qed.
End Draw.

Lemma nodup_rows (ends : nat -> list nat) places : NoDup places -> (forall i, In i places -> NoDup (ends i)) ->
  NoDup (flat_map (fun i => map (fun j => (i, j)) (ends i)) places).
Proof.
  induction places as [|i t IH]; intros Hn He; cbn [flat_map]; [constructor|]. inversion Hn as [|? ? H1 H2]; subst.
  apply NoDup_app_intro.
  - specialize (He i (or_introl eq_refl)). clear -He. induction (ends i) as [|j l IH]; cbn [map]; [constructor|]. inversion He as [|? ? H1 H2]; subst.
    constructor; [|apply IH; exact H2]. intro H. apply in_map_iff in H as (x & E & Hx). injection E as ->. contradiction.
  - apply IH; [exact H2|intros k Hk; apply He; right; exact Hk].
  - intros [a b] Ha Hb. apply in_map_iff in Ha as (x & E & _). injection E as <- <-. apply in_flat_map in Hb as (k & Hk & Hb).
    apply in_map_iff in Hb as (y & E & _). injection E as -> _. contradiction.
Qed.

Lemma in_rows (ends : nat -> list nat) n i j : In (i, j) (flat_map (fun i => map (fun j => (i, j)) (ends i)) (seq 0 n)) <-> i < n /\ In j (ends i).
Proof.
  rewrite in_flat_map. split.
  - intros (k & Hk & H). apply in_map_iff in H as (x & E & Hx). injection E as -> ->. apply in_seq in Hk. split; [lia|exact Hx].
  - intros (Hi & Hj). exists i. split; [apply in_seq; lia|]. apply in_map_iff. exists j. auto.
Qed.

Lemma picture_ok d locs ends linked : d = 2 \/ d = 3 -> locs <> [] -> (forall p, In p locs -> length p = d) ->
  (forall i, i < length locs -> NoDup (ends i) /\ forall j, In j (ends i) -> j < length locs /\ linked i j /\ ~ In i (ends j)) ->
  (forall i j, i < length locs -> j < length locs -> linked i j -> In j (ends i) \/ In i (ends j)) ->
  exists marks, (do d <- dimension_of locs; draw d locs ends (seq 0 (length locs))) = Ok marks /\ picture_of locs linked marks.
Proof.
  intros Hd Hne Hl H1 H2.
  assert (D : dimension_of locs = Ok d).
  { destruct locs as [|p t]; [contradiction Hne; reflexivity|]. unfold dimension_of. rewrite (Hl p (or_introl eq_refl)). destruct Hd as [-> | ->]; reflexivity. }
  rewrite D. cbn [bind]. destruct (draw_ok d locs Hl ends (seq 0 (length locs))) as (l & E & Dl & Sl).
  { intros i Hi. apply in_seq in Hi. destruct Hi as (_ & Hi). cbn [plus] in Hi. split; [exact Hi|]. intros j Hj. apply (H1 i Hi). exact Hj. }
  exists l. split; [exact E|]. split.
  - rewrite Dl. apply (nth_ext _ _ [] []); [now rewrite map_length, seq_length|]. intros k Hk. rewrite map_length, seq_length in Hk.
    rewrite (nth_indep _ [] (nth 0 locs [])) by now rewrite map_length, seq_length. rewrite (map_nth (fun i => nth i locs [])). rewrite seq_nth by exact Hk. reflexivity.
  - eexists. split; [|exact Sl]. split; [|split].
    + apply nodup_rows; [apply seq_NoDup|]. intros i Hi. apply in_seq in Hi. destruct Hi as (_ & Hi). cbn [plus] in Hi. apply H1. exact Hi.
    + intros i j H. apply in_rows in H as (Hi & Hj). destruct (H1 i Hi) as (_ & W). destruct (W j Hj) as (W1 & W2 & W3).
      split; [exact Hi|]. split; [exact W1|]. split; [exact W2|]. rewrite in_rows. tauto.
    + intros i j Hi Hj H. rewrite !in_rows. destruct (H2 i j Hi Hj H) as [W|W]; [left|right]; auto.
Qed.

Lemma filter_nodup {A} (f : A -> bool) l : NoDup l -> NoDup (filter f l).
Proof. apply NoDup_filter. Qed.

(** A syncnet of points of the plane or of the space: every object is drawn once,
    at its place, and there is one line for every two objects within the
    connectivity radius and no other, for both representations of the connections. *)
Theorem C239_syncnet (distance : point -> point -> Q) (locs : list point) (d : nat) (radius : Q) r enable :
  d = 2 \/ d = 3 -> locs <> [] -> (forall p, In p locs -> length p = d) ->
  exists net w marks, syncnet distance locs (Some radius) r enable = Ok (net, w) /\
    syncnet_show_network locs net = Ok marks /\
    picture_of locs (fun i j => i <> j /\ (pair_distance distance locs i j <= radius)%Q) marks.
Proof.
  intros Hd Hne Hl. destruct (Syncnet_Props.C120_connections_within_radius distance locs radius r enable Hne) as (net & w & E & (Hn & Hc) & Nd).
  exists net, w. set (linked := fun i j => i <> j /\ (pair_distance distance locs i j <= radius)%Q).
  destruct (picture_ok d locs (syncnet_ends net) linked Hd Hne Hl) as (marks & M & P).
  - intros i Hi. unfold syncnet_ends. destruct (n_conn net) eqn:Ec.
    + split; [apply filter_nodup, seq_NoDup|]. intros j Hj. apply filter_In in Hj as (Hj & Hh). apply in_seq in Hj.
      assert (Hj' : j < length locs) by lia. destruct (Hc i j Hi Hj') as (W & _). split; [exact Hj'|]. split; [apply W; exact Hh|].
      intro H. apply filter_In in H as (H & _). apply in_seq in H. apply W in Hh. destruct Hh as (Hh & _). lia.
    + split; [apply filter_nodup, Nd|]. intros j Hj. apply filter_In in Hj as (_ & Hh). apply andb_true_iff in Hh as (Hh & Hlt). apply Nat.ltb_lt in Hlt.
      assert (Hj' : j < length locs) by exact (Nat.lt_trans _ _ _ Hlt Hi). destruct (Hc i j Hi Hj') as (W & _). split; [exact Hj'|]. split; [apply W; exact Hh|].
      intro H. apply filter_In in H as (_ & H). apply andb_true_iff in H as (_ & H). apply Nat.ltb_lt in H. lia.
  - intros i j Hi Hj (Hij & Hr). destruct (Hc i j Hi Hj) as (W1 & W2). destruct (Hc j i Hj Hi) as (V1 & V2).
    assert (Hh : has_connection net i j = true) by (apply W1; auto).
    assert (Hh' : has_connection net j i = true) by (apply V1; split; [auto|]; now rewrite pair_distance_sym).
    unfold syncnet_ends. destruct (n_conn net) eqn:Ec.
    + destruct (Nat.lt_ge_cases i j) as [H|H]; [left|right]; apply filter_In; (split; [apply in_seq; unfold point in *; lia|assumption]).
    + destruct (Nat.lt_ge_cases i j) as [H|H]; [right|left]; apply filter_In.
      * split; [apply V2; exact Hh'|]. rewrite Hh'. apply Nat.ltb_lt. exact H.
      * split; [apply W2; exact Hh|]. rewrite Hh. apply Nat.ltb_lt. lia.
  - exists marks. split; [exact E|]. split; [|exact P]. unfold syncnet_show_network. rewrite Hn. exact M.
Qed.
Print Assumptions C239_syncnet.
Example C239_syncnet_example :
  let dist p q := (Qabs (coord p 0 - coord q 0) + Qabs (coord p 1 - coord q 1))%Q in
  let locs := [[0; 0]; [1; 0]; [1; 1]; [7; 7]]%Q in
  let line a b := Line (nth a locs []) (nth b locs []) in
  let dot a := Dot (nth a locs []) in
  forall net w, (syncnet dist locs (Some 1%Q) RList false = Ok (net, w) -> syncnet_show_network locs net = Ok [dot 0; dot 1; line 1 0; dot 2; line 2 1; dot 3]) /\
    (syncnet dist locs (Some 1%Q) RMatrix false = Ok (net, w) -> syncnet_show_network locs net = Ok [dot 0; line 0 1; dot 1; line 1 2; dot 2; dot 3]).
Proof. intros. split; intro H; vm_compute in H; apply Ok_inj in H; injection H as <- <-; vm_compute; reflexivity. Qed.

(** who is connected with whom in a chaotic network: everybody with everybody, or the corners of a triangle *)
Definition joined (conn : cnn_conn) (i j : nat) : Prop :=
  i <> j /\ match conn with AllToAll => True | Delaunay triangles => exists t, In t triangles /\ In i t /\ In j t end.

Lemma edges_joined conn n i j :
  (forall triangles, conn = Delaunay triangles -> forall t, In t triangles -> NoDup t /\ forall i, In i t -> i < n) -> i < n -> j < n ->
  (In (i, j) (edges conn n) \/ In (j, i) (edges conn n) <-> joined conn i j).
Proof.
  intros Ht Hi Hj. unfold joined. destruct conn as [|triangles]; cbn [edges].
  - rewrite !in_pairs. split; [lia|]. intros (H & _). destruct (Nat.lt_ge_cases i j); [left|right]; lia.
  - assert (W : forall a b, In (a, b) (flat_map (fun triangle => map (fun ij => (nth (fst ij) triangle 0, nth (snd ij) triangle 0)) (pairs (length triangle))) triangles) <->
        exists t, In t triangles /\ exists x y, x < y < length t /\ a = nth x t 0 /\ b = nth y t 0).
    { intros a b. rewrite in_flat_map. split.
      - intros (t & H1 & H2). exists t. split; [exact H1|]. apply in_map_iff in H2 as ([x y] & E & H2). cbn [fst snd] in E. injection E as <- <-. apply in_pairs in H2. eauto.
      - intros (t & H1 & x & y & H2 & -> & ->). exists t. split; [exact H1|]. apply in_map_iff. exists (x, y). split; [reflexivity|]. apply in_pairs. exact H2. }
    rewrite !W. clear W. split.
    + intros [(t & T & x & y & Hxy & -> & ->)|(t & T & x & y & Hxy & -> & ->)]; destruct (Ht triangles eq_refl t T) as (Nd & _);
        (split; [intro E; apply (proj1 (NoDup_nth t 0) Nd) in E; lia|exists t; split; [exact T|split; apply nth_In; lia]]).
    + intros (Hij & t & T & Ti & Tj). apply (In_nth _ _ 0) in Ti as (x & Hx & Ex). apply (In_nth _ _ 0) in Tj as (y & Hy & Ey).
      destruct (Nat.lt_trichotomy x y) as [H|[H|H]].
      * left. exists t. split; [exact T|]. exists x, y. auto.
      * subst y. congruence.
      * right. exists t. split; [exact T|]. exists y, x. auto.
Qed.

(** A chaotic network after a simulation: every neuron is drawn once, at its
    stimulus, and there is one line for every two connected neurons, as far as
    the exponential function of the weight of the connection is not zero. *)
Theorem C239_cnn (distance : point -> point -> Q) (expminus : Q -> Q) (conn : cnn_conn) (k d : nat) (stimulus : list point) m average :
  is_expminus expminus -> d = 2 \/ d = 3 -> (forall p, In p stimulus -> length p = d) ->
  (forall triangles, conn = Delaunay triangles -> forall t, In t triangles -> NoDup t /\ forall i, In i t -> i < length stimulus) ->
  (exists i j, i < length stimulus /\ j < length stimulus /\ joined conn i j) ->
  create_weights distance expminus conn k stimulus = Ok m -> average_neighbor_distance distance stimulus k = Ok average ->
  exists marks, cnn_show_network (length stimulus) (Some (stimulus, fst m)) = Ok marks /\
    picture_of stimulus (fun i j => joined conn i j /\ (0 < expminus (sqdist (nth i stimulus []) (nth j stimulus []) / (2 * average)))%Q) marks.
Proof.
  intros [Hpos Hext] Hd Hl Ht (i0 & j0 & Hi0 & Hj0 & Hij0) Em Ea.
  assert (Hg : good_edges (length stimulus) (edges conn (length stimulus))).
  { destruct conn as [|triangles]; [apply pairs_good|]. intros i j Hij. cbn [edges] in Hij. apply in_flat_map in Hij as (t & Hin & Hij).
    apply in_map_iff in Hij as ([a b] & E & Hab). cbn [fst snd] in E. injection E as <- <-. apply in_pairs in Hab. destruct (Ht triangles eq_refl t Hin) as [Nd Hb].
    split; [apply Hb, nth_In; lia|]. split; [apply Hb, nth_In; lia|]. intro E. apply (proj1 (NoDup_nth t 0) Nd) in E; lia. }
  assert (Hne : edges conn (length stimulus) <> []).
  { intro E. pose proof (proj2 (edges_joined conn _ i0 j0 Ht Hi0 Hj0) Hij0) as W. rewrite E in W. destruct W as [[]|[]]. }
  destruct (create_spec distance expminus Hpos Hext conn k stimulus m Hg Hne Em) as (av & Ea' & _ & (Sq & L & C1 & C2 & _) & _).
  rewrite Ea in Ea'. injection Ea' as <-.
  assert (Wt : forall i j, i < length stimulus -> j < length stimulus ->
     (Qltb 0 (nth j (nth i (fst m) []) 0%Q) = true <-> joined conn i j /\ (0 < expminus (sqdist (nth i stimulus []) (nth j stimulus []) / (2 * average)))%Q)).
  { intros i j Hi Hj. rewrite Qltb_true. pose proof (edges_joined conn _ i j Ht Hi Hj) as W. split.
    - intro H. destruct (in_dec pair_dec (i, j) (edges conn (length stimulus))) as [Y|N1]; [|destruct (in_dec pair_dec (j, i) (edges conn (length stimulus))) as [Y|N2]].
      + split; [apply W; auto|]. specialize (C1 i j (or_introl Y)). unfold entry, coupling in C1. rewrite <- C1. exact H.
      + split; [apply W; auto|]. specialize (C1 i j (or_intror Y)). unfold entry, coupling in C1. rewrite <- C1. exact H.
      + specialize (C2 i j N1 N2). unfold entry in C2. rewrite C2 in H. discriminate.
    - intros (H1 & H2). apply W in H1. specialize (C1 i j H1). unfold entry, coupling in C1. rewrite C1. exact H2. }
  assert (Sy : forall i j, joined conn i j -> joined conn j i).
  { intros i j (H1 & H2). split; [auto|]. destruct conn as [|tr]; [exact I|]. destruct H2 as (t & T1 & T2 & T3). exists t. auto. }
  unfold cnn_show_network. apply (picture_ok d stimulus (cnn_ends (fst m) (length stimulus)) (fun i j => joined conn i j /\ (0 < expminus (sqdist (nth i stimulus []) (nth j stimulus []) / (2 * average)))%Q) Hd).
  - intro E. subst stimulus. cbn in Hi0. lia.
  - exact Hl.
  - intros i Hi. unfold cnn_ends. split; [apply filter_nodup, seq_NoDup|]. intros j Hj. apply filter_In in Hj as (Hj & Hh). apply in_seq in Hj.
    assert (Hj' : j < length stimulus) by (unfold point in *; lia). apply Wt in Hh; [|exact Hi|exact Hj']. split; [exact Hj'|]. split; [exact Hh|].
    intro H. apply filter_In in H as (H & _). apply in_seq in H. destruct Hh as ((Hh & _) & _). lia.
  - intros i j Hi Hj (H1 & H2). unfold cnn_ends. destruct (Nat.lt_ge_cases i j) as [H|H]; [left|right]; apply filter_In; (split; [apply in_seq; unfold point in *; lia|]); apply Wt; auto.
    split; [apply Sy; exact H1|]. rewrite (Hext _ (sqdist (nth i stimulus []) (nth j stimulus []) / (2 * average))%Q); [exact H2|]. now rewrite sqdist_sym.
Qed.
Print Assumptions C239_cnn.

(** Networks of other dimensions are refused, as documented, and a chaotic
    network has no picture before its first simulation. *)
Theorem C239_not_shown (locs : list point) (net : network) (n : nat) (weights : list (list Q)) (p : point) (rest : list point) :
  (locs = p :: rest -> length p <> 2 -> length p <> 3 ->
     syncnet_show_network locs net = Raise NameError /\ cnn_show_network n (Some (locs, weights)) = Raise NameError) /\
  cnn_show_network n None = Raise TypeError.
Proof.
  split; [|reflexivity]. intros -> H2 H3. unfold syncnet_show_network, cnn_show_network, dimension_of.
  destruct (Nat.eqb_spec (length p) 2); [contradiction|]. destruct (Nat.eqb_spec (length p) 3); [contradiction|]. split; reflexivity.
Qed.
Print Assumptions C239_not_shown.
Example C239_cnn_example : let stimulus := [[0; 0]; [2; 0]; [6; 0]; [6; 1]]%Q in
  let dot a := Dot (nth a stimulus []) in let line a b := Line (nth a stimulus []) (nth b stimulus []) in
  exists m, create_weights case_distance case_expminus (Delaunay [[0; 1; 3]; [3; 1; 2]]) 1 stimulus = Ok m /\
  joined (Delaunay [[0; 1; 3]; [3; 1; 2]]) 1 2 /\
  cnn_show_network 4 (Some (stimulus, fst m)) = Ok [dot 0; line 0 1; line 0 3; dot 1; line 1 2; line 1 3; dot 2; line 2 3; dot 3].
Proof.
  cbv zeta. eexists. split; [vm_compute; reflexivity|]. split; [|vm_compute; reflexivity]. split; [discriminate|]. exists [3; 1; 2]. cbn. auto 10.
Qed.
