(** C234: the picture of a graph. *)
From Verif Require Import Base Syncview_Model Gdraw_Model.
From Verif Require Files_Model.
From Coq Require Import Lia Lqa.
Open Scope nat_scope.

Definition is_line (s : shape) : bool := match s with Line _ _ => true | Dot _ _ => false end.
Definition place (g : dgraph) (i : nat) : Q * Q := nth i (d_space g) (0%Q, 0%Q).
Definition segment (g : dgraph) (ij : nat * nat) : shape := Line (place g (fst ij)) (place g (snd ij)).

(** element [i][j] of the data *)
Definition entry (g : dgraph) (i j : nat) : option elem := match nth_error (d_data g) i with Some row => nth_error row j | None => None end.

Lemma at_nat_ok {A} (l : list A) i x : at_nat l i = Ok x -> i < length l /\ forall d, nth i l d = x.
Proof.
  unfold at_nat. destruct (nth_error l i) as [y|] eqn:E; [|discriminate]. intro H. injection H as ->. split; [apply nth_error_Some; congruence|].
  intro d. apply nth_error_nth. exact E.
Qed.

Lemma at_nat_some {A} (l : list A) i d : i < length l -> at_nat l i = Ok (nth i l d).
Proof. intro H. unfold at_nat. rewrite (nth_error_nth' l d H). reflexivity. Qed.

Lemma at_place g i : i < length (d_space g) -> at_nat (d_space g) i = Ok (place g i).
Proof. apply at_nat_some. Qed.

Definition one (g : dgraph) (i j : nat) : bool := match entry g i j with Some e => Qeq_bool (value_of e) 1 | None => false end.

Lemma matrix_lines_eq g i : forall js l, matrix_lines g i js = Ok l -> l = map (segment g) (filter (fun ij => one g (fst ij) (snd ij)) (map (fun j => (i, j)) js)).
Proof.
  induction js as [|j rest IH]; intros l E; cbn [matrix_lines] in E; [injection E as <-; reflexivity|].
  unfold at_nat at 1 in E. destruct (nth_error (d_data g) i) as [row|] eqn:Er; cbn [bind] in E; [|discriminate].
  unfold at_nat at 1 in E. destruct (nth_error row j) as [e|] eqn:Ee; cbn [bind] in E; [|discriminate].
  cbn [map filter fst snd]. assert (Eo : one g i j = Qeq_bool (value_of e) 1) by (unfold one, entry; rewrite Er, Ee; reflexivity).
  rewrite Eo. destruct (Qeq_bool (value_of e) 1).
  - destruct (at_nat (d_space g) i) as [a|ex] eqn:Ea; cbn [bind] in E; [|discriminate]. destruct (at_nat (d_space g) j) as [b|ex] eqn:Eb; cbn [bind] in E; [|discriminate].
    destruct (matrix_lines g i rest) as [o|ex] eqn:Eo2; cbn [bind] in E; [|discriminate]. injection E as <-. cbn [map app]. rewrite (IH o eq_refl). f_equal.
    unfold segment, place. cbn [fst snd]. rewrite (proj2 (at_nat_ok _ _ _ Ea)), (proj2 (at_nat_ok _ _ _ Eb)). reflexivity.
  - cbn [bind] in E. destruct (matrix_lines g i rest) as [o|ex] eqn:Eo2; cbn [bind] in E; [|discriminate]. injection E as <-. cbn [app]. apply IH. reflexivity.
Qed.

Lemma matrix_lines_total g i : i < length (d_space g) -> forall js, (forall j, In j js -> j < length (d_space g) /\ entry g i j <> None) -> exists l, matrix_lines g i js = Ok l.
Proof.
  intros Hi. induction js as [|j rest IH]; intro H; cbn [matrix_lines]; [eexists; reflexivity|].
  destruct (H j (or_introl eq_refl)) as (Hj & He). unfold entry in He. unfold at_nat at 1. destruct (nth_error (d_data g) i) as [row|]; [|congruence]. cbn [bind].
  unfold at_nat at 1. destruct (nth_error row j) as [e|]; [|congruence]. cbn [bind]. destruct IH as (l & ->); [intros k Hk; apply H; right; exact Hk|].
  destruct (Qeq_bool (value_of e) 1); [rewrite (at_place g i Hi), (at_place g j Hj)|]; cbn [bind]; eexists; reflexivity.
Qed.

Definition below (i : nat) (e : elem) : bool := Qltb (value_of e) (inject_Z (Z.of_nat i)).

Lemma vector_lines_eq g i : i < length (d_space g) -> forall js, (forall e, In e js -> exists k, e = EInt (Z.of_nat k)) ->
  vector_lines g i js = Ok (map (segment g) (filter (fun ij => snd ij <? i) (map (fun e => (i, match e with EInt z => Z.to_nat z | EFloat _ => 0 end)) js))).
Proof.
  intro Hi. induction js as [|j rest IH]; intro H; cbn [vector_lines]; [reflexivity|]. destruct (H j (or_introl eq_refl)) as (k & ->).
  rewrite IH by (intros e He; apply H; right; exact He). cbn [value_of map filter snd at_elem]. rewrite Nat2Z.id.
  assert (E : Qltb (inject_Z (Z.of_nat k)) (inject_Z (Z.of_nat i)) = (k <? i)).
  { destruct (Nat.ltb_spec k i) as [L|L].
    - apply Qltb_true. rewrite <- Zlt_Qlt. lia.
    - apply Qltb_false. rewrite <- Zle_Qle. lia. }
  rewrite E. destruct (Nat.ltb_spec k i) as [L|L]; cbn [bind app]; [|reflexivity].
  rewrite (at_place g i Hi). cbn [bind]. unfold py_get. destruct (Z.ltb_spec (Z.of_nat k) 0) as [|_]; [lia|]. destruct (Z.ltb_spec (Z.of_nat k) 0) as [|_]; [lia|].
  rewrite Nat2Z.id. rewrite (nth_error_nth' (d_space g) (0%Q, 0%Q)) by lia. cbn [bind app map]. reflexivity.
Qed.

Lemma filter_lines_map g P : filter is_line (map (segment g) P) = map (segment g) P.
Proof. induction P as [|x P IH]; [reflexivity|]. cbn [map filter is_line segment]. rewrite IH. reflexivity. Qed.

Lemma filter_dots_map g P : filter (fun s => negb (is_line s)) (map (segment g) P) = [].
Proof. induction P as [|x P IH]; [reflexivity|]. cbn [map filter is_line segment negb]. exact IH. Qed.

(** lines and dots of the whole picture *)
Lemma draw_vertices_parts g coloring (pairs : nat -> list (nat * nat)) (color : nat -> option nat) : forall is l,
  draw_vertices g coloring is = Ok l ->
  (forall i s, In i is -> draw_vertex g coloring i = Ok s -> s = map (segment g) (pairs i) ++ [Dot (place g i) (color i)]) ->
  filter is_line l = map (segment g) (flat_map pairs is) /\ filter (fun s => negb (is_line s)) l = map (fun i => Dot (place g i) (color i)) is.
Proof.
  induction is as [|i rest IH]; intros l E H; cbn [draw_vertices] in E; [injection E as <-; split; reflexivity|].
  destruct (draw_vertex g coloring i) as [s|ex] eqn:Es; cbn [bind] in E; [|discriminate]. destruct (draw_vertices g coloring rest) as [t|ex] eqn:Et; cbn [bind] in E; [|discriminate].
  injection E as <-. destruct (IH t eq_refl) as (I1 & I2); [intros; apply H; auto; right; auto|]. rewrite !filter_app, I1, I2.
  rewrite (H i s (or_introl eq_refl) Es), !filter_app, filter_lines_map, filter_dots_map. cbn [filter is_line negb app flat_map map]. rewrite map_app, app_nil_r. split; reflexivity.
Qed.

Lemma draw_vertices_total g coloring : forall is, (forall i, In i is -> exists s, draw_vertex g coloring i = Ok s) -> exists l, draw_vertices g coloring is = Ok l.
Proof.
  induction is as [|i rest IH]; intro H; cbn [draw_vertices]; [eexists; reflexivity|]. destruct (H i (or_introl eq_refl)) as (s & ->). cbn [bind].
  destruct IH as (t & ->); [intros; apply H; right; auto|]. eexists. reflexivity.
Qed.

(** colours of a coloring: the numbers 0 .. 19 *)
Definition usable (m : list Z) : Prop := Forall (fun c => (0 <= c < 20)%Z) m.
Definition color_of (coloring : option (list Z)) (i : nat) : option nat := match coloring with None => None | Some m => Some (Z.to_nat (nth i m 0%Z)) end.

Definition fits (g : dgraph) (coloring : option (list Z)) : Prop :=
  match coloring with None => True | Some m => length m = length (d_data g) /\ length (d_space g) <= length m /\ length m <= 20 /\ usable m end.

Lemma color_ok g coloring i : fits g coloring -> i < length (d_space g) ->
  match coloring with None => Ok None | Some m => do c <- at_nat m i; do k <- py_get available_colors c; Ok (Some k) end = Ok (color_of coloring i).
Proof.
  destruct coloring as [m|]; cbn [fits color_of]; [|reflexivity]. intros (_ & L & _ & U) Hi. rewrite (at_nat_some m i 0%Z) by lia. cbn [bind].
  unfold usable in U. rewrite Forall_forall in U. assert (B : (0 <= nth i m 0 < 20)%Z) by (apply U, nth_In; lia).
  unfold py_get. destruct (Z.ltb_spec (nth i m 0%Z) 0) as [|_]; [lia|]. destruct (Z.ltb_spec (nth i m 0%Z) 0) as [|_]; [lia|].
  unfold available_colors. rewrite (nth_error_nth' _ 0) by (rewrite seq_length; lia). rewrite seq_nth by lia. reflexivity.
Qed.

Lemma draw_ok g coloring : d_space g <> [] -> fits g coloring -> forall shapes, draw_vertices g coloring (seq 0 (length (d_space g))) = Ok shapes ->
  exists xl yl, draw_graph g coloring = Ok (shapes, xl, yl).
Proof.
  intros Hs Hf shapes E. unfold draw_graph. rewrite E. destruct (d_space g) as [|p ps]; [congruence|].
  assert (X : forall (l : list Q) lo hi, exists r, fold_left (fun acc x => match acc with None => Some (x, x) | Some (lo, hi) => Some (if Qltb x lo then x else lo, if Qltb hi x then x else hi) end) l (Some (lo, hi)) = Some r)
    by (induction l as [|y l IH]; intros lo hi; cbn [fold_left]; [eexists; reflexivity|apply IH]).
  unfold extent. cbn [map fold_left]. destruct (X (map fst ps) (fst p) (fst p)) as ([x0 x1] & ->). destruct (X (map snd ps) (snd p) (snd p)) as ([y0 y1] & ->).
  destruct coloring as [m|]; cbn [fits] in Hf; [|cbn [bind]; do 2 eexists; reflexivity]. destruct Hf as (L1 & _ & L3 & _). rewrite <- L1, Nat.eqb_refl. cbn [negb].
  destruct (Nat.ltb_spec (length available_colors) (length m)) as [B|_]; [unfold available_colors in B; rewrite seq_length in B; lia|]. cbn [bind]. do 2 eexists. reflexivity.
Qed.

Lemma draw_inv g coloring shapes xl yl : draw_graph g coloring = Ok (shapes, xl, yl) -> draw_vertices g coloring (seq 0 (length (d_space g))) = Ok shapes.
Proof.
  unfold draw_graph. destruct (d_space g) as [|p ps] eqn:Es; [discriminate|].
  destruct (match coloring with None => Ok tt | Some m => if negb (length (d_data g) =? length m) then Raise NameError else if length available_colors <? length m then Raise NameError else Ok tt end) as [u|e]; cbn [bind]; [|discriminate].
  destruct (draw_vertices g coloring (seq 0 (length (p :: ps)))) as [s|e]; cbn [bind]; [|discriminate].
  destruct (extent (map fst (p :: ps))) as [[x0 x1]|]; [|discriminate]. destruct (extent (map snd (p :: ps))) as [[y0 y1]|]; [|discriminate]. intro H. injection H as <- _ _. reflexivity.
Qed.

Lemma nodup_flat_map {A} (f : nat -> list (nat * A)) is : NoDup is -> (forall i, In i is -> NoDup (f i) /\ forall x, In x (f i) -> fst x = i) -> NoDup (flat_map f is).
Proof.
  induction is as [|i rest IH]; intros Hn H; cbn [flat_map]; [constructor|]. apply NoDup_cons_iff in Hn. destruct Hn as (Hi & Hn).
  apply NoDup_app_intro; [apply H; left; reflexivity|apply IH; auto; intros; apply H; right; auto|].
  intros x Hx Hy. apply in_flat_map in Hy. destruct Hy as (k & Hk & Hy). apply H in Hx; [|left; reflexivity]. apply H in Hy; [|right; exact Hk]. congruence.
Qed.

(** ** a graph described by a matrix *)
Theorem C234_matrix (g : dgraph) (coloring : option (list Z)) : d_type g = TMatrix -> d_space g <> [] -> fits g coloring ->
  (forall i j, i < length (d_space g) -> j < length (d_space g) -> entry g i j <> None) ->
  exists shapes xl yl (P : list (nat * nat)), draw_graph g coloring = Ok (shapes, xl, yl) /\
    (* every connection is one line *)
    filter is_line shapes = map (segment g) P /\ NoDup P /\
    (forall i j, In (i, j) P <-> i <= j < length (d_space g) /\ exists e, entry g i j = Some e /\ (value_of e == 1)%Q) /\
    (* every vertex is one dot in its colour *)
    filter (fun s => negb (is_line s)) shapes = map (fun i => Dot (place g i) (color_of coloring i)) (seq 0 (length (d_space g))).
Proof.
  intros Ht Hs Hf He. set (n := length (d_space g)) in *.
  set (pairs := fun i => filter (fun ij => one g (fst ij) (snd ij)) (map (fun j => (i, j)) (seq i (n - i)))).
  assert (V : forall i, In i (seq 0 n) -> draw_vertex g coloring i = Ok (map (segment g) (pairs i) ++ [Dot (place g i) (color_of coloring i)])).
  { intros i Hi. apply in_seq in Hi. unfold draw_vertex. rewrite Ht. fold n. destruct (matrix_lines_total g i) with (js := seq i (n - i)) as (l & El); [fold n; lia| |].
    - intros j Hj. apply in_seq in Hj. split; [fold n; lia|apply He; lia].
    - rewrite El. cbn [bind]. rewrite (color_ok g coloring i Hf) by (fold n; lia). cbn [bind]. rewrite (at_place g i) by (fold n; lia). cbn [bind]. rewrite (matrix_lines_eq _ _ _ _ El). reflexivity. }
  destruct (draw_vertices_total g coloring (seq 0 n)) as (shapes & Es); [intros i Hi; eexists; apply V; exact Hi|].
  destruct (draw_ok g coloring Hs Hf shapes Es) as (xl & yl & Ed).
  destruct (draw_vertices_parts g coloring pairs (color_of coloring) _ _ Es) as (D1 & D2); [intros i s Hi E; rewrite (V i Hi) in E; injection E as <-; reflexivity|].
  exists shapes, xl, yl, (flat_map pairs (seq 0 n)). split; [exact Ed|]. split; [exact D1|]. split; [|split; [|exact D2]].
  - apply nodup_flat_map; [apply seq_NoDup|]. intros i _. unfold pairs. split.
    + apply NoDup_filter. apply FinFun.Injective_map_NoDup; [intros a b E; congruence|apply seq_NoDup].
    + intros x Hx. apply filter_In in Hx. destruct Hx as (Hx & _). apply in_map_iff in Hx. destruct Hx as (j & <- & _). reflexivity.
  - intros i j. rewrite in_flat_map. unfold pairs. split.
    + intros (k & Hk & H). apply filter_In in H. destruct H as (H & Ho). apply in_map_iff in H. destruct H as (j' & E & Hj). injection E as -> ->. apply in_seq in Hj. apply in_seq in Hk.
      cbn [fst snd] in Ho. unfold one in Ho. destruct (entry g i j) as [e|]; [|discriminate]. split; [lia|]. exists e. split; [reflexivity|]. apply Qeq_bool_iff. exact Ho.
    + intros (Hij & e & E & Hv). exists i. split; [apply in_seq; lia|]. apply filter_In. split; [apply in_map_iff; exists j; split; [reflexivity|apply in_seq; lia]|].
      cbn [fst snd]. unfold one. rewrite E. apply Qeq_bool_iff. exact Hv.
Qed.
Print Assumptions C234_matrix.

(** ** a graph described by lists of neighbours *)
Definition neighbours (g : dgraph) (i : nat) : list elem := nth i (d_data g) [].

(** the neighbours given as whole numbers; the lines are the neighbours with smaller number *)
Theorem C234_vector (g : dgraph) (coloring : option (list Z)) : d_type g = TVector -> d_space g <> [] -> fits g coloring -> length (d_space g) <= length (d_data g) ->
  (forall i e, In e (neighbours g i) -> exists k, e = EInt (Z.of_nat k)) ->
  exists shapes xl yl (P : list (nat * nat)), draw_graph g coloring = Ok (shapes, xl, yl) /\
    filter is_line shapes = map (segment g) P /\ ((forall i, NoDup (neighbours g i)) -> NoDup P) /\
    (forall i j, In (i, j) P <-> j < i < length (d_space g) /\ In (EInt (Z.of_nat j)) (neighbours g i)) /\
    filter (fun s => negb (is_line s)) shapes = map (fun i => Dot (place g i) (color_of coloring i)) (seq 0 (length (d_space g))).
Proof.
  intros Ht Hs Hf Hl He. set (n := length (d_space g)) in *.
  set (num := fun e => match e with EInt z => Z.to_nat z | EFloat _ => 0 end).
  set (pairs := fun i => filter (fun ij => snd ij <? i) (map (fun e => (i, num e)) (neighbours g i))).
  assert (V : forall i, In i (seq 0 n) -> draw_vertex g coloring i = Ok (map (segment g) (pairs i) ++ [Dot (place g i) (color_of coloring i)])).
  { intros i Hi. apply in_seq in Hi. unfold draw_vertex. rewrite Ht. fold n. rewrite (at_nat_some (d_data g) i []) by lia. cbn [bind]. fold (neighbours g i).
    rewrite (vector_lines_eq g i) by (try (fold n; lia); apply He). cbn [bind]. rewrite (color_ok g coloring i Hf) by (fold n; lia). cbn [bind]. rewrite (at_place g i) by (fold n; lia). reflexivity. }
  destruct (draw_vertices_total g coloring (seq 0 n)) as (shapes & Es); [intros i Hi; eexists; apply V; exact Hi|].
  destruct (draw_ok g coloring Hs Hf shapes Es) as (xl & yl & Ed).
  destruct (draw_vertices_parts g coloring pairs (color_of coloring) _ _ Es) as (D1 & D2); [intros i s Hi E; rewrite (V i Hi) in E; injection E as <-; reflexivity|].
  exists shapes, xl, yl, (flat_map pairs (seq 0 n)). split; [exact Ed|]. split; [exact D1|]. split; [|split; [|exact D2]].
  - intro Hn. apply nodup_flat_map; [apply seq_NoDup|]. intros i _. unfold pairs. split.
    + apply NoDup_filter. specialize (Hn i). specialize (He i). induction (neighbours g i) as [|e l IH]; [constructor|]. cbn [map]. apply NoDup_cons_iff in Hn. destruct Hn as (H1 & H2). constructor.
      * intro H. apply in_map_iff in H. destruct H as (e' & E & H). destruct (He e (or_introl eq_refl)) as (k & ->). destruct (He e' (or_intror H)) as (k' & ->).
        injection E as E. unfold num in E. rewrite !Nat2Z.id in E. subst k'. exact (H1 H).
      * apply IH; auto. intros e' H. apply He. right. exact H.
    + intros x Hx. apply filter_In in Hx. destruct Hx as (Hx & _). apply in_map_iff in Hx. destruct Hx as (j & <- & _). reflexivity.
  - intros i j. rewrite in_flat_map. unfold pairs. split.
    + intros (k & Hk & H). apply filter_In in H. destruct H as (H & Ho). apply in_map_iff in H. destruct H as (e & E & Hj). injection E as <- <-. apply in_seq in Hk.
      cbn [snd] in Ho. apply Nat.ltb_lt in Ho. split; [lia|]. destruct (He k e Hj) as (j & ->). unfold num. rewrite Nat2Z.id. exact Hj.
    + intros (Hij & H). exists i. split; [apply in_seq; lia|]. apply filter_In. cbn [snd]. split; [|apply Nat.ltb_lt; lia].
      apply in_map_iff. exists (EInt (Z.of_nat j)). split; [unfold num; rewrite Nat2Z.id; reflexivity|exact H].
Qed.
Print Assumptions C234_vector.

(** ... so a connection that only the vertex with the smaller number has in its list is not drawn *)
Theorem C234_one_sided_refuted : exists g shapes xl yl,
  d_type g = TVector /\ neighbours g 0 = [EInt 1] /\ draw_graph g None = Ok (shapes, xl, yl) /\ filter is_line shapes = [].
Proof. exists (mkDGraph [[EInt 1]; []] TVector [(0, 0); (1, 1)]%Q). do 3 eexists. split; [reflexivity|]. split; [reflexivity|]. split; vm_compute; reflexivity. Qed.
Print Assumptions C234_one_sided_refuted.

(** a file with lists of neighbours can be drawn only when there is no connection to draw *)
Lemma float_lines g i : i < length (d_space g) -> forall js, (forall e, In e js -> exists q, e = EFloat q) ->
  match vector_lines g i js with
  | Ok l => l = [] /\ forall e, In e js -> below i e = false
  | Raise x => x = TypeError /\ exists e, In e js /\ below i e = true
  end.
Proof.
  intro Hi. induction js as [|j rest IH]; intro H; cbn [vector_lines]; [split; [reflexivity|intros e []]|].
  destruct (H j (or_introl eq_refl)) as (q & ->). change (Qltb (value_of (EFloat q)) (inject_Z (Z.of_nat i))) with (below i (EFloat q)).
  destruct (below i (EFloat q)) eqn:B.
  - rewrite (at_place g i Hi). cbn [bind at_elem]. split; [reflexivity|]. exists (EFloat q). split; [left; reflexivity|exact B].
  - cbn [bind]. specialize (IH (fun e He => H e (or_intror He))). destruct (vector_lines g i rest) as [o|x]; cbn [bind app].
    + destruct IH as (-> & IH). split; [reflexivity|]. intros e [<-|He]; auto.
    + destruct IH as (-> & e & He & IH). split; [reflexivity|]. exists e. split; [right; exact He|exact IH].
Qed.

Theorem C234_vector_file (f : Files_Model.graph) (i : nat) (q : Q) : Files_Model.g_descr f = Files_Model.GVector ->
  length (Files_Model.g_data f) = length (Files_Model.g_space f) -> i < length (Files_Model.g_data f) ->
  In q (nth i (Files_Model.g_data f) []) -> (q < inject_Z (Z.of_nat i))%Q -> draw_graph (of_file f) None = Raise TypeError.
Proof.
  intros Hd Hl Hi Hq Hlt. set (g := of_file f).
  assert (Ls : length (d_space g) = length (Files_Model.g_data f)) by (unfold g, of_file; cbn [d_space]; rewrite map_length; lia).
  assert (Ld : length (d_data g) = length (Files_Model.g_data f)) by (unfold g, of_file; cbn [d_data]; rewrite map_length; lia).
  assert (Fl : forall k e, In e (neighbours g k) -> exists q, e = EFloat q).
  { intros k e H. unfold neighbours, g, of_file in H. cbn [d_data] in H. change (@nil elem) with (map EFloat []) in H. rewrite map_nth in H. apply in_map_iff in H. destruct H as (q' & <- & _). eauto. }
  assert (Ht : d_type g = TVector) by (unfold g, of_file; rewrite Hd; reflexivity).
  assert (K : forall k, k < length (d_space g) -> (exists s, draw_vertex g None k = Ok s) \/ draw_vertex g None k = Raise TypeError).
  { intros k Hk. unfold draw_vertex. rewrite Ht. rewrite (at_nat_some (d_data g) k []) by lia. cbn [bind]. fold (neighbours g k). pose proof (float_lines g k Hk (neighbours g k) (Fl k)) as P.
    destruct (vector_lines g k (neighbours g k)) as [l|x]; cbn [bind]; [left|right; destruct P as (-> & _); reflexivity]. rewrite (at_place g k Hk). cbn [bind]. eauto. }
  assert (Ki : draw_vertex g None i = Raise TypeError).
  { unfold draw_vertex. rewrite Ht. rewrite (at_nat_some (d_data g) i []) by lia. cbn [bind]. fold (neighbours g i). pose proof (float_lines g i ltac:(lia) (neighbours g i) (Fl i)) as P.
    destruct (vector_lines g i (neighbours g i)) as [l|x]; cbn [bind]; [|destruct P as (-> & _); reflexivity]. exfalso. destruct P as (_ & P).
    assert (In (EFloat q) (neighbours g i)) as Hin. { unfold neighbours, g, of_file. cbn [d_data]. change (@nil elem) with (map EFloat []). rewrite map_nth. apply in_map. exact Hq. }
    specialize (P _ Hin). unfold below in P. cbn [value_of] in P. apply Qltb_false in P. exact (Qlt_not_le _ _ Hlt P). }
  assert (Kn : forall is, (forall k, In k is -> k < length (d_space g)) -> In i is -> draw_vertices g None is = Raise TypeError).
  { induction is as [|k rest IH]; intros Hb Hin; [destruct Hin|]. cbn [draw_vertices]. destruct (K k (Hb k (or_introl eq_refl))) as [(s & E)|E]; [|rewrite E; reflexivity].
    rewrite E. cbn [bind]. destruct Hin as [->|Hin]; [rewrite Ki in E; discriminate|]. rewrite IH; auto. intros k' Hk'. apply Hb. right. exact Hk'. }
  unfold draw_graph. rewrite Kn by (try apply in_seq; try (intros k Hk; apply in_seq in Hk); lia).
  destruct (d_space g) as [|p ps]; [cbn in Ls; lia|]. reflexivity.
Qed.
Print Assumptions C234_vector_file.

(** the file
      r 0 0 / r 1 1 / v 1 / v 0
    describes two connected vertices and can be read, but not drawn *)
Theorem C234_file_refuted : exists lines f, Files_Model.read_graph lines = Ok f /\ Files_Model.g_space f <> [] /\ draw_graph (of_file f) None = Raise TypeError.
Proof.
  exists [Files_Model.LSpace [0; 0]%Q; Files_Model.LSpace [1; 1]%Q; Files_Model.LVector [1%Q]; Files_Model.LVector [0%Q]].
  eexists. split; [vm_compute; reflexivity|]. split; [discriminate|]. apply (C234_vector_file _ 1 0%Q); try reflexivity; cbn; auto.
Qed.
Print Assumptions C234_file_refuted.

(** ** limits, refusals *)
Lemma extent_spec : forall l lo hi, (exists a b, fold_left (fun acc x => match acc with None => Some (x, x) | Some (lo, hi) => Some (if Qltb x lo then x else lo, if Qltb hi x then x else hi) end) l (Some (lo, hi)) = Some (a, b) /\
  In a (lo :: l) /\ In b (hi :: l) /\ (a <= lo)%Q /\ (hi <= b)%Q /\ forall x, In x l -> (a <= x <= b)%Q).
Proof.
  induction l as [|y l IH]; intros lo hi; cbn [fold_left].
  - exists lo, hi. split; [reflexivity|]. split; [left; reflexivity|]. split; [left; reflexivity|]. split; [apply Qle_refl|]. split; [apply Qle_refl|]. intros x [].
  - destruct (IH (if Qltb y lo then y else lo) (if Qltb hi y then y else hi)) as (a & b & E & Ha & Hb & La & Lb & H). exists a, b. split; [exact E|].
    destruct (Qltb y lo) eqn:B1; destruct (Qltb hi y) eqn:B2; (apply Qltb_true in B1 || apply Qltb_false in B1); (apply Qltb_true in B2 || apply Qltb_false in B2);
      (split; [destruct Ha as [<-|Ha]; cbn; auto|]); (split; [destruct Hb as [<-|Hb]; cbn; auto|]); (split; [lra|]); (split; [lra|]); intros x [<-|Hx]; auto; lra.
Qed.

Lemma extent_ok l lo hi : extent l = Some (lo, hi) -> In lo l /\ In hi l /\ forall x, In x l -> (lo <= x <= hi)%Q.
Proof.
  unfold extent. destruct l as [|y l]; cbn [fold_left]; [discriminate|]. destruct (extent_spec l y y) as (a & b & E & Ha & Hb & La & Lb & H). rewrite E. intro X. injection X as <- <-.
  split; [exact Ha|]. split; [exact Hb|]. intros x [<-|Hx]; auto.
Qed.

(** the limits leave half a unit around the smallest box with all vertices *)
Theorem C234_limits g coloring shapes xl yl : draw_graph g coloring = Ok (shapes, xl, yl) ->
  (forall p, In p (d_space g) -> (fst xl + (1 # 2) <= fst p <= snd xl - (1 # 2))%Q /\ (fst yl + (1 # 2) <= snd p <= snd yl - (1 # 2))%Q) /\
  (exists p1 p2 p3 p4, In p1 (d_space g) /\ In p2 (d_space g) /\ In p3 (d_space g) /\ In p4 (d_space g) /\
     fst xl = (fst p1 - (1 # 2))%Q /\ snd xl = (fst p2 + (1 # 2))%Q /\ fst yl = (snd p3 - (1 # 2))%Q /\ snd yl = (snd p4 + (1 # 2))%Q).
Proof.
  unfold draw_graph. destruct (d_space g) as [|p ps] eqn:Es; [discriminate|].
  destruct (match coloring with None => Ok tt | Some m => if negb (length (d_data g) =? length m) then Raise NameError else if length available_colors <? length m then Raise NameError else Ok tt end) as [u|e]; cbn [bind]; [|discriminate].
  destruct (draw_vertices g coloring (seq 0 (length (p :: ps)))) as [s|e]; cbn [bind]; [|discriminate].
  destruct (extent (map fst (p :: ps))) as [[x0 x1]|] eqn:E1; [|discriminate]. destruct (extent (map snd (p :: ps))) as [[y0 y1]|] eqn:E2; [|discriminate]. intro H. injection H as _ <- <-.
  apply extent_ok in E1. apply extent_ok in E2. destruct E1 as (A1 & A2 & A3). destruct E2 as (B1 & B2 & B3). cbn [fst snd]. split.
  - intros q Hq. pose proof (A3 (fst q) (in_map fst _ _ Hq)). pose proof (B3 (snd q) (in_map snd _ _ Hq)). split; lra.
  - apply in_map_iff in A1, A2, B1, B2. destruct A1 as (p1 & <- & H1), A2 as (p2 & <- & H2), B1 as (p3 & <- & H3), B2 as (p4 & <- & H4). exists p1, p2, p3, p4. auto 10.
Qed.
Print Assumptions C234_limits.

(** no places, or a coloring of another length, are refused; so is a coloring of more than 20
    vertices, however few colours it has *)
Theorem C234_refused g coloring : d_space g = [] \/ (exists m, coloring = Some m /\ (length m <> length (d_data g) \/ 20 < length m)) -> draw_graph g coloring = Raise NameError.
Proof.
  intro H. unfold draw_graph. destruct (d_space g) as [|p ps]; [reflexivity|]. destruct H as [H|(m & -> & H)]; [discriminate|].
  destruct (Nat.eqb_spec (length (d_data g)) (length m)) as [E|E]; cbn [negb]; [|reflexivity]. destruct H as [H|H]; [congruence|].
  destruct (Nat.ltb_spec (length available_colors) (length m)) as [_|B]; [reflexivity|]. unfold available_colors in B. rewrite seq_length in B. lia.
Qed.
Print Assumptions C234_refused.

(** "Impossible to represent colored graph due to number of specified colors" is said of a graph
    with one colour *)
Theorem C234_colors_refuted : exists g m, fits g None /\ length (d_space g) = length m /\ length (d_data g) = length m /\ (forall c, In c m -> c = 0%Z) /\ d_type g = TVector /\
  (exists pic, draw_graph g None = Ok pic) /\ draw_graph g (Some m) = Raise NameError.
Proof.
  exists (mkDGraph (repeat [] 21) TVector (repeat (0, 0)%Q 21)), (repeat 0%Z 21). split; [exact I|]. split; [reflexivity|]. split; [reflexivity|]. split; [intros c; apply repeat_spec|]. split; [reflexivity|].
  split; [eexists; vm_compute; reflexivity|vm_compute; reflexivity].
Qed.
Print Assumptions C234_colors_refuted.

Example C234_case : let g := mkDGraph [[EInt 0; EInt 1; EInt 1]; [EInt 1; EInt 0; EInt 0]; [EInt 1; EInt 0; EInt 0]] TMatrix [(0, 0); (2, 0); (0, 3)]%Q in
  d_space g <> [] /\ fits g (Some [0; 1; 1]%Z) /\ (forall i j, i < 3 -> j < 3 -> entry g i j <> None) /\
  exists xl yl, draw_graph g (Some [0; 1; 1]%Z) =
    Ok ([Line (0, 0) (2, 0); Line (0, 0) (0, 3); Dot (0, 0) (Some 0%nat); Dot (2, 0) (Some 1%nat); Dot (0, 3) (Some 1%nat)]%Q, xl, yl).
Proof.
  cbn zeta. split; [discriminate|]. split; [cbn; split; [reflexivity|split; [lia|split; [lia|]]]; repeat constructor; lia|]. split.
  - intros i j Hi Hj. destruct i as [|[|[|i]]]; [| | |lia]; destruct j as [|[|[|j]]]; try lia; discriminate.
  - do 2 eexists. vm_compute. reflexivity.
Qed.
