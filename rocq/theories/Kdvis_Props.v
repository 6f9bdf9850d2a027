(** C224: the picture of a kd-tree. *)
From Verif Require Import Base Search_Model Kd_Model Kd_Proofs Kdvis_Model.
From Coq Require Import Lqa.
Open Scope nat_scope.

Section Spec.
Context {P : Type}.
Notation item := (item P).
Notation tree := (tree P).

(** the region of a node: the part of the plane where the searches that reach
    it lead, without the limits of the picture *)
Fixpoint leads (path : list bool) (t : tree) (q : point) : Prop :=
  match path, t with
  | b :: path', KNode l x d r =>
      (if b then (coord (pt x) d <= coord q d)%Q else (coord q d <= coord (pt x) d)%Q) /\ leads path' (if b then r else l) q
  | _, _ => True
  end.

(** between two corners in both coordinates *)
Definition between (a b q : point) : Prop :=
  forall c, c < 2 -> (coord a c <= coord q c <= coord b c)%Q.

(** the corners of the smallest box around the points *)
Definition tight_box (l : list item) (mn mx : point) : Prop :=
  length mn = 2 /\ length mx = 2 /\
  (forall x, In x l -> between mn mx (pt x)) /\
  forall c, c < 2 -> (exists x, In x l /\ coord mn c = coord (pt x) c) /\ (exists x, In x l /\ coord mx c = coord (pt x) c).

Definition is_split (d : drawing) : bool := match d with Split _ _ _ => true | _ => false end.
Definition is_dot (d : drawing) : bool := match d with Dot _ _ => true | _ => false end.

(** ** Nodes *)

Definition data_of (n : tree) : list item := match n with KLeaf => [] | KNode _ x _ _ => [x] end.
Definition total_size (l : list tree) : nat := list_sum (map (@size P) l).
Definition proper (n : tree) : Prop := n <> KLeaf.

Lemma children_size n : proper n -> S (total_size (get_children n)) = size n.
Proof.
  unfold proper, total_size. destruct n as [|l x d r]; [congruence|]. intros _. cbn [get_children size].
  rewrite map_app, list_sum_app. destruct l, r; cbn; lia.
Qed.
Lemma children_proper n m : In m (get_children n) -> proper m.
Proof.
  unfold proper. destruct n as [|l x d r]; cbn; [contradiction|]. rewrite in_app_iff.
  destruct l, r; cbn; intros [H|H]; try contradiction; destruct H as [<-|[]]; discriminate.
Qed.
Lemma children_elements n : proper n ->
  Permutation (elements n) (data_of n ++ flat_map elements (get_children n)).
Proof.
  unfold proper. destruct n as [|l x d r]; [congruence|]. intros _. cbn [elements data_of get_children].
  rewrite flat_map_app.
  assert (E : forall t : tree, flat_map elements (match t with KLeaf => [] | _ => [t] end) = elements t).
  { intros [|a b c e]; [reflexivity|]. cbn [flat_map]. apply app_nil_r. }
  rewrite !E. cbn [app]. symmetry. apply Permutation_middle.
Qed.

Lemma total_children (l : list tree) : (forall n, In n l -> proper n) -> length l + total_size (flat_map get_children l) = total_size l.
Proof.
  unfold total_size. induction l as [|n l IH]; intros H; [reflexivity|]. cbn [flat_map map length list_sum].
  rewrite map_app, list_sum_app. specialize (IH (fun m Hm => H m (or_intror Hm))).
  pose proof (children_size n (H n (or_introl eq_refl))) as E. unfold total_size in E.
  change (list_sum (size n :: map (@size P) l)) with (size n + list_sum (map (@size P) l)). lia.
Qed.
Lemma elements_children (l : list tree) : (forall n, In n l -> proper n) ->
  Permutation (flat_map elements l) (flat_map data_of l ++ flat_map elements (flat_map get_children l)).
Proof.
  induction l as [|n l IH]; intros H; [apply Permutation_refl|]. cbn [flat_map]. rewrite flat_map_app.
  specialize (IH (fun m Hm => H m (or_intror Hm))).
  rewrite (children_elements n (H n (or_introl eq_refl))), IH.
  rewrite <- !app_assoc. apply Permutation_app_head. rewrite !app_assoc. apply Permutation_app_tail. apply Permutation_app_comm.
Qed.

Lemma levels_spec : forall fuel (l : list tree), (forall n, In n l -> proper n) -> total_size l < fuel ->
  exists nodes, levels fuel l = Ok nodes /\ Permutation (flat_map data_of nodes) (flat_map elements l).
Proof.
  induction fuel as [|fuel IH]; intros l H F; [lia|].
  destruct l as [|n l]; [exists []; split; [reflexivity|apply Permutation_refl]|].
  set (l' := n :: l) in *. change (levels (S fuel) l') with (do rest <- levels fuel (flat_map get_children l'); Ok (l' ++ rest)).
  destruct (IH (flat_map get_children l')) as (nodes & E & Pn).
  - intros m Hm. apply in_flat_map in Hm. destruct Hm as (k & _ & Hm). eapply children_proper; eauto.
  - pose proof (total_children l' H) as T. subst l'. cbn [length] in T. lia.
  - rewrite E. cbn [bind]. eexists. split; [reflexivity|]. rewrite flat_map_app. rewrite Pn. symmetry. apply elements_children. exact H.
Qed.

Lemma all_nodes_spec (t : tree) : t <> KLeaf -> exists nodes, get_all_nodes t = Ok nodes /\ Permutation nodes (elements t).
Proof.
  intros H. unfold get_all_nodes. destruct (levels_spec (S (size t)) [t]) as (nodes & E & Pn).
  - intros n [<-|[]]. exact H.
  - unfold total_size. cbn. lia.
  - rewrite E. cbn [bind]. eexists. split; [reflexivity|]. cbn [flat_map] in Pn. rewrite app_nil_r in Pn. exact Pn.
Qed.

(** ** Limits *)

Lemma lowest l : l <> [] -> exists m, fold_left lower_min l None = Some m /\ In m l /\ (forall v, In v l -> m <= v)%Q.
Proof.
  intros H. destruct l as [|v l]; [congruence|]. cbn [fold_left lower_min]. clear H.
  assert (G : forall l m, exists r, fold_left lower_min l (Some m) = Some r /\ (r = m \/ In r l) /\ (r <= m)%Q /\ (forall w, In w l -> r <= w)%Q).
  { clear. induction l as [|w l IH]; intros m; cbn [fold_left lower_min].
    - exists m. repeat split; auto; [lra|intros w []].
    - destruct (Qltb w m) eqn:E.
      + apply Qltb_true in E. destruct (IH w) as (r & Er & Hr & L & F). exists r. split; [exact Er|]. split; [destruct Hr as [->|Hr]; cbn; auto|].
        split; [lra|]. intros x [<-|Hx]; auto.
      + apply Qltb_false in E. destruct (IH m) as (r & Er & Hr & L & F). exists r. split; [exact Er|]. split; [destruct Hr as [->|Hr]; cbn; auto|].
        split; [lra|]. intros x [<-|Hx]; [lra|auto]. }
  destruct (G l v) as (r & Er & Hr & L & F). exists r. split; [exact Er|]. split; [destruct Hr as [->|Hr]; cbn; auto|].
  intros w [<-|Hw]; auto.
Qed.
Lemma highest l : l <> [] -> exists m, fold_left raise_max l None = Some m /\ In m l /\ (forall v, In v l -> v <= m)%Q.
Proof.
  intros H. destruct l as [|v l]; [congruence|]. cbn [fold_left raise_max]. clear H.
  assert (G : forall l m, exists r, fold_left raise_max l (Some m) = Some r /\ (r = m \/ In r l) /\ (m <= r)%Q /\ (forall w, In w l -> w <= r)%Q).
  { clear. induction l as [|w l IH]; intros m; cbn [fold_left raise_max].
    - exists m. repeat split; auto; [lra|intros w []].
    - destruct (Qltb m w) eqn:E.
      + apply Qltb_true in E. destruct (IH w) as (r & Er & Hr & L & F). exists r. split; [exact Er|]. split; [destruct Hr as [->|Hr]; cbn; auto|].
        split; [lra|]. intros x [<-|Hx]; auto.
      + apply Qltb_false in E. destruct (IH m) as (r & Er & Hr & L & F). exists r. split; [exact Er|]. split; [destruct Hr as [->|Hr]; cbn; auto|].
        split; [lra|]. intros x [<-|Hx]; [lra|auto]. }
  destruct (G l v) as (r & Er & Hr & L & F). exists r. split; [exact Er|]. split; [destruct Hr as [->|Hr]; cbn; auto|].
  intros w [<-|Hw]; auto.
Qed.

Lemma limits_spec (t : tree) : bst 2 t -> t <> KLeaf ->
  exists limits mn mx, get_limits t = Ok limits /\ finite (fst limits) = Ok mn /\ finite (snd limits) = Ok mx /\
    tight_box (elements t) mn mx.
Proof.
  intros B H. destruct (all_nodes_spec t H) as (nodes & E & Pn).
  assert (NE : nodes <> []).
  { intros ->. apply Permutation_nil in Pn. destruct t as [|l x d r]; [congruence|]. cbn in Pn. destruct (elements l); discriminate. }
  destruct t as [|l x d r]; [congruence|]. set (t := KNode l x d r) in *.
  assert (Lx : length (pt x) = 2) by apply B.
  unfold get_limits. unfold t at 1. fold t. rewrite E. cbn [bind]. rewrite Lx. cbn [seq map].
  set (col := fun d => map (fun x : item => coord (pt x) d) nodes).
  assert (Hc : forall d, col d <> []) by (intros d'; unfold col; destruct nodes; [congruence|discriminate]).
  destruct (lowest (col 0) (Hc 0)) as (m0 & Em0 & Im0 & Lm0). destruct (lowest (col 1) (Hc 1)) as (m1 & Em1 & Im1 & Lm1).
  destruct (highest (col 0) (Hc 0)) as (h0 & Eh0 & Ih0 & Lh0). destruct (highest (col 1) (Hc 1)) as (h1 & Eh1 & Ih1 & Lh1).
  eexists. exists [m0; m1], [h0; h1]. split; [reflexivity|]. cbn [fst snd].
  fold (col 0) (col 1). rewrite Em0, Em1, Eh0, Eh1. split; [reflexivity|]. split; [reflexivity|].
  assert (In_col : forall d v, In v (col d) <-> exists y, In y (elements t) /\ v = coord (pt y) d).
  { intros d' v. unfold col. rewrite in_map_iff. split; intros (y & A1 & A2).
    - exists y. split; [eapply Permutation_in; eauto|auto].
    - exists y. split; [auto|]. eapply Permutation_in; [symmetry; exact Pn|exact A1]. }
  split; [reflexivity|]. split; [reflexivity|]. split.
  - intros y Hy c Hc2. destruct c as [|[|c]]; [| |lia]; cbn [coord nth].
    + split; [apply Lm0|apply Lh0]; apply In_col; eauto.
    + split; [apply Lm1|apply Lh1]; apply In_col; eauto.
  - intros c Hc2. destruct c as [|[|c]]; [| |lia]; split.
    + apply In_col in Im0. exact Im0.
    + apply In_col in Ih0. exact Ih0.
    + apply In_col in Im1. exact Im1.
    + apply In_col in Ih1. exact Ih1.
Qed.

(** ** Drawing *)

Lemma coord_upd (p : point) d v c : d < length p -> coord (upd p d v) c = if c =? d then v else coord p c.
Proof.
  intros H. unfold coord. rewrite upd_nth. rewrite (Nat.eqb_sym d c). destruct (Nat.eqb_spec c d) as [E|N]; cbn [andb]; [subst d|reflexivity].
  destruct (Nat.ltb_spec c (length p)); [reflexivity|lia].
Qed.

Lemma between_left a b q d v : d < 2 -> length b = 2 -> (coord a d <= v <= coord b d)%Q ->
  (between a (upd b d v) q <-> between a b q /\ (coord q d <= v)%Q).
Proof.
  intros Hd L V. unfold between. split.
  - intros H. split.
    + intros c Hc. specialize (H c Hc). rewrite coord_upd in H by lia. destruct (Nat.eqb_spec c d) as [Ecd|N]; [rewrite Ecd in *|exact H]. lra.
    + specialize (H d Hd). rewrite coord_upd in H by lia. rewrite Nat.eqb_refl in H. lra.
  - intros [H1 H2] c Hc. specialize (H1 c Hc). rewrite coord_upd by lia. destruct (Nat.eqb_spec c d) as [Ecd|N]; [rewrite Ecd in *|exact H1]. lra.
Qed.
Lemma between_right a b q d v : d < 2 -> length a = 2 -> (coord a d <= v <= coord b d)%Q ->
  (between (upd a d v) b q <-> between a b q /\ (v <= coord q d)%Q).
Proof.
  intros Hd L V. unfold between. split.
  - intros H. split.
    + intros c Hc. specialize (H c Hc). rewrite coord_upd in H by lia. destruct (Nat.eqb_spec c d) as [Ecd|N]; [rewrite Ecd in *|exact H]. lra.
    + specialize (H d Hd). rewrite coord_upd in H by lia. rewrite Nat.eqb_refl in H. lra.
  - intros [H1 H2] c Hc. specialize (H1 c Hc). rewrite coord_upd by lia. destruct (Nat.eqb_spec c d) as [Ecd|N]; [rewrite Ecd in *|exact H1]. lra.
Qed.
Lemma between_line a b q d v : d < 2 -> length a = 2 -> length b = 2 -> (coord a d <= v <= coord b d)%Q ->
  (between (upd a d v) (upd b d v) q <-> between a b q /\ (coord q d == v)%Q).
Proof.
  intros Hd La Lb V. unfold between. split.
  - intros H. split.
    + intros c Hc. specialize (H c Hc). rewrite !coord_upd in H by lia. destruct (Nat.eqb_spec c d) as [Ecd|N]; [rewrite Ecd in *|exact H]. lra.
    + specialize (H d Hd). rewrite !coord_upd in H by lia. rewrite Nat.eqb_refl in H. lra.
  - intros [H1 H2] c Hc. specialize (H1 c Hc). rewrite !coord_upd by lia. destruct (Nat.eqb_spec c d) as [Ecd|N]; [rewrite Ecd in *|exact H1]. lra.
Qed.

(** the colours: vertical lines are blue, horizontal ones red *)
Definition colour_of_direction (d : nat) : split_colour := if d =? 0 then Blue else Red.

Lemma draw_node_spec (t : tree) : bst 2 t -> forall mn mx, length mn = 2 -> length mx = 2 ->
  (forall x, In x (elements t) -> between mn mx (pt x)) ->
  exists picture, draw_node t mn mx = Ok picture /\
    Permutation (filter is_dot picture) (map (fun x => Dot (coord (pt x) 0) (coord (pt x) 1)) (elements t)) /\
    length (filter is_split picture) = length (elements t) /\
    (forall path l x d r, subtree path t = Some (KNode l x d r) ->
       exists a b, In (Split a b (colour_of_direction d)) picture /\
         forall q, between a b q <-> between mn mx q /\ leads path t q /\ (coord q d == coord (pt x) d)%Q).
Proof.
  induction t as [|l IHl x d r IHr]; intros B mn mx L1 L2 H.
  - exists []. split; [reflexivity|]. split; [apply Permutation_refl|]. split; [reflexivity|].
    intros [|b path] l x d r E; discriminate.
  - cbn [bst] in B. destruct B as (Lx & Hd & Bl & Br & Ll & Lr).
    set (v := coord (pt x) d) in *.
    assert (V : (coord mn d <= v <= coord mx d)%Q) by (apply (H x); [cbn; apply in_or_app; right; left; reflexivity|exact Hd]).
    destruct (IHl Bl mn (upd mx d v)) as (pl_ & El & Dl & Sl & Cl); auto.
    { rewrite upd_length. exact L2. }
    { intros y Hy. apply between_left; auto. split; [apply H; cbn; apply in_or_app; auto|]. specialize (Ll y Hy). lra. }
    destruct (IHr Br (upd mn d v) mx) as (pr & Er & Dr & Sr & Cr); auto.
    { rewrite upd_length. exact L1. }
    { intros y Hy. apply between_right; auto. split; [apply H; cbn; apply in_or_app; right; right; exact Hy|]. exact (Lr y Hy). }
    cbn [draw_node]. unfold draw_split_line. rewrite L1. cbn [Nat.eqb].
    assert (Ec : split_colour_of d = Ok (colour_of_direction d)) by (destruct d as [|[|d]]; [reflexivity|reflexivity|lia]).
    rewrite Ec. cbn [bind]. fold v. rewrite El, Er. cbn [bind]. eexists. split; [reflexivity|]. split; [|split].
    + cbn [app filter is_dot]. rewrite filter_app. cbn [elements]. rewrite map_app. cbn [map].
      rewrite Dl, Dr. apply Permutation_middle.
    + cbn [app filter is_split length]. rewrite filter_app, app_length, Sl, Sr. cbn [elements]. rewrite app_length. cbn [length]. lia.
    + intros path l' x' d' r' E. destruct path as [|b path].
      * cbn [subtree] in E. injection E as <- <- <- <-. exists (upd mn d v), (upd mx d v). split; [cbn; auto|].
        intros q. rewrite between_line by auto. cbn [leads]. fold v. tauto.
      * cbn [subtree] in E. destruct b.
        -- destruct (Cr path l' x' d' r' E) as (a & b & I & F). exists a, b. split; [apply in_or_app; right; apply in_or_app; auto|].
           intros q. rewrite F. rewrite between_right by auto. cbn [leads]. fold v. tauto.
        -- destruct (Cl path l' x' d' r' E) as (a & b & I & F). exists a, b. split; [apply in_or_app; right; apply in_or_app; auto|].
           intros q. rewrite F. rewrite between_left by auto. cbn [leads]. fold v. tauto.
Qed.
End Spec.

(** For every history of a tree of points of the plane that is not empty: the
    limits are those of the smallest box around the stored points; there is one
    dot per stored point and one line per node; the line of a node is exactly
    the set of the places of its region, within the limits, that have the
    coordinate at which the node divides, vertical lines blue, horizontal ones
    red. *)
Theorem C224_picture :
  forall (P : Type) (pleq : P -> P -> bool) (init : option (list (item P))) (ops : list (op P)),
    init_ok 2 init -> Forall (op_dim 2) ops ->
  exists (k : kdt P) (l : list (item P)),
    (do k <- start init; run pleq k ops) = Ok k /\ mrun pleq (init_items init) ops l /\
    (l = [] -> visualize k = Raise ValueError) /\
    (l <> [] -> exists picture mn mx, visualize k = Ok (picture, mn, mx) /\ tight_box l mn mx /\
       Permutation (filter is_dot picture) (map (fun x => Dot (coord (pt x) 0) (coord (pt x) 1)) l) /\
       length (filter is_split picture) = length l /\
       forall path lt x d rt, subtree path (root k) = Some (KNode lt x d rt) ->
         exists a b, In (Split a b (if d =? 0 then Blue else Red)) picture /\
           forall q, between a b q <-> between mn mx q /\ leads path (root k) q /\ (coord q d == coord (pt x) d)%Q).
Proof.
  intros P pleq init ops Hi Ho.
  destruct (history_good pleq 2 ltac:(lia) init ops Hi Ho) as (k & l & E & M & B & Dm & Pm & Ln).
  exists k, l. split; [exact E|]. split; [exact M|]. split.
  - intros ->. unfold visualize. destruct (root k) as [|tl x d tr] eqn:R; [reflexivity|].
    symmetry in Pm. apply Permutation_nil in Pm. cbn in Pm. destruct (elements tl); discriminate.
  - intros Hl. assert (Hr : root k <> KLeaf).
    { intros R. rewrite R in Pm. cbn in Pm. apply Permutation_nil in Pm. congruence. }
    destruct (limits_spec (root k) B Hr) as (limits & mn & mx & E1 & E2 & E3 & T).
    destruct T as (T1 & T2 & T3 & T4).
    destruct (draw_node_spec (root k) B mn mx T1 T2 T3) as (picture & E4 & D & S & C).
    exists picture, mn, mx. split.
    { unfold visualize. rewrite E1. unfold verify. destruct (root k) as [|tl x d tr] eqn:R; [congruence|].
      cbn [bst] in B. destruct B as (Lx & _). rewrite Lx. cbn [Nat.eqb bind]. rewrite E2. cbn [bind]. rewrite E3. cbn [bind].
      rewrite E4. reflexivity. }
    split.
    { split; [exact T1|]. split; [exact T2|]. split.
      - intros x Hx. apply T3. eapply Permutation_in; [symmetry; exact Pm|exact Hx].
      - intros c Hc. destruct (T4 c Hc) as [(x & Hx & Ex) (y & Hy & Ey)].
        split; [exists x|exists y]; split; auto; eapply Permutation_in; eauto. }
    split; [rewrite D; apply Permutation_map; exact Pm|]. split; [rewrite S; apply Permutation_length; exact Pm|]. exact C.
Qed.
Print Assumptions C224_picture.

(** Trees of points of another dimension are refused. *)
Theorem C224_refused :
  forall (P : Type) (pleq : P -> P -> bool) (D : nat), 0 < D -> D <> 2 ->
  forall (init : option (list (item P))) (ops : list (op P)), init_ok D init -> Forall (op_dim D) ops ->
  exists k, (do k <- start init; run pleq k ops) = Ok k /\ exists e, visualize k = Raise e.
Proof.
  intros P pleq D HD N init ops Hi Ho.
  destruct (history_good pleq D HD init ops Hi Ho) as (k & l & E & M & B & _).
  exists k. split; [exact E|]. unfold visualize. destruct (root k) as [|tl x d tr]; [eexists; reflexivity|].
  cbn [bst] in B. destruct B as (Lx & _). cbn [verify]. rewrite Lx. destruct (Nat.eqb_spec D 2); [congruence|]. eexists. reflexivity.
Qed.
Print Assumptions C224_refused.

Definition kdv_ops : list (op nat) :=
  [OInsert (mkItem [1; 4]%Q 0); OInsert (mkItem [0; 2]%Q 1); OInsert (mkItem [5; 3]%Q 2); OInsert (mkItem [4; 6]%Q 3)].
Example C224_case : init_ok 2 (@None (list (item nat))) /\ Forall (op_dim 2) kdv_ops /\
  exists k, (do k <- start None; run Nat.eqb k kdv_ops) = Ok k /\
  visualize k = Ok ([Dot 1 4; Split [1; 2] [1; 6] Blue; Dot 0 2; Split [0; 2] [1; 2] Red; Dot 5 3; Split [1; 3] [5; 3] Red;
                     Dot 4 6; Split [4; 3] [4; 6] Blue]%Q, [0; 2]%Q, [5; 6]%Q).
Proof.
  split; [exact I|]. split; [repeat constructor|]. eexists. split; [vm_compute; reflexivity|]. vm_compute. reflexivity.
Qed.
