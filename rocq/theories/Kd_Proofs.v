(** Specification and proofs for the kd-tree (C01-C04). *)
From Verif Require Import Base Search_Model Search_Proofs Kd_Model.

(** ** Specification: a multiset of (point, payload) elements *)
Section Spec.
Context {P : Type}.
Variable pleq : P -> P -> bool.

(** what a removal request designates *)
Definition matches_op (o : op P) (x : item P) : Prop :=
  match o with
  | OInsert _ => False
  | ORemove p => peq (pt x) p
  | ORemovePayload p q => peq (pt x) p /\ pleq (pl x) q = true
  end.

(** effect of one call on the stored multiset *)
Inductive mstep : list (item P) -> op P -> list (item P) -> Prop :=
| ms_insert : forall l x, mstep l (OInsert x) (x :: l)
| ms_remove : forall l l' o x, matches_op o x -> Permutation l (x :: l') -> mstep l o l'
| ms_absent : forall l o, (forall x, o <> OInsert x) ->
    (forall x, In x l -> ~ matches_op o x) -> mstep l o l.

Inductive mrun : list (item P) -> list (op P) -> list (item P) -> Prop :=
| mr_nil : forall l, mrun l [] l
| mr_cons : forall l l1 l2 o ops, mstep l o l1 -> mrun l1 ops l2 -> mrun l (o :: ops) l2.

(** all points of the history have [D] coordinates *)
Definition op_dim (D : nat) (o : op P) : Prop :=
  match o with
  | OInsert x => length (pt x) = D
  | ORemove p => length p = D
  | ORemovePayload p _ => length p = D
  end.

Definition init_ok (D : nat) (init : option (list (item P))) : Prop :=
  match init with
  | None => True
  | Some l => l <> [] /\ Forall (fun x => length (pt x) = D) l
  end.

Definition init_items (init : option (list (item P))) : list (item P) :=
  match init with None => [] | Some l => l end.

(** elements met by walking the tree from [get_root] *)
Fixpoint elements (t : tree P) : list (item P) :=
  match t with KLeaf => [] | KNode l x _ r => elements l ++ x :: elements r end.

(** within the ball *)
Definition within (p : point) (d : Q) (x : item P) : bool := Qle_bool (sqdist p (pt x)) (d * d).
End Spec.

(** ** Search-tree invariant *)
Section Proofs.
Context {P : Type}.
Variable pleq : P -> P -> bool.
Variable D : nat.
Hypothesis HD : 0 < D.

Notation item := (item P).
Notation tree := (tree P).

Fixpoint bst (t : tree) : Prop :=
  match t with
  | KLeaf => True
  | KNode l x d r =>
    length (pt x) = D /\ d < D /\ bst l /\ bst r /\
    (forall y, In y (elements l) -> coord (pt y) d < coord (pt x) d)%Q /\
    (forall y, In y (elements r) -> coord (pt x) d <= coord (pt y) d)%Q
  end.

Lemma bst_length t : bst t -> forall x, In x (elements t) -> length (pt x) = D.
Proof.
  induction t as [|l IHl x d r IHr]; simpl; [intros _ y []|].
  intros (Hx & _ & Hl & Hr & _) y Hy. apply in_app_or in Hy as [Hy|[<-|Hy]]; auto.
Qed.

Lemma elements_size (t : tree) : length (elements t) = size t.
Proof. induction t as [|l IHl x d r IHr]; simpl; [reflexivity|]. rewrite app_length; simpl; lia. Qed.

(** *** sorting *)
Lemma ins_by_perm d (x : item) l : Permutation (ins_by d x l) (x :: l).
Proof.
  induction l as [|y t IH]; simpl; [reflexivity|].
  destruct (Qle_bool _ _); [reflexivity|].
  rewrite IH. apply perm_swap.
Qed.

Lemma sort_by_perm d (l : list item) : Permutation (sort_by d l) l.
Proof.
  induction l as [|x t IH]; simpl; [reflexivity|].
  rewrite ins_by_perm. constructor. exact IH.
Qed.

Definition kle (d : nat) (x y : item) : Prop := (coord (pt x) d <= coord (pt y) d)%Q.

Lemma ins_by_sorted d (x : item) l : StronglySorted (kle d) l -> StronglySorted (kle d) (ins_by d x l).
Proof.
  induction 1 as [|y t Ht IH Hy]; simpl; [repeat constructor|].
  destruct (Qle_bool (coord (pt x) d) (coord (pt y) d)) eqn:E.
  - apply Qle_bool_iff in E. constructor; [constructor; auto|].
    constructor; [exact E|]. rewrite Forall_forall in *. intros z Hz. specialize (Hy z Hz).
    unfold kle in *. lra.
  - apply Qle_bool_false in E. constructor; [exact IH|].
    rewrite Forall_forall in *. intros z Hz.
    apply (Permutation_in _ (ins_by_perm d x t)) in Hz. destruct Hz as [<-|Hz]; [unfold kle; lra|auto].
Qed.

Lemma sort_by_sorted d (l : list item) : StronglySorted (kle d) (sort_by d l).
Proof. induction l as [|x t IH]; simpl; [constructor|]. apply ins_by_sorted, IH. Qed.

Lemma ssorted_nth d (l : list item) : StronglySorted (kle d) l ->
  forall i j x y, i <= j -> nth_error l i = Some x -> nth_error l j = Some y -> kle d x y.
Proof.
  induction 1 as [|a t Ht IH Ha]; intros i j x y Hij Hx Hy; [destruct i; discriminate|].
  destruct i as [|i], j as [|j]; simpl in *; try lia.
  - injection Hx as ->. injection Hy as ->. apply Qle_refl.
  - injection Hx as ->. rewrite Forall_forall in Ha. apply Ha. eapply nth_error_In; eauto.
  - eapply (IH i j); eauto. lia.
Qed.

Lemma ssorted_sorted_by d (l : list item) : StronglySorted (kle d) l ->
  sorted_by (fun n1 n2 => Qltb (coord (pt n1) d) (coord (pt n2) d)) l.
Proof.
  intros H i j x y Hij Hx Hy. apply Qltb_false. eapply ssorted_nth; eauto.
Qed.

(** *** construction *)
Lemma nth_error_split_at {A} (l : list A) i x : nth_error l i = Some x ->
  l = firstn i l ++ x :: skipn (i + 1) l.
Proof.
  revert i; induction l as [|a t IH]; intros [|i] H; simpl in *; try discriminate.
  - injection H as ->. reflexivity.
  - f_equal. apply IH; auto.
Qed.

Lemma in_firstn_nth {A} (l : list A) n x : In x (firstn n l) -> exists j, j < n /\ nth_error l j = Some x.
Proof.
  revert n; induction l as [|a t IH]; intros [|n] H; simpl in *; try contradiction.
  destruct H as [<-|H].
  - exists 0. split; [lia|reflexivity].
  - destruct (IH n H) as [j [Hj Hx]]. exists (S j). split; [lia|exact Hx].
Qed.

Lemma in_skipn_nth {A} (l : list A) n x : In x (skipn n l) -> exists j, n <= j /\ nth_error l j = Some x.
Proof.
  revert n; induction l as [|a t IH]; intros [|n] H; simpl in *; try contradiction.
  - destruct H as [<-|H]; [exists 0; auto|].
    apply In_nth_error in H as [j Hj]. exists (S j). split; [lia|exact Hj].
  - destruct (IH n H) as [j [Hj Hx]]. exists (S j). split; [lia|exact Hx].
Qed.

Lemma create_tree_spec : forall fuel nodes depth,
  length nodes <= fuel -> Forall (fun x : item => length (pt x) = D) nodes ->
  exists t, create_tree fuel D nodes depth = Ok t /\ bst t /\ Permutation (elements t) nodes.
Proof.
  induction fuel as [|fuel IH]; intros nodes depth Hf Hall.
  - destruct nodes; [|simpl in Hf; lia]. exists KLeaf. simpl. auto.
  - destruct nodes as [|n0 nodes0]; [exists KLeaf; simpl; auto|].
    cbn [create_tree]. destruct (Nat.eqb_spec D 0) as [->|_]; [lia|].
    set (d := depth mod D). set (ns := sort_by d (n0 :: nodes0)).
    assert (Hperm : Permutation ns (n0 :: nodes0)) by apply sort_by_perm.
    assert (Hsort : StronglySorted (kle d) ns) by apply sort_by_sorted.
    assert (Hlen : length ns = S (length nodes0)) by (rewrite (Permutation_length Hperm); reflexivity).
    assert (Hmed : length ns / 2 < length ns) by (apply Nat.div_lt; lia).
    destruct (find_left_element_correct _ (key_swo (fun n : item => coord (pt n) d)) ns
                (length ns / 2) (ssorted_sorted_by d ns Hsort) Hmed) as [i [Ei [Hi Hsp]]].
    cbv beta in Ei. fold ns. rewrite Ei. cbn [bind].
    destruct (nth_error ns i) as [x|] eqn:Ex.
    2:{ apply nth_error_None in Ex. lia. }
    destruct (nth_error ns (length ns / 2)) as [t|] eqn:Et.
    2:{ apply nth_error_None in Et. lia. }
    destruct (Hsp t eq_refl) as [Hlo Hhi].
    pose proof (nth_error_split_at ns i x Ex) as Hsplit.
    assert (Hall' : Forall (fun x : item => length (pt x) = D) ns)
      by (eapply Permutation_Forall; [symmetry; exact Hperm | exact Hall]).
    rewrite Forall_forall in Hall'.
    destruct (IH (firstn i ns) (depth + 1)) as [tl [E1 [B1 P1]]].
    { rewrite firstn_length. simpl in Hf. lia. }
    { apply Forall_forall. intros y Hy. apply Hall'. rewrite Hsplit. apply in_or_app; auto. }
    destruct (IH (skipn (i + 1) ns) (depth + 1)) as [tr [E2 [B2 P2]]].
    { rewrite skipn_length. simpl in Hf. lia. }
    { apply Forall_forall. intros y Hy. apply Hall'. rewrite Hsplit. apply in_or_app; simpl; auto. }
    rewrite E1, E2. cbn [bind]. exists (KNode tl x d tr). split; [reflexivity|]. split.
    + simpl. split; [apply Hall'; eapply nth_error_In; eauto|].
      split; [apply Nat.mod_upper_bound; lia|]. split; [exact B1|]. split; [exact B2|].
      assert (Hxt : (coord (pt t) d <= coord (pt x) d)%Q)
        by (apply Qltb_false; apply (Hhi i x Ex); lia).
      split.
      * intros y Hy. apply (Permutation_in _ P1) in Hy.
        apply in_firstn_nth in Hy as [j [Hj Hy]].
        specialize (Hlo j y Hy Hj). apply Qltb_true in Hlo. lra.
      * intros y Hy. apply (Permutation_in _ P2) in Hy.
        apply in_skipn_nth in Hy as [j [Hj Hy]].
        apply (ssorted_nth d ns Hsort i j); auto. lia.
    + simpl. rewrite P1, P2, <- Hsplit. exact Hperm.
Qed.

(** *** insertion *)
Lemma insert_tree_spec x t : t <> KLeaf -> bst t -> length (pt x) = D ->
  bst (insert_tree D x t) /\ Permutation (elements (insert_tree D x t)) (x :: elements t)
  /\ insert_tree D x t <> KLeaf.
Proof.
  intros Hne Hb Hx. induction t as [|l IHl y d r IHr]; [congruence|].
  clear Hne. simpl in Hb. destruct Hb as (Hy & Hd & Hl & Hr & HL & HR).
  assert (Hdisc : (d + 1) mod D < D) by (apply Nat.mod_upper_bound; lia).
  cbn [insert_tree].
  destruct (Qle_bool (coord (pt y) d) (coord (pt x) d)) eqn:E.
  - apply Qle_bool_iff in E.
    assert (H : exists r', (match r with
      | KLeaf => KNode l y d (KNode KLeaf x ((d + 1) mod D) KLeaf)
      | KNode _ _ _ _ => KNode l y d (insert_tree D x r) end) = KNode l y d r'
      /\ bst r' /\ Permutation (elements r') (x :: elements r)).
    { destruct r as [|rl rx rd rr].
      - eexists; split; [reflexivity|]. simpl. split; [|reflexivity].
        repeat split; auto; intros z [].
      - destruct (IHr ltac:(congruence) Hr) as [H1 [H2 _]]. eexists; split; [reflexivity|]. auto. }
    destruct H as [r' [-> [Hb' Hp]]]. split; [|split; [|congruence]].
    + simpl. repeat split; auto. intros z Hz. apply (Permutation_in _ Hp) in Hz.
      destruct Hz as [<-|Hz]; auto.
    + simpl. rewrite Hp. rewrite perm_swap. symmetry. apply Permutation_middle.
  - apply Qle_bool_false in E.
    assert (H : exists l', (match l with
      | KLeaf => KNode (KNode KLeaf x ((d + 1) mod D) KLeaf) y d r
      | KNode _ _ _ _ => KNode (insert_tree D x l) y d r end) = KNode l' y d r
      /\ bst l' /\ Permutation (elements l') (x :: elements l)).
    { destruct l as [|ll lx ld lr].
      - eexists; split; [reflexivity|]. simpl. split; [|reflexivity].
        repeat split; auto; intros z [].
      - destruct (IHl ltac:(congruence) Hl) as [H1 [H2 _]]. eexists; split; [reflexivity|]. auto. }
    destruct H as [l' [-> [Hb' Hp]]]. split; [|split; [|congruence]].
    + simpl. repeat split; auto. intros z Hz. apply (Permutation_in _ Hp) in Hz.
      destruct Hz as [<-|Hz]; auto.
    + simpl. rewrite Hp. reflexivity.
Qed.

(** *** search *)
Lemma find_sound (rule : item -> bool) p (t : tree) x : find_by_rule rule p t = Some x -> In x (elements t) /\ rule x = true.
Proof.
  induction t as [|l IHl y d r IHr]; simpl; [discriminate|].
  destruct (Qle_bool _ _).
  - destruct (rule y) eqn:E.
    + intros [= <-]. split; [apply in_or_app; simpl; auto|exact E].
    + intros H. destruct (IHr H). split; [apply in_or_app; simpl; auto|auto].
  - intros H. destruct (IHl H). split; [apply in_or_app; auto|auto].
Qed.

(** a rule that only accepts elements located at [p] *)
Definition rule_at (rule : item -> bool) (p : point) : Prop :=
  forall x, rule x = true -> peq (pt x) p.

Lemma find_complete rule p t : bst t -> rule_at rule p ->
  find_by_rule rule p t = None -> forall x, In x (elements t) -> rule x = false.
Proof.
  intros Hb Hrule. induction t as [|l IHl y d r IHr]; simpl; [intros _ x []|].
  simpl in Hb. destruct Hb as (Hy & Hd & Hl & Hr & HL & HR).
  destruct (Qle_bool (coord (pt y) d) (coord p d)) eqn:E.
  - apply Qle_bool_iff in E. destruct (rule y) eqn:Ey; [discriminate|].
    intros H x Hx. apply in_app_or in Hx as [Hx|[<-|Hx]]; auto.
    destruct (rule x) eqn:Er; auto. exfalso.
    specialize (HL x Hx). pose proof (peq_coord _ _ d (Hrule x Er)). lra.
  - apply Qle_bool_false in E. intros H x Hx.
    apply in_app_or in Hx as [Hx|[<-|Hx]]; auto.
    + destruct (rule y) eqn:Er; auto. exfalso.
      pose proof (peq_coord _ _ d (Hrule y Er)). lra.
    + destruct (rule x) eqn:Er; auto. exfalso.
      specialize (HR x Hx). pose proof (peq_coord _ _ d (Hrule x Er)). lra.
Qed.

Lemma rule_point_at p : rule_at (rule_point p) p.
Proof. intros x H. apply peqb_true in H. exact H. Qed.

Lemma rule_payload_at p q : rule_at (rule_payload pleq p q) p.
Proof. intros x H. apply andb_true_iff in H as [H _]. apply peqb_true in H. exact H. Qed.

(** *** removal *)
Fixpoint subtree (path : list bool) (t : tree) : option tree :=
  match path, t with
  | [], _ => Some t
  | b :: path', KNode l _ _ r => subtree path' (if b then r else l)
  | _ :: _, KLeaf => None
  end.

Lemma inorder_paths_elements (t : tree) : map snd (inorder_paths t) = elements t.
Proof.
  induction t as [|l IHl x d r IHr]; simpl; [reflexivity|].
  rewrite map_app. simpl. rewrite !map_map. simpl. rewrite <- IHl, <- IHr. reflexivity.
Qed.

Lemma inorder_paths_subtree (t : tree) : forall path m, In (path, m) (inorder_paths t) ->
  exists l d r, subtree path t = Some (KNode l m d r).
Proof.
  induction t as [|l IHl x d r IHr]; intros path m H; simpl in H; [contradiction|].
  apply in_app_or in H as [H|[H|H]].
  - apply in_map_iff in H as [[path' m'] [E H]]. simpl in E. injection E as <- <-.
    destruct (IHl _ _ H) as [l' [d' [r' E']]]. exists l', d', r'. exact E'.
  - injection H as <- <-. exists l, d, r. reflexivity.
  - apply in_map_iff in H as [[path' m'] [E H]]. simpl in E. injection E as <- <-.
    destruct (IHr _ _ H) as [l' [d' [r' E']]]. exists l', d', r'. exact E'.
Qed.

Lemma subtree_size path t s : subtree path t = Some s -> size s <= size t.
Proof.
  revert t; induction path as [|b path IH]; intros t H; simpl in H.
  - injection H as ->. lia.
  - destruct t as [|l x d r]; [discriminate|]. apply IH in H. simpl. destruct b; lia.
Qed.

Lemma subtree_bst path t s : bst t -> subtree path t = Some s -> bst s.
Proof.
  revert t; induction path as [|b path IH]; intros t Hb H; simpl in H.
  - injection H as ->. exact Hb.
  - destruct t as [|l x d r]; [discriminate|]. simpl in Hb. destruct b; eapply IH; eauto; tauto.
Qed.

Lemma update_at_spec f m path : forall t s s', bst t ->
  subtree path t = Some s -> f s = Ok s' -> bst s' -> Permutation (elements s) (m :: elements s') ->
  exists t', update_at path f t = Ok t' /\ bst t' /\ Permutation (elements t) (m :: elements t').
Proof.
  induction path as [|b path IH]; intros t s s' Hb Hs Hf Hb' Hp; simpl in Hs.
  - injection Hs as ->. exists s'. simpl. auto.
  - destruct t as [|l x d r]; [discriminate|]. simpl in Hb.
    destruct Hb as (Hx & Hd & Hl & Hr & HL & HR). cbn [update_at]. destruct b.
    + destruct (IH r s s' Hr Hs Hf Hb' Hp) as [r' [E [Br Pr]]]. rewrite E. cbn [bind].
      exists (KNode l x d r'). split; [reflexivity|]. split.
      * simpl. repeat split; auto. intros y Hy. apply HR.
        eapply Permutation_in; [symmetry; exact Pr|]. simpl; auto.
      * simpl. rewrite Pr. rewrite perm_swap. symmetry. apply Permutation_middle.
    + destruct (IH l s s' Hl Hs Hf Hb' Hp) as [l' [E [Bl Pl]]]. rewrite E. cbn [bind].
      exists (KNode l' x d r). split; [reflexivity|]. split.
      * simpl. repeat split; auto. intros y Hy. apply HL.
        eapply Permutation_in; [symmetry; exact Pl|]. simpl; auto.
      * simpl. rewrite Pl. reflexivity.
Qed.

Lemma find_minimal_node_spec t d path m : find_minimal_node t d = Some (path, m) ->
  (exists l d' r, subtree path t = Some (KNode l m d' r)) /\ In m (elements t) /\
  (forall y, In y (elements t) -> coord (pt m) d <= coord (pt y) d)%Q.
Proof.
  intros H. apply min_by_spec in H as [Hin Hmin]. split; [|split].
  - eapply inorder_paths_subtree; eauto.
  - rewrite <- inorder_paths_elements. apply in_map_iff. exists (path, m). auto.
  - intros y Hy. rewrite <- inorder_paths_elements in Hy.
    apply in_map_iff in Hy as [c [<- Hc]]. apply (Hmin c Hc).
Qed.

Lemma find_minimal_node_some (t : tree) d : t <> KLeaf -> exists pm, find_minimal_node t d = Some pm.
Proof.
  intros Hne. unfold find_minimal_node. destruct (min_by _ (inorder_paths t)) as [pm|] eqn:E; eauto.
  apply min_by_none in E. destruct t as [|l x d' r]; [congruence|]. simpl in E.
  apply app_eq_nil in E as [_ E]. discriminate.
Qed.

Lemma recursive_remove_spec : forall fuel l x d r,
  size (KNode l x d r) <= fuel -> bst (KNode l x d r) ->
  exists t', recursive_remove fuel (KNode l x d r) = Ok t' /\ bst t' /\
    Permutation (elements (KNode l x d r)) (x :: elements t').
Proof.
  induction fuel as [|fuel IH]; intros l x d r Hsz Hb; [simpl in Hsz; lia|].
  destruct Hb as (Hx & Hd & Hl & Hr & HL & HR).
  (* the two places the replacement is searched in *)
  assert (Hmain : forall L R : tree, R <> KLeaf -> bst L -> bst R -> size R <= fuel ->
    (forall y, In y (elements L) -> forall z, In z (elements R) -> coord (pt y) d < coord (pt z) d)%Q ->
    exists t', (match find_minimal_node R d with
      | None => Raise ValueError
      | Some (path, m) => do r' <- update_at path (recursive_remove fuel) R; Ok (KNode L m d r')
      end) = Ok t' /\ bst t' /\ Permutation (elements L ++ elements R) (elements t')).
  { intros L R HneR HbL HbR HszR Hsep.
    destruct (find_minimal_node_some R d HneR) as [[path m] Hm]. rewrite Hm.
    destruct (find_minimal_node_spec _ _ _ _ Hm) as [[sl [sd [sr Hsub]]] [Hin Hmin]].
    destruct (IH sl m sd sr) as [s' [Es [Bs Ps]]].
    { pose proof (subtree_size _ _ _ Hsub). lia. }
    { exact (subtree_bst _ _ _ HbR Hsub). }
    destruct (update_at_spec (recursive_remove fuel) m path R _ s' HbR Hsub Es Bs Ps) as [R' [ER [BR PR]]].
    rewrite ER. cbn [bind]. exists (KNode L m d R'). split; [reflexivity|]. split.
    - simpl. split; [apply (bst_length R HbR m Hin)|]. repeat split; auto.
      intros y Hy. apply Hmin. eapply Permutation_in; [symmetry; exact PR|]. simpl; auto.
    - simpl. rewrite PR. reflexivity. }
  destruct r as [|rl rx rd rr].
  - destruct l as [|ll lx ld lr].
    + exists KLeaf. simpl. auto.
    + destruct (Hmain KLeaf (KNode ll lx ld lr)) as [t' [E [Bt Pt]]]; simpl in *; auto; try congruence; try lia.
      exists t'. split; [exact E|]. split; [exact Bt|].
      simpl in Pt. rewrite <- Pt. symmetry. apply Permutation_cons_append.
  - destruct (Hmain l (KNode rl rx rd rr)) as [t' [E [Bt Pt]]]; auto; try congruence.
    { simpl in *; lia. }
    { intros y Hy z Hz. specialize (HL y Hy). specialize (HR z Hz). lra. }
    exists t'. split; [|split; [exact Bt|]].
    + destruct l; exact E.
    + rewrite <- Pt. simpl. symmetry. apply Permutation_middle.
Qed.

Lemma remove_tree_find fuel (rule : item -> bool) p (t : tree) :
  (remove_tree fuel rule p t = None <-> find_by_rule rule p t = None).
Proof.
  induction t as [|l IHl x d r IHr]; simpl; [tauto|].
  destruct (Qle_bool _ _).
  - destruct (rule x); [split; discriminate|]. rewrite <- IHr. destruct (remove_tree fuel rule p r); split; congruence.
  - rewrite <- IHl. destruct (remove_tree fuel rule p l); split; congruence.
Qed.

Lemma remove_tree_spec fuel (rule : item -> bool) p (t : tree) x : bst t -> size t <= fuel ->
  find_by_rule rule p t = Some x ->
  exists t', remove_tree fuel rule p t = Some (Ok t') /\ bst t' /\
    Permutation (elements t) (x :: elements t').
Proof.
  induction t as [|l IHl y d r IHr]; intros Hb Hsz Hf; [discriminate|].
  pose proof Hb as Hb0. simpl in Hb. destruct Hb as (Hy & Hd & Hl & Hr & HL & HR).
  simpl in Hf. simpl in Hsz. cbn [remove_tree].
  destruct (Qle_bool (coord (pt y) d) (coord p d)) eqn:E.
  - destruct (rule y) eqn:Ey.
    + injection Hf as ->.
      destruct (recursive_remove_spec fuel l x d r) as [t' [E' [B' P']]]; auto.
      exists t'. rewrite E'. auto.
    + destruct (IHr Hr ltac:(lia) Hf) as [r' [E' [B' P']]]. rewrite E'. cbn [bind].
      exists (KNode l y d r'). split; [reflexivity|]. split.
      * simpl. repeat split; auto. intros z Hz. apply HR.
        eapply Permutation_in; [symmetry; exact P'|]. simpl; auto.
      * simpl. rewrite P'. rewrite perm_swap. symmetry. apply Permutation_middle.
  - destruct (IHl Hl ltac:(lia) Hf) as [l' [E' [B' P']]]. rewrite E'. cbn [bind].
    exists (KNode l' y d r). split; [reflexivity|]. split.
    * simpl. repeat split; auto. intros z Hz. apply HL.
      eapply Permutation_in; [symmetry; exact P'|]. simpl; auto.
    * simpl. rewrite P'. reflexivity.
Qed.

(** *** range search *)
Lemma square_le_abs (x y : Q) : (0 <= y)%Q -> (x * x <= y * y)%Q -> (- y <= x <= y)%Q.
Proof. intros Hy H. split; nra. Qed.

Lemma filter_none {A} (f : A -> bool) l : (forall x, In x l -> f x = false) -> filter f l = [].
Proof.
  induction l as [|x t IH]; intros H; simpl; [reflexivity|].
  rewrite (H x); simpl; auto. apply IH. intros; apply H; simpl; auto.
Qed.

Lemma within_coord p dist (x : item) d : (0 <= dist)%Q -> length p = D -> length (pt x) = D -> d < D ->
  within p dist x = true -> (- dist <= coord p d - coord (pt x) d <= dist)%Q.
Proof.
  intros Hd Hp Hx Hlt H. unfold within in H. apply Qle_bool_iff in H.
  apply square_le_abs; auto.
  pose proof (sqdist_coord p (pt x) d ltac:(lia) ltac:(lia)). lra.
Qed.

Definition hits (p : point) (dist : Q) (t : tree) : list (Q * item) :=
  map (fun x => (sqdist p (pt x), x)) (filter (within p dist) (elements t)).

Lemma nearest_nodes_spec p dist t : (0 <= dist)%Q -> length p = D -> bst t ->
  forall best, Permutation (nearest_nodes p dist (dist * dist) t best) (best ++ hits p dist t).
Proof.
  intros Hd Hp. unfold hits. induction t as [|l IHl x d r IHr]; intros Hb best; simpl.
  - rewrite app_nil_r. reflexivity.
  - destruct Hb as (Hx & Hdd & Hl & Hr & HL & HR).
    rewrite filter_app, map_app. cbn [filter].
    set (best1 := match r with KLeaf => best | _ => _ end).
    assert (H1 : Permutation best1 (best ++ hits p dist r)).
    { unfold best1, hits. destruct r as [|rl rx rd rr].
      - simpl. rewrite app_nil_r. reflexivity.
      - destruct (Qle_bool (coord (pt x) d - dist) (coord p d)) eqn:E.
        + apply IHr; auto.
        + apply Qle_bool_false in E.
          rewrite filter_none; [simpl; rewrite app_nil_r; reflexivity|].
          intros y Hy. destruct (within p dist y) eqn:Ew; auto. exfalso.
          pose proof (within_coord p dist y d Hd Hp (bst_length _ Hr y Hy) Hdd Ew).
          specialize (HR y Hy). lra. }
    clearbody best1.
    set (best2 := match l with KLeaf => best1 | _ => _ end).
    assert (H2 : Permutation best2 (best1 ++ hits p dist l)).
    { unfold best2, hits. destruct l as [|ll lx ld lr].
      - simpl. rewrite app_nil_r. reflexivity.
      - destruct (Qltb (coord p d) (coord (pt x) d + dist)) eqn:E.
        + apply IHl; auto.
        + apply Qltb_false in E.
          rewrite filter_none; [simpl; rewrite app_nil_r; reflexivity|].
          intros y Hy. destruct (within p dist y) eqn:Ew; auto. exfalso.
          pose proof (within_coord p dist y d Hd Hp (bst_length _ Hl y Hy) Hdd Ew).
          specialize (HL y Hy). lra. }
    clearbody best2. unfold hits in *.
    change (Qle_bool (sqdist p (pt x)) (dist * dist)) with (within p dist x).
    destruct (within p dist x); simpl.
    + rewrite H2, H1. rewrite <- !app_assoc. apply Permutation_app_head.
      rewrite app_assoc. rewrite (Permutation_app_comm (map _ (filter _ (elements r)))).
      rewrite <- app_assoc. apply Permutation_app_head.
      symmetry. apply Permutation_cons_append.
    + rewrite H2, H1. rewrite <- !app_assoc. apply Permutation_app_head.
      apply Permutation_app_comm.
Qed.

(** *** histories *)
Definition good (k : kdt P) (l : list item) : Prop :=
  bst (root k) /\ (root k <> KLeaf -> dim k = D) /\
  Permutation (elements (root k)) l /\ len k = Z.of_nat (length l).

Lemma insert_good k l x : good k l -> length (pt x) = D -> good (insert k x) (x :: l).
Proof.
  intros (Hb & Hdim & Hp & Hlen) Hx. unfold insert.
  destruct (root k) as [|tl ty td tr] eqn:Er.
  - simpl in Hp. apply Permutation_nil in Hp. subst l. split; [|split; [|split]]; simpl.
    + repeat split; auto; intros y [].
    + auto.
    + reflexivity.
    + simpl in Hlen. lia.
  - rewrite (Hdim ltac:(congruence)).
    destruct (insert_tree_spec x (KNode tl ty td tr)) as [H1 [H2 H3]]; auto; [congruence|].
    split; [|split; [|split]]; cbn [root dim len].
    + exact H1.
    + auto.
    + rewrite H2. rewrite Hp. reflexivity.
    + cbn [length]. lia.
Qed.

Lemma remove_rule_good rule k l p : good k l -> rule_at rule p ->
  (exists x k' l', rule x = true /\ Permutation l (x :: l') /\ remove_rule rule k p = Ok k' /\ good k' l') \/
  ((forall x, In x l -> rule x = false) /\ remove_rule rule k p = Ok k).
Proof.
  intros (Hb & Hdim & Hp & Hlen) Hrule. unfold remove_rule.
  destruct (find_by_rule rule p (root k)) as [x|] eqn:Ef.
  - left. destruct (remove_tree_spec (size (root k)) rule p (root k) x Hb (le_n _) Ef) as [t' [E [Bt Pt]]].
    rewrite E. cbn [bind]. exists x, (mkKd t' (dim k) (len k - 1)), (elements t').
    destruct (find_sound _ _ _ _ Ef) as [_ Hr].
    assert (HPl : Permutation l (x :: elements t')) by (rewrite <- Hp; exact Pt).
    split; [exact Hr|]. split; [exact HPl|]. split; [reflexivity|].
    split; [exact Bt|]. split; [|split; [reflexivity|]].
    + cbn [root dim]. intros _. apply Hdim. intro Hc. rewrite Hc in Ef. discriminate.
    + cbn [len]. apply Permutation_length in HPl. simpl in HPl. lia.
  - right. split.
    + intros x Hx. eapply find_complete; eauto.
      eapply Permutation_in; [symmetry; exact Hp | exact Hx].
    + destruct (remove_tree (size (root k)) rule p (root k)) eqn:E; [|reflexivity].
      apply (remove_tree_find (size (root k))) in Ef. congruence.
Qed.

Lemma step_good k l o : good k l -> op_dim D o ->
  exists k' l', step pleq k o = Ok k' /\ mstep pleq l o l' /\ good k' l'.
Proof.
  intros Hg Ho. destruct o as [x|p|p q]; cbn [step].
  - exists (insert k x), (x :: l). split; [reflexivity|]. split; [constructor|]. apply insert_good; auto.
  - destruct (remove_rule_good (rule_point p) k l p Hg (rule_point_at p))
      as [[x [k' [l' (H1 & H2 & H3 & H4)]]]|[H1 H2]].
    + exists k', l'. split; [exact H3|]. split; [|exact H4].
      apply (ms_remove pleq l l' (ORemove p) x); auto. simpl. apply peqb_true. exact H1.
    + exists k, l. split; [exact H2|]. split; [|exact Hg].
      apply ms_absent; [congruence|]. intros x Hx. simpl. apply peqb_false. apply (H1 x Hx).
  - destruct (remove_rule_good (rule_payload pleq p q) k l p Hg (rule_payload_at p q))
      as [[x [k' [l' (H1 & H2 & H3 & H4)]]]|[H1 H2]].
    + exists k', l'. split; [exact H3|]. split; [|exact H4].
      apply (ms_remove pleq l l' (ORemovePayload p q) x); auto. simpl.
      apply andb_true_iff in H1 as [H1 H1']. split; [apply peqb_true; exact H1|exact H1'].
    + exists k, l. split; [exact H2|]. split; [|exact Hg].
      apply ms_absent; [congruence|]. intros x Hx [Hc1 Hc2]. apply peqb_true in Hc1.
      specialize (H1 x Hx). unfold rule_payload in H1. rewrite Hc1, Hc2 in H1. discriminate.
Qed.

Lemma run_good ops : forall k l, good k l -> Forall (op_dim D) ops ->
  exists k' l', run pleq k ops = Ok k' /\ mrun pleq l ops l' /\ good k' l'.
Proof.
  induction ops as [|o ops IH]; intros k l Hg Ho.
  - exists k, l. split; [reflexivity|]. split; [constructor|exact Hg].
  - inversion Ho as [|o' ops' Ho1 Ho2]; subst.
    destruct (step_good k l o Hg Ho1) as [k1 [l1 (E1 & M1 & G1)]].
    destruct (IH k1 l1 G1 Ho2) as [k2 [l2 (E2 & M2 & G2)]].
    exists k2, l2. cbn [run]. rewrite E1. cbn [bind]. split; [exact E2|]. split; [|exact G2].
    econstructor; eauto.
Qed.

Lemma start_good init : init_ok D init ->
  exists k, start init = Ok k /\ good k (init_items init).
Proof.
  destruct init as [l|]; intros Hi.
  - destruct Hi as [Hne Hall]. destruct l as [|x t]; [congruence|].
    cbn [start build]. assert (Hx : length (pt x) = D) by (inversion Hall; auto).
    rewrite Hx. destruct (create_tree_spec (length (x :: t)) (x :: t) 0 (le_n _) Hall) as [tr [E [B Pm]]].
    rewrite E. cbn [bind]. eexists. split; [reflexivity|].
    split; [exact B|]. split; [auto|]. split; [exact Pm|].
    cbn [len]. rewrite <- elements_size, (Permutation_length Pm). reflexivity.
  - exists empty_kd. split; [reflexivity|]. split; [exact I|]. split; [simpl; congruence|].
    split; reflexivity.
Qed.

Lemma history_good init ops : init_ok D init -> Forall (op_dim D) ops ->
  exists k l, (do k <- start init; run pleq k ops) = Ok k /\ mrun pleq (init_items init) ops l /\ good k l.
Proof.
  intros Hi Ho. destruct (start_good init Hi) as [k0 [E0 G0]].
  destruct (run_good ops k0 _ G0 Ho) as [k [l (E & M & G)]].
  exists k, l. rewrite E0. cbn [bind]. auto.
Qed.

(** *** observations of a good state *)
Lemma good_find k l p : good k l ->
  match find_node k p with
  | Some x => In x l /\ peq (pt x) p
  | None => forall x, In x l -> ~ peq (pt x) p
  end.
Proof.
  intros (Hb & _ & Hp & _). unfold find_node.
  destruct (find_by_rule (rule_point p) p (root k)) as [x|] eqn:E.
  - apply find_sound in E as [H1 H2]. split; [eapply Permutation_in; eauto|].
    apply peqb_true. exact H2.
  - intros x Hx. apply peqb_false.
    eapply (find_complete (rule_point p) p (root k)); eauto using rule_point_at.
    eapply Permutation_in; [symmetry; exact Hp|exact Hx].
Qed.

Lemma good_find_payload k l p q : good k l ->
  match find_node_with_payload pleq k p q with
  | Some x => In x l /\ peq (pt x) p /\ pleq (pl x) q = true
  | None => forall x, In x l -> ~ (peq (pt x) p /\ pleq (pl x) q = true)
  end.
Proof.
  intros (Hb & _ & Hp & _). unfold find_node_with_payload.
  destruct (find_by_rule (rule_payload pleq p q) p (root k)) as [x|] eqn:E.
  - apply find_sound in E as [H1 H2]. split; [eapply Permutation_in; eauto|].
    apply andb_true_iff in H2 as [H2 H3]. split; [apply peqb_true; exact H2|exact H3].
  - intros x Hx [Hc1 Hc2]. apply peqb_true in Hc1.
    assert (H : rule_payload pleq p q x = false).
    { eapply (find_complete (rule_payload pleq p q) p (root k)); eauto using rule_payload_at.
      eapply Permutation_in; [symmetry; exact Hp|exact Hx]. }
    unfold rule_payload in H. rewrite Hc1, Hc2 in H. discriminate.
Qed.

Lemma filter_perm {A} (f : A -> bool) l l' : Permutation l l' -> Permutation (filter f l) (filter f l').
Proof.
  induction 1 as [|x l l' H IH|x y l|l l' l'' H1 IH1 H2 IH2]; simpl; auto.
  - destruct (f x); auto.
  - destruct (f x), (f y); auto; try reflexivity. apply perm_swap.
  - etransitivity; eauto.
Qed.

Lemma good_range k l p dist : good k l -> length p = D -> (0 <= dist)%Q ->
  Permutation (find_nearest_dist_nodes k p dist)
              (map (fun x => (sqdist p (pt x), x)) (filter (within p dist) l)).
Proof.
  intros (Hb & _ & Hp & _) Hlp Hd. unfold find_nearest_dist_nodes.
  assert (H : Permutation (hits p dist (root k)) (map (fun x => (sqdist p (pt x), x)) (filter (within p dist) l))).
  { apply Permutation_map, filter_perm, Hp. }
  destruct (root k) as [|tl tx td tr] eqn:Er.
  - unfold hits in H. simpl in H. exact H.
  - rewrite (nearest_nodes_spec p dist _ Hd Hlp Hb []). exact H.
Qed.

Lemma good_nearest k l p dist : good k l -> length p = D -> (0 <= dist)%Q ->
  match find_nearest_dist_node k p dist with
  | Some (c, x) => c = sqdist p (pt x) /\ In x l /\ (c <= dist * dist)%Q /\
                   (forall y, In y l -> c <= sqdist p (pt y))%Q
  | None => forall y, In y l -> (dist * dist < sqdist p (pt y))%Q
  end.
Proof.
  intros Hg Hlp Hd. pose proof (good_range k l p dist Hg Hlp Hd) as Hr.
  unfold find_nearest_dist_node.
  destruct (min_by fst (find_nearest_dist_nodes k p dist)) as [[c x]|] eqn:E.
  - apply min_by_spec in E as [Hin Hmin].
    apply (Permutation_in _ Hr) in Hin. apply in_map_iff in Hin as [x' [E Hin]].
    injection E as <- ->. apply filter_In in Hin as [Hin Hw].
    unfold within in Hw. apply Qle_bool_iff in Hw.
    split; [reflexivity|]. split; [exact Hin|]. split; [exact Hw|].
    intros y Hy. destruct (within p dist y) eqn:Ey.
    + apply (Hmin (sqdist p (pt y), y)). eapply Permutation_in; [symmetry; exact Hr|].
      apply in_map_iff. exists y. split; [reflexivity|]. apply filter_In. auto.
    + unfold within in Ey. apply Qle_bool_false in Ey. lra.
  - apply min_by_none in E. rewrite E in Hr. apply Permutation_nil in Hr.
    intros y Hy. destruct (within p dist y) eqn:Ey.
    + assert (Hc : In (sqdist p (pt y), y) []).
      { rewrite <- Hr. apply in_map_iff. exists y. split; [reflexivity|]. apply filter_In. auto. }
      destruct Hc.
    + unfold within in Ey. apply Qle_bool_false in Ey. exact Ey.
Qed.
End Proofs.
