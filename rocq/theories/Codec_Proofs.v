(** Package codec: specification and proofs. *)
From Verif Require Import Base Codec_Model.

(** * Specification *)
(** python equality of packed values: 1 == 1.0, containers element by element *)
Inductive veq : value -> value -> Prop :=
| veq_int z : veq (VInt z) (VInt z)
| veq_float p q : (p == q)%Q -> veq (VFloat p) (VFloat q)
| veq_mixed z q : (inject_Z z == q)%Q -> veq (VInt z) (VFloat q)
| veq_list l l' : Forall2 veq l l' -> veq (VList l) (VList l').

(** range of a C integer type *)
Definition fits (c : ctype) (z : Z) : Prop :=
  match c with
  | c_int => (- 2 ^ 31 <= z < 2 ^ 31)%Z
  | c_uint => (0 <= z < 2 ^ 32)%Z
  | c_long => (- 2 ^ 63 <= z < 2 ^ 63)%Z
  | c_size_t => (0 <= z < 2 ^ 64)%Z
  | c_double => True
  end.

(** every int of the nested value fits the type it is stored with (long if not specified) *)
Inductive in_range (c : ctype) : value -> Prop :=
| ir_int z : fits c z -> in_range c (VInt z)
| ir_float q : in_range c (VFloat q)
| ir_list l : Forall (in_range c) l -> in_range c (VList l).

(** nested lists with one kind of elements at each level *)
Inductive uniform : value -> Prop :=
| un_ints zs : uniform (VList (map VInt zs))
| un_floats qs : uniform (VList (map VFloat qs))
| un_lists ls : Forall uniform ls -> uniform (VList ls).

(** * Induction on values *)
Fixpoint value_ind' (P : value -> Prop) (Hi : forall z, P (VInt z)) (Hf : forall q, P (VFloat q))
  (Hl : forall l, Forall P l -> P (VList l)) (v : value) : P v :=
  match v with
  | VInt z => Hi z
  | VFloat q => Hf q
  | VList l => Hl l ((fix go l : Forall P l :=
                        match l with [] => Forall_nil P | x :: t => Forall_cons x (value_ind' P Hi Hf Hl x) (go t) end) l)
  end.

Definition extract_all : list package -> res (list value) := mapM extract.

Lemma extract_eq size type cells subs : extract (Package size type cells subs) =
  match size with
  | 0 => Ok (VList [])
  | S _ => match type with
           | TList => if length subs =? size then do l <- extract_all subs; Ok (VList l) else Raise IndexError
           | _ => if length cells =? size then Ok (VList (map load cells)) else Raise IndexError
           end
  end.
Proof.
  cbn [extract]. destruct size; auto.
Qed.

Lemma mapM_length {A B} (f : A -> res B) l r : mapM f l = Ok r -> length r = length l.
Proof.
  revert r; induction l as [|x t IH]; intros r H; cbn [mapM] in H.
  - apply Ok_inj in H. subst; auto.
  - destruct (f x); cbn [bind] in H; [|discriminate].
    destruct (mapM f t) eqn:E; cbn [bind] in H; [|discriminate].
    apply Ok_inj in H. subst. simpl. rewrite (IH _ eq_refl). auto.
Qed.

Lemma mapM_cons {A B} (f : A -> res B) x t :
  mapM f (x :: t) = do y <- f x; do t' <- mapM f t; Ok (y :: t').
Proof. reflexivity. Qed.

Lemma wrap_signed_id b z : (0 < b)%Z -> (- 2 ^ (b - 1) <= z < 2 ^ (b - 1))%Z -> wrap_signed b z = z.
Proof.
  intros Hb H. unfold wrap_signed. rewrite Z.mod_small; [lia|].
  replace (2 ^ b)%Z with (2 * 2 ^ (b - 1))%Z; [lia|]. rewrite <- Z.pow_succ_r by lia. f_equal. lia.
Qed.

Lemma store_load c v x : store c v = Ok x -> in_range c v -> veq v (load x).
Proof.
  intros H Hr. destruct c, v as [z|q|l]; simpl in H; try discriminate; apply Ok_inj in H; subst; simpl;
    inversion Hr; subst; unfold fits in *.
  - rewrite wrap_signed_id by (try lia; auto). constructor.
  - unfold wrap_unsigned. rewrite Z.mod_small by auto. constructor.
  - constructor. reflexivity.
  - constructor. reflexivity.
  - rewrite wrap_signed_id by (try lia; auto). constructor.
  - unfold wrap_unsigned. rewrite Z.mod_small by auto. constructor.
Qed.

Lemma store_all c l : forall cells, mapM (store c) l = Ok cells -> Forall (in_range c) l -> Forall2 veq l (map load cells).
Proof.
  induction l as [|x t IH]; intros cells H Hr; cbn [mapM] in H.
  - apply Ok_inj in H. subst. constructor.
  - destruct (store c x) eqn:E; cbn [bind] in H; [|discriminate].
    fold (mapM (store c)) in H.
    destruct (mapM (store c) t) eqn:Et; cbn [bind] in H; [|discriminate].
    apply Ok_inj in H. subst. inversion Hr; subst. simpl. constructor; auto. eapply store_load; eauto.
Qed.

Definition pack_type (cd : option ctype) : ctype := match cd with Some c => c | None => c_long end.

Lemma in_range_double c v : in_range c v -> in_range c_double v.
Proof.
  induction v as [z|q|l IH] using value_ind'; intros H; inversion H; subst; constructor.
  - exact I.
  - rewrite Forall_forall in *. intros x Hx. auto.
Qed.

Lemma in_range_scalar cd first v : in_range (pack_type cd) v -> in_range (scalar_type cd first) v.
Proof.
  destruct cd as [c|]; simpl; auto. destruct first; auto; apply in_range_double.
Qed.

Lemma scalar_not_list c : get_pyclustering_type c <> TList.
Proof. destruct c; discriminate. Qed.

Lemma extract_scalar n c cells : length cells = S n ->
  extract (Package (S n) (get_pyclustering_type c) cells []) = Ok (VList (map load cells)).
Proof.
  intros H. rewrite extract_eq. rewrite H, Nat.eqb_refl. destruct c; reflexivity.
Qed.

Theorem codec_sound cd v : forall p, create_package cd v = Ok p -> in_range (pack_type cd) v ->
  exists v', extract p = Ok v' /\ veq v v'.
Proof.
  induction v as [z|q|l IH] using value_ind'; intros p H Hr; cbn [create_package] in H; try discriminate.
  destruct l as [|first t] eqn:El.
  - apply Ok_inj in H. subst p. exists (VList []). split; [reflexivity|]. repeat constructor.
  - rewrite <- El in *. inversion Hr as [| |l' Hl]; subst l'.
    assert (Hlen : length l = S (length t)) by (rewrite El; reflexivity).
    destruct (is_container first) eqn:Ec.
    + destruct (mapM (create_package cd) l) as [subs|] eqn:Em; cbn [bind] in H; [|discriminate].
      apply Ok_inj in H. subst p. pose proof (mapM_length _ _ _ Em) as Hsl.
      assert (Hex : exists vs, extract_all subs = Ok vs /\ Forall2 veq l vs).
      { clear El Hlen Hsl Hr Ec. revert subs Em. induction l as [|x l IHl]; intros subs Em; cbn [mapM] in Em.
        - apply Ok_inj in Em. subst. exists []. split; [reflexivity|constructor].
        - fold (mapM (create_package cd)) in Em.
          destruct (create_package cd x) as [px|] eqn:Ex; cbn [bind] in Em; [|discriminate].
          destruct (mapM (create_package cd) l) as [sl|] eqn:Es; cbn [bind] in Em; [|discriminate].
          apply Ok_inj in Em. subst. inversion IH as [|? ? IHx IHt]; subst. inversion Hl as [|? ? Hx Ht]; subst.
          destruct (IHx px Ex Hx) as [v' [E1 E2]].
          destruct (IHl IHt Ht sl eq_refl) as [vs [E3 E4]].
          exists (v' :: vs). split; [|constructor; auto]. unfold extract_all in *. rewrite mapM_cons, E1. cbn [bind].
          rewrite E3. reflexivity. }
      destruct Hex as [vs [E1 E2]]. exists (VList vs). split; [|constructor; auto].
      rewrite extract_eq, Hlen. rewrite Hsl, Hlen, Nat.eqb_refl, E1. reflexivity.
    + destruct (mapM (store (scalar_type cd first)) l) as [cells|] eqn:Em; cbn [bind] in H; [|discriminate].
      apply Ok_inj in H. subst p. pose proof (mapM_length _ _ _ Em) as Hcl. rewrite Hlen in *.
      exists (VList (map load cells)). split; [apply extract_scalar; auto|].
      constructor. eapply store_all; eauto.
      rewrite Forall_forall in *. intros x Hx. apply in_range_scalar. auto.
Qed.

Lemma mapM_ok {A B} (f : A -> res B) l : Forall (fun x => exists y, f x = Ok y) l -> exists r, mapM f l = Ok r.
Proof.
  induction 1 as [|x t [y Hy] Ht [r Hr]].
  - exists []. reflexivity.
  - exists (y :: r). rewrite mapM_cons, Hy. cbn [bind]. rewrite Hr. reflexivity.
Qed.

Lemma uniform_list ls : uniform (VList ls) -> ls = [] \/
  (exists z zs, ls = VInt z :: map VInt zs) \/ (exists q qs, ls = VFloat q :: map VFloat qs) \/
  (exists x t, ls = VList x :: t /\ Forall uniform ls).
Proof.
  intros H. inversion H as [zs E|qs E|l Hl E]; subst.
  - destruct zs as [|z zs]; simpl; auto. right; left. eauto.
  - destruct qs as [|q qs]; simpl; auto. right; right; left. eauto.
  - destruct ls as [|x t]; auto. right; right; right. inversion Hl as [|? ? Hx Ht]; subst.
    inversion Hx; subst; do 2 eexists; split; eauto.
Qed.

Theorem codec_total v : uniform v -> exists p, create_package None v = Ok p.
Proof.
  induction v as [z|q|l IH] using value_ind'; intros H; try (inversion H; fail).
  apply uniform_list in H as [->|[(z & zs & ->)|[(q & qs & ->)|(x & t & E & Hl)]]].
  - eexists; reflexivity.
  - cbn [create_package is_container scalar_type].
    destruct (mapM_ok (store c_long) (VInt z :: map VInt zs)) as [r Hr].
    { constructor; [eexists; reflexivity|]. apply Forall_forall. intros v Hv. apply in_map_iff in Hv as [w [<- _]]. eexists; reflexivity. }
    rewrite Hr. eexists; reflexivity.
  - cbn [create_package is_container scalar_type].
    destruct (mapM_ok (store c_double) (VFloat q :: map VFloat qs)) as [r Hr].
    { constructor; [eexists; reflexivity|]. apply Forall_forall. intros v Hv. apply in_map_iff in Hv as [w [<- _]]. eexists; reflexivity. }
    rewrite Hr. eexists; reflexivity.
  - destruct (mapM_ok (create_package None) l) as [r Hr].
    { rewrite Forall_forall in *. intros v Hv. auto. }
    cbn [create_package]. rewrite E in *. cbn [is_container]. rewrite Hr. eexists; reflexivity.
Qed.

