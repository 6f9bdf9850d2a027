(** C267: numpy tables and encoded strings in packages for the C++ library *)
From Verif Require Import Base Codec_Model Codec_Proofs Npack_Model.

(** ** specification: what the library or the extractor finds: the same numbers, row by row *)
Definition number (v : nscalar) : Q := match v with NFloat64 q | NFloat32 q => q | NInt64 z => inject_Z z end.
Inductive is_number : value -> Q -> Prop :=
| is_int z q : (inject_Z z == q)%Q -> is_number (VInt z) q
| is_float q q' : (q == q')%Q -> is_number (VFloat q) q'.
Definition is_row (v : value) (l : list nscalar) : Prop := exists vs, v = VList vs /\ Forall2 is_number vs (map number l).
Definition is_table (v : value) (rows : list (list nscalar)) : Prop := exists vs, v = VList vs /\ Forall2 is_row vs rows.
(** an element that the C type can hold *)
Definition fits (c : ctype) (v : nscalar) : Prop :=
  match c, v with
  | c_double, _ => True
  | c_int, NInt64 z => (- 2 ^ 31 <= z < 2 ^ 31)%Z
  | c_long, NInt64 z => (- 2 ^ 63 <= z < 2 ^ 63)%Z
  | c_uint, NInt64 z => (0 <= z < 2 ^ 32)%Z
  | c_size_t, NInt64 z => (0 <= z < 2 ^ 64)%Z
  | _, _ => False
  end.
Definition is_float64 (v : nscalar) : Prop := match v with NFloat64 _ => True | _ => False end.

Lemma signed_id b z : (0 < b)%Z -> (- 2 ^ (b - 1) <= z < 2 ^ (b - 1))%Z -> wrap_signed b z = z.
Proof.
  intros Hb H. unfold wrap_signed. assert (E : (2 ^ b = 2 * 2 ^ (b - 1))%Z) by (rewrite <- Z.pow_succ_r by lia; f_equal; lia). rewrite Z.mod_small; lia.
Qed.
Lemma unsigned_id b z : (0 <= z < 2 ^ b)%Z -> wrap_unsigned b z = z.
Proof. intro H. unfold wrap_unsigned. now apply Z.mod_small. Qed.
Lemma store_fits c v : fits c v -> exists x, nstore c v = Ok x /\ is_number (load x) (number v).
Proof.
  destruct c, v; cbn [fits]; intro H; try contradiction; cbn [nstore store number]; eexists; (split; [reflexivity|]); cbn [load]; try (apply is_float; reflexivity); apply is_int;
    rewrite ?signed_id, ?unsigned_id by lia; reflexivity.
Qed.
Lemma mapM_cons {A B} (f : A -> res B) x t : mapM f (x :: t) = do y <- f x; do t' <- mapM f t; Ok (y :: t').
Proof. reflexivity. Qed.
Lemma row_fits c l : Forall (fits c) l -> exists cs, mapM (nstore c) l = Ok cs /\ length cs = length l /\ Forall2 is_number (map load cs) (map number l).
Proof.
  induction 1 as [|v t H Ht (cs & E & L & F)]; [exists []; repeat split; constructor|]. destruct (store_fits c v H) as (x & E1 & N). exists (x :: cs). rewrite mapM_cons, E1. cbn [bind]. rewrite E. cbn [bind map length]. repeat split; [lia|]. constructor; assumption.
Qed.
Lemma scalars c : get_pyclustering_type c <> TList.
Proof. destruct c; discriminate. Qed.
Lemma extract_row n c cs : length cs = n -> extract (Package n (get_pyclustering_type c) cs []) = Ok (VList (map load cs)).
Proof. intros <-. destruct cs as [|x cs]; [reflexivity|]. cbn [extract length]. destruct c; cbn [get_pyclustering_type]; rewrite Nat.eqb_refl; reflexivity. Qed.

Lemma rows_extract (f : list nscalar -> res package) rows : (forall l, In l rows -> exists p v, f l = Ok p /\ extract p = Ok v /\ is_row v l) ->
  exists subs, mapM f rows = Ok subs /\ exists v, extract (Package (length rows) TList [] subs) = Ok v /\ is_table v rows.
Proof.
  intro H. assert (W : exists subs vs, mapM f rows = Ok subs /\ length subs = length rows /\ (fix go (l : list package) : res (list value) := match l with [] => Ok [] | x :: t => do y <- extract x; do t' <- go t; Ok (y :: t') end) subs = Ok vs /\ Forall2 is_row vs rows).
  { induction rows as [|l t IH]; [exists [], []; repeat split; constructor|]. destruct (H l (or_introl eq_refl)) as (p & v & E1 & E2 & R). destruct IH as (subs & vs & E3 & L & E4 & R2); [intros k Hk; apply H; now right|].
    exists (p :: subs), (v :: vs). rewrite mapM_cons, E1. cbn [bind]. rewrite E3. cbn [bind length]. split; [reflexivity|]. split; [lia|]. rewrite E2. cbn [bind]. rewrite E4. cbn [bind]. split; [reflexivity|constructor; assumption]. }
  destruct W as (subs & vs & E & L & G & R). exists subs. split; [exact E|]. exists (VList vs). split; [|exists vs; auto].
  destruct rows as [|l t]; [cbn [length] in L; destruct subs; [|discriminate]; inversion R; reflexivity|]. destruct subs as [|p subs]; [discriminate|]. cbn [extract]. cbn [length] in *. rewrite L, Nat.eqb_refl. cbn [bind].
  cbn in G. rewrite G. reflexivity.
Qed.

(** a matrix and an array with one or two axes of numbers that fit the given C type *)
Theorem C267_typed c rows cols : (forall l, In l rows -> length l = cols) -> Forall (Forall (fits c)) rows ->
  (exists p v, pack (Some c) (NMatrix cols rows) = Ok p /\ extract p = Ok v /\ is_table v rows) /\
  (exists p v, pack (Some c) (NArray2 rows) = Ok p /\ extract p = Ok v /\ is_table v rows) /\
  (forall l, In l rows -> exists p v, pack (Some c) (NArray1 l) = Ok p /\ extract p = Ok v /\ is_row v l).
Proof.
  intros Hl Hf. rewrite Forall_forall in Hf.
  assert (A : forall l, In l rows -> exists p v, pack_row (Some c) l = Ok p /\ extract p = Ok v /\ is_row v l).
  { intros l Hi. destruct (row_fits c l (Hf l Hi)) as (cs & E & L & F). unfold pack_row. destruct l as [|x l]; [exists (Package 0 TUndefined [] []), (VList []); repeat split; exists []; split; [reflexivity|constructor]|].
    cbn [first_type bind]. rewrite E. cbn [bind]. eexists. eexists. split; [reflexivity|]. split; [apply extract_row; exact L|]. exists (map load cs). auto. }
  split; [|split].
  - destruct (rows_extract (matrix_row (Some c) cols) rows) as (subs & E & v & X & T).
    { intros l Hi. destruct (row_fits c l (Hf l Hi)) as (cs & E & L & F). unfold matrix_row. rewrite E. cbn [bind]. eexists. eexists. split; [reflexivity|]. split; [apply extract_row; rewrite L; now apply Hl|]. exists (map load cs). auto. }
    cbn [pack]. rewrite E. cbn [bind]. eauto.
  - destruct (rows_extract (pack_row (Some c)) rows A) as (subs & E & v & X & T). cbn [pack]. destruct rows as [|l t]; [exists (Package 0 TUndefined [] []), (VList []); repeat split; exists []; split; [reflexivity|constructor]|]. rewrite E. cbn [bind]. eauto.
  - exact A.
Qed.
Print Assumptions C267_typed.

(** without a C type: arrays of double precision numbers *)
Theorem C267_doubles rows : Forall (Forall is_float64) rows ->
  (exists p v, pack None (NArray2 rows) = Ok p /\ extract p = Ok v /\ is_table v rows) /\ (forall l, In l rows -> exists p v, pack None (NArray1 l) = Ok p /\ extract p = Ok v /\ is_row v l).
Proof.
  intro Hf. rewrite Forall_forall in Hf.
  assert (A : forall l, In l rows -> exists p v, pack_row None l = Ok p /\ extract p = Ok v /\ is_row v l).
  { intros l Hi. specialize (Hf l Hi). destruct (row_fits c_double l) as (cs & E & L & F); [apply Forall_forall; intros; exact I|]. unfold pack_row. destruct l as [|x l]; [exists (Package 0 TUndefined [] []), (VList []); repeat split; exists []; split; [reflexivity|constructor]|].
    inversion Hf as [|? ? Hx _]; subst. destruct x; try contradiction. cbn [first_type bind]. rewrite E. cbn [bind]. eexists. eexists. split; [reflexivity|]. split; [apply (extract_row _ c_double); exact L|]. exists (map load cs). auto. }
  split; [|exact A]. destruct (rows_extract (pack_row None) rows A) as (subs & E & v & X & T). cbn [pack]. destruct rows as [|l t]; [exists (Package 0 TUndefined [] []), (VList []); repeat split; exists []; split; [reflexivity|constructor]|]. rewrite E. cbn [bind]. eauto.
Qed.
Print Assumptions C267_doubles.

(** an encoded string comes back as the list of its bytes *)
Theorem C267_bytes l : Forall (fun z => (0 <= z < 256)%Z) l -> exists p, pack None (NBytes l) = Ok p /\ extract p = Ok (VList (map VInt l)).
Proof.
  intro H. cbn [pack]. assert (W : mapM (store c_long) (map VInt l) = Ok (map CellInt l)).
  { induction H as [|z t Hz Ht IH]; [reflexivity|]. cbn [map]. rewrite mapM_cons. cbn [store bind]. rewrite IH. cbn [bind]. rewrite signed_id by lia. reflexivity. }
  destruct l as [|z l]; [eexists; split; reflexivity|]. cbn [map create_package is_container scalar_type]. cbn [map] in W. rewrite W. cbn [bind]. eexists. split; [reflexivity|].
  cbn [extract length]. rewrite !map_length, Nat.eqb_refl. cbn [map load]. rewrite map_map. reflexivity.
Qed.
Print Assumptions C267_bytes.

(** with a C type of integers: integers arrive as integers, and floats of any width are refused *)
Definition is_float_scalar (v : nscalar) : Prop := match v with NInt64 _ => False | _ => True end.
Lemma nstore_ok_or c v : (exists y, nstore c v = Ok y) \/ nstore c v = Raise TypeError.
Proof. destruct c, v; cbn [nstore store]; eauto. Qed.
Lemma mapM_type c l : (exists v, In v l /\ nstore c v = Raise TypeError) -> mapM (nstore c) l = Raise TypeError.
Proof.
  induction l as [|x t IH]; intros (v & Hv & E); [destruct Hv|]. rewrite mapM_cons. destruct Hv as [-> | Hv]; [now rewrite E|].
  destruct (nstore_ok_or c x) as [(y & ->) | ->]; cbn [bind]; [|reflexivity]. rewrite IH by (exists v; auto). reflexivity.
Qed.
Theorem C267_integer_types c l : c <> c_double ->
  (forall zs, l = map NInt64 zs -> Forall (fits c) l -> exists p, pack (Some c) (NArray1 l) = Ok p /\ extract p = Ok (VList (map VInt zs))) /\
  (forall v, In v l -> is_float_scalar v -> pack (Some c) (NArray1 l) = Raise TypeError).
Proof.
  intro Hc. split.
  - intros zs -> Hf. assert (W : mapM (nstore c) (map NInt64 zs) = Ok (map CellInt zs)).
    { induction zs as [|z t IH]; [reflexivity|]. cbn [map] in *. apply Forall_cons_iff in Hf as (Hz & Ht). rewrite mapM_cons, IH by exact Ht. cbn [nstore]. destruct c; cbn [fits store bind] in *; rewrite ?signed_id, ?unsigned_id by lia; try reflexivity. congruence. }
    destruct zs as [|z t]; [eexists; split; reflexivity|]. cbn [pack]. unfold pack_row. cbn [map first_type bind]. cbn [map] in W. rewrite W. cbn [bind]. eexists. split; [reflexivity|].
    rewrite extract_row by (cbn [length]; now rewrite !map_length). cbn [map load]. rewrite map_map. reflexivity.
  - intros v Hv F. cbn [pack]. unfold pack_row. destruct l as [|x t]; [destruct Hv|]. cbn [first_type bind]. rewrite mapM_type; [reflexivity|]. exists v. split; [exact Hv|]. destruct v; [|destruct F|]; destruct c; cbn [nstore store]; congruence.
Qed.
Print Assumptions C267_integer_types.

(** false: a matrix without a C type is refused, even when it has double precision numbers *)
Theorem C267_untyped_matrix_refuted : exists cols rows, (forall l, In l rows -> length l = cols) /\ Forall (Forall is_float64) rows /\ pack None (NMatrix cols rows) = Raise TypeError.
Proof. exists 2, [[NFloat64 1; NFloat64 2]]. split; [intros l [<-|[]]; reflexivity|]. split; [repeat constructor|reflexivity]. Qed.
Print Assumptions C267_untyped_matrix_refuted.
(** false: an array of integers without a C type is refused, though a list of the same integers is packed *)
Theorem C267_integers_refuted : exists l, pack None (NArray1 (map NInt64 l)) = Raise NameError /\ exists p, create_package None (VList (map VInt l)) = Ok p.
Proof. exists [1; 2]%Z. split; [reflexivity|]. eexists. reflexivity. Qed.
Print Assumptions C267_integers_refuted.

Example C267_case : let rows := [[NFloat64 (1 # 2); NInt64 3; NFloat32 (1 # 4)]; [NInt64 5; NInt64 6; NFloat64 7]] in
  (forall l, In l rows -> length l = 3) /\ Forall (Forall (fits c_double)) rows /\
  (do p <- pack (Some c_double) (NMatrix 3 rows); extract p) = Ok (VList [VList [VFloat (1 # 2); VFloat 3; VFloat (1 # 4)]; VList [VFloat 5; VFloat 6; VFloat 7]]) /\
  (do p <- pack (Some c_size_t) (NArray1 [NInt64 3; NInt64 4]); extract p) = Ok (VList [VInt 3; VInt 4]) /\
  (do p <- pack None (NBytes [104; 105]%Z); extract p) = Ok (VList [VInt 104; VInt 105]).
Proof. cbn zeta. split; [intros l [<-|[<-|[]]]; reflexivity|]. split; [repeat constructor|]. repeat split. Qed.
