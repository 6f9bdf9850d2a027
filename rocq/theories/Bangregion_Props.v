(** BANG: the region number and the level of a block identify it, and what len() and get_level() of the directory return. *)
From Verif Require Import Base Small_Model Bang_Model Bang_Proofs Bang_Props.

(** a block that the directory gives out: a leaf (get_leafs) or a block of get_level(k) *)
Definition stored (d : directory) (x : block) : Prop := In x (leafs d) \/ exists k, In x (nth k (level_blocks d) []).

Section Regions.
Variable data : list point.
Variable levels : nat.
Variable dthr : Q.
Variable athr : nat.
Variable D : nat.
Variable root : block.

(** the only block there can be on a level in a region *)
Fixpoint place (l r : nat) : block :=
  match l with
  | 0 => root
  | S l => let h := split (place l (r mod 2 ^ l)) (S l mod D) in if r <? 2 ^ l then fst h else snd h
  end.
Definition placed (b : block) : Prop := b = place (level b) (region b) /\ region b < 2 ^ level b.
Definition key (b : block) : nat * nat := (region b, level b).
Notation sparse := (is_sparse data dthr athr).

Lemma pow2_pos l : 0 < 2 ^ l.
Proof. induction l; simpl; lia. Qed.
Lemma split_placed b l : placed b -> level b = l ->
  let h := split b (S l mod D) in
  placed (fst h) /\ placed (snd h) /\ level (fst h) = S l /\ level (snd h) = S l /\ region (fst h) = region b /\ region (snd h) = region b + 2 ^ l.
Proof.
  intros [E L] <-. cbv zeta. unfold placed. cbn [split fst snd level region].
  assert (P2 : 2 ^ S (level b) = 2 ^ level b + 2 ^ level b) by (simpl; lia). assert (M : region b mod 2 ^ level b = region b) by (apply Nat.mod_small; lia).
  assert (M2 : (region b + 2 ^ level b) mod 2 ^ level b = region b).
  { replace (region b + 2 ^ level b) with (region b + 1 * 2 ^ level b) by lia. rewrite Nat.mod_add by lia. exact M. }
  split; [|split; [|auto 8]].
  - split; [|lia]. cbn [place]. rewrite M. destruct (Nat.ltb_spec (region b) (2 ^ level b)); [|lia]. rewrite <- E. reflexivity.
  - split; [|lia]. cbn [place]. rewrite M2. destruct (Nat.ltb_spec (region b + 2 ^ level b) (2 ^ level b)); [lia|]. rewrite <- E. reflexivity.
Qed.

Definition halves (d : nat) (b : block) : list block := if sparse b then [] else [fst (split b d); snd (split b d)].
Lemma split_blocks_lists d : forall prev lf cur, split_blocks data dthr athr d prev lf cur = (lf ++ filter sparse prev, cur ++ flat_map (halves d) prev).
Proof.
  induction prev as [|b t IH]; intros lf cur; cbn [split_blocks filter flat_map]; [rewrite !app_nil_r; reflexivity|]. unfold halves at 1.
  destruct (sparse b); rewrite IH; [rewrite <- app_assoc; reflexivity|]. rewrite <- app_assoc. reflexivity.
Qed.
Lemma halves_placed l prev : (forall b, In b prev -> placed b /\ level b = l) -> forall b, In b (flat_map (halves (S l mod D)) prev) -> placed b /\ level b = S l /\ exists a, In a prev /\ (region b = region a \/ region b = region a + 2 ^ l).
Proof.
  intros H b Hb. apply in_flat_map in Hb as (a & Ha & Hb). destruct (H a Ha) as [P L]. destruct (split_placed a l P L) as (P1 & P2 & L1 & L2 & R1 & R2). unfold halves in Hb.
  destruct (sparse a); [contradiction|]. destruct Hb as [<- | [<- | []]]; (split; [assumption|split; [assumption|exists a; auto]]).
Qed.
Lemma halves_differ l prev : (forall b, In b prev -> placed b /\ level b = l) -> NoDup (map region prev) -> NoDup (map region (flat_map (halves (S l mod D)) prev)).
Proof.
  induction prev as [|a t IH]; intros H N; [constructor|]. cbn [flat_map map] in *. apply NoDup_cons_iff in N as [Na N]. assert (Ht : forall b, In b t -> placed b /\ level b = l) by (intros; apply H; right; auto).
  specialize (IH Ht N). unfold halves at 1. destruct (sparse a); [exact IH|]. destruct (H a (or_introl eq_refl)) as [P L]. destruct (split_placed a l P L) as (_ & _ & _ & _ & R1 & R2). cbn [app map]. rewrite R1, R2.
  assert (Pa : region a < 2 ^ l) by (destruct P as [_ P]; rewrite L in P; exact P).
  assert (Tail : forall x, In x (map region (flat_map (halves (S l mod D)) t)) -> x <> region a /\ x <> region a + 2 ^ l).
  { intros x Hx. apply in_map_iff in Hx as (b & <- & Hb). destruct (halves_placed l t Ht b Hb) as (_ & _ & c & Hc & E). destruct (Ht c Hc) as [[_ Pc] Lc]. rewrite Lc in Pc. assert (Ne : region c <> region a) by (intro Q; apply Na; rewrite <- Q; apply in_map; exact Hc). destruct E; lia. }
  constructor; [|constructor; [|exact IH]].
  - intros [Q | Q]; [pose proof (pow2_pos l); lia|]. apply (proj1 (Tail _ Q)). reflexivity.
  - intro Q. apply (proj2 (Tail _ Q)). reflexivity.
Qed.

Lemma level_keys l prev : (forall b, In b prev -> level b = l) -> NoDup (map region prev) -> NoDup (map key prev).
Proof.
  induction prev as [|a t IH]; intros H N; [constructor|]. cbn [map] in *. apply NoDup_cons_iff in N as [Na N]. constructor; [|apply IH; auto; intros; apply H; right; auto].
  intro Q. apply in_map_iff in Q as (b & E & Hb). apply Na. injection E as E _. rewrite <- E. apply in_map. exact Hb.
Qed.
Lemma filter_regions f (prev : list block) : NoDup (map region prev) -> NoDup (map region (filter f prev)).
Proof.
  induction prev as [|a t IH]; intros N; [constructor|]. cbn [map filter] in *. apply NoDup_cons_iff in N as [Na N]. destruct (f a); [|auto]. cbn [map]. constructor; [|auto].
  intro Q. apply Na. apply in_map_iff in Q as (b & E & Hb). apply filter_In in Hb as [Hb _]. rewrite <- E. apply in_map. exact Hb.
Qed.
Lemma NoDup_both {A} (a b : list A) : NoDup a -> NoDup b -> (forall x, In x a -> In x b -> False) -> NoDup (a ++ b).
Proof. induction a as [|x a IH]; intros Na Nb H; [exact Nb|]. cbn [app]. apply NoDup_cons_iff in Na as [Hx Na]. constructor; [|apply IH; auto; intros y Hy; apply (H y); right; auto]. rewrite in_app_iff. intros [Q | Q]; [auto|]. apply (H x); [left; auto|exact Q]. Qed.

(** the leafs below level [l] and the blocks of the levels 1 .. l *)
Definition kept (l : nat) (d : directory) : Prop :=
  (forall b, In b (leafs d) -> placed b /\ level b < l) /\ NoDup (map key (leafs d)) /\
  length (level_blocks d) = l /\ (forall k b, In b (nth k (level_blocks d) []) -> placed b /\ level b = S k /\ S k <= l) /\
  (forall k, NoDup (map region (nth k (level_blocks d) []))) /\ size d = length (concat (level_blocks d)).
Definition kept_all (d : directory) : Prop :=
  (forall b, In b (leafs d) -> placed b /\ level b < levels) /\ NoDup (map key (leafs d)) /\
  (forall k b, In b (nth k (level_blocks d) []) -> placed b /\ level b = S k /\ S k < levels) /\
  (forall k, NoDup (map region (nth k (level_blocks d) []))) /\ size d = length (concat (level_blocks d)).

Lemma nth_snoc {A} (l : list (list A)) x k : nth k (l ++ [x]) [] = if k =? length l then x else nth k l [].
Proof.
  destruct (Nat.eqb_spec k (length l)) as [->|N]; [rewrite app_nth2, Nat.sub_diag by lia; reflexivity|]. destruct (Nat.lt_ge_cases k (length l)); [apply app_nth1; assumption|].
  rewrite !nth_overflow; [reflexivity|lia|rewrite app_length; simpl; lia].
Qed.
Lemma build_kept : forall n l prev d, S l + n = levels -> 1 <= n -> (forall b, In b prev -> placed b /\ level b = l) -> NoDup (map region prev) -> kept l d ->
  kept_all (build_levels data levels dthr athr D (seq (S l) n) prev d).
Proof.
  induction n as [|n IH]; intros l prev d E Hn Hp Np (K1 & K2 & K3 & K4 & K5 & K6); [lia|]. cbn [seq build_levels]. unfold build_level. rewrite split_blocks_lists. cbn [app].
  set (cur := flat_map (halves (S l mod D)) prev). pose proof (halves_placed l prev Hp) as Hc. fold cur in Hc. pose proof (halves_differ l prev Hp Np) as Nc. fold cur in Nc.
  set (lf := leafs d ++ filter sparse prev).
  assert (F1 : forall b, In b lf -> placed b /\ level b < S l).
  { intros b Hb. unfold lf in Hb. apply in_app_iff in Hb as [Hb | Hb]; [destruct (K1 b Hb); split; [auto|lia]|]. apply filter_In in Hb as [Hb _]. destruct (Hp b Hb). split; [auto|lia]. }
  assert (F2 : NoDup (map key lf)).
  { unfold lf. rewrite map_app. apply NoDup_both; [exact K2|apply (level_keys l); [intros b Hb; apply filter_In in Hb as [Hb _]; apply Hp; auto|apply filter_regions; exact Np]|].
    intros x Hx Hy. apply in_map_iff in Hx as (b & <- & Hb). apply in_map_iff in Hy as (c & Ec & Hcc). apply filter_In in Hcc as [Hcc _]. injection Ec as _ Ec. pose proof (proj2 (K1 b Hb)). pose proof (proj2 (Hp c Hcc)). lia. }
  assert (L2 : forall k b, In b (nth k (level_blocks d ++ [cur]) []) -> placed b /\ level b = S k /\ S k <= S l).
  { intros k b Hb. rewrite nth_snoc in Hb. destruct (Nat.eqb_spec k (length (level_blocks d))) as [Ek|_]; [destruct (Hc b Hb) as (A & B & _); split; [auto|split; lia]|]. destruct (K4 k b Hb) as (A & B & C). split; [auto|split; lia]. }
  assert (L3 : forall k, NoDup (map region (nth k (level_blocks d ++ [cur]) []))) by (intro k; rewrite nth_snoc; destruct (k =? length (level_blocks d)); auto).
  assert (L4 : size d + length cur = length (concat (level_blocks d ++ [cur]))) by (rewrite concat_app, app_length, K6; cbn [concat]; rewrite app_nil_r; reflexivity).
  destruct (Nat.eqb_spec (S l) (levels - 1)) as [El|El].
  - assert (n = 0) by lia. subst n. cbn [seq build_levels]. unfold store_level. cbn [leafs level_blocks size]. unfold kept_all. cbn [leafs level_blocks size]. split; [|split; [|split; [|split; [exact L3|exact L4]]]].
    + intros b Hb. apply in_app_iff in Hb as [Hb | Hb]; [destruct (F1 b Hb); split; [auto|lia]|]. destruct (Hc b Hb) as (A & B & _). split; [auto|lia].
    + rewrite map_app. apply NoDup_both; [exact F2|apply (level_keys (S l)); [intros b Hb; apply Hc; auto|exact Nc]|]. intros x Hx Hy. apply in_map_iff in Hx as (b & <- & Hb). apply in_map_iff in Hy as (c & Ec & Hcc). injection Ec as _ Ec. pose proof (proj2 (F1 b Hb)). destruct (Hc c Hcc) as (_ & B & _). lia.
    + intros k b Hb. destruct (L2 k b Hb) as (A & B & C). split; [auto|split; lia].
  - apply IH; [lia|lia|intros b Hb; destruct (Hc b Hb) as (A & B & _); auto|exact Nc|]. unfold kept, store_level. cbn [leafs level_blocks size]. split; [exact F1|]. split; [exact F2|]. split; [rewrite app_length, K3; simpl; lia|]. split; [exact L2|]. split; [exact L3|exact L4].
Qed.
End Regions.

Lemma directory_regions data D levels dthr athr d : valid data D levels dthr -> create_directory data levels dthr athr = Ok d ->
  (forall x y, stored d x -> stored d y -> region x = region y -> level x = level y -> x = y) /\
  (forall x, stored d x -> region x < 2 ^ level x /\ level x < levels) /\
  NoDup (map (fun x => (region x, level x)) (leafs d)) /\ (forall k, NoDup (map region (nth k (level_blocks d) []))) /\
  (forall k x, In x (nth k (level_blocks d) []) -> level x = if levels =? 1 then 0 else S k) /\ size d = length (concat (level_blocks d)).
Proof.
  intros (Hd & HD & Hne & Hl & Ht) E. unfold create_directory in E. destruct (data_corners data None) as [c|e]; [|discriminate]. cbn [bind] in E.
  set (root := mkBlk (snd c) (fst c) 0 0) in E. assert (Hdl : length (nth 0 data []) = D) by (apply Hd, nth_In; destruct data; [congruence|simpl; lia]). rewrite Hdl in E.
  destruct (Nat.eqb_spec levels 1) as [E1|E1].
  - injection E as <-. unfold stored, store_level. cbn [leafs level_blocks size app].
    assert (One : forall x, In x [root] \/ (exists k, In x (nth k [[root]] [])) -> x = root).
    { intros x [[<- | []] | (k & H)]; [reflexivity|]. destruct k as [|[|k]]; cbn [nth In] in H; intuition. }
    split; [intros x y Hx Hy _ _; rewrite (One x Hx), (One y Hy); reflexivity|]. split; [intros x Hx; rewrite (One x Hx); cbn; lia|]. split; [repeat constructor; intros []|].
    split; [intros [|[|k]]; cbn [nth map]; repeat constructor; intros []|]. split; [|reflexivity]. intros k x Hx. rewrite (One x (or_intror (ex_intro _ k Hx))). reflexivity.
  - destruct (Nat.eqb_spec D 0); [lia|]. injection E as <-.
    assert (Pr : placed D root root) by (split; [reflexivity|cbn; lia]).
    destruct (build_kept data levels dthr athr D root (levels - 1) 0 [root] (mkDir [] [] 0)) as (K1 & K2 & K3 & K4 & K5); [lia|lia|intros b [<- | []]; auto|repeat constructor; intros []| |].
    { unfold kept. cbn [leafs level_blocks size]. split; [intros b []|]. split; [constructor|]. split; [reflexivity|]. split; [intros [|k] b []|]. split; [intros [|k]; constructor|reflexivity]. }
    set (r := build_levels data levels dthr athr D (seq 1 (levels - 1)) [root] (mkDir [] [] 0)) in *. pose proof (sort_key_perm (density data) (leafs r)) as P.
    assert (St : forall x, stored (mkDir (sort_key (density data) (leafs r)) (level_blocks r) (size r)) x -> placed D root x /\ level x < levels).
    { intros x [Hx | (k & Hx)]; cbn [leafs level_blocks] in Hx; [apply K1; apply (Permutation_in _ P); exact Hx|]. destruct (K3 k x Hx) as (A & B & C). split; [auto|lia]. }
    split; [intros x y Hx Hy Er El; destruct (St x Hx) as [[Px _] _]; destruct (St y Hy) as [[Py _] _]; rewrite Px, Py, Er, El; reflexivity|].
    split; [intros x Hx; destruct (St x Hx) as [[_ Px] Lx]; auto|]. cbn [leafs level_blocks size].
    split; [apply (Permutation_NoDup (l := map key (leafs r))); [apply Permutation_map; symmetry; exact P|exact K2]|]. split; [exact K4|]. split; [|exact K5].
    intros k x Hx. apply K3. exact Hx.
Qed.
Lemma process_directory order data D levels dthr athr : (forall l, Permutation (order l) l) -> valid data D levels dthr ->
  exists b d, process order data levels dthr athr initial = Ok b /\ dir b = Some d /\ create_directory data levels dthr athr = Ok d.
Proof.
  intros Ho (Hd & HD & Hne & Hl & Ht). destruct (bang_spec order Ho data D levels dthr athr Hd HD Hne Hl Ht) as (b & d & E & Ed & _). exists b, d. split; [exact E|]. split; [exact Ed|].
  unfold process in E. destruct (length data =? 0); [discriminate|]. destruct (levels <? 1); [discriminate|]. destruct (Qltb dthr 0); [discriminate|]. destruct (create_directory data levels dthr athr) as [d'|e]; [|discriminate]. cbn [bind] in E.
  match type of E with (do r <- ?x ; _) = _ => destruct x as [r|e]; [|discriminate] end. cbn [bind] in E. match type of E with (do r <- ?x ; _) = _ => destruct x as [[c s]|e]; [|discriminate] end. cbn [bind] in E.
  destruct (store_results _ _ _ _ _ _) as [cl ns]. injection E as <-. cbn [dir] in Ed. injection Ed as ->. reflexivity.
Qed.

(** C278.  The region number and the level identify a block: blocks of the directory with the same two numbers are the same block, the leafs have
    different pairs, the blocks of one level different region numbers, below 2^level. *)
Theorem C278_region_unique order data D levels dthr athr : (forall l, Permutation (order l) l) -> valid data D levels dthr ->
  exists b d, process order data levels dthr athr initial = Ok b /\ dir b = Some d /\
    (forall x y, stored d x -> stored d y -> region x = region y -> level x = level y -> x = y) /\
    (forall x, stored d x -> region x < 2 ^ level x /\ level x < levels) /\
    NoDup (map (fun x => (region x, level x)) (leafs d)) /\ (forall k, NoDup (map region (nth k (level_blocks d) []))).
Proof.
  intros Ho V. destruct (process_directory order data D levels dthr athr Ho V) as (b & d & E & Ed & C). exists b, d. destruct (directory_regions data D levels dthr athr d V C) as (A1 & A2 & A3 & A4 & _). auto 8.
Qed.
Print Assumptions C278_region_unique.
Example C278_example : exists b d, process (fun l => l) w77 3 0 0 initial = Ok b /\ dir b = Some d /\ map (fun x => (region x, level x)) (leafs d) <> [] /\
  map (map (fun x => (region x, level x))) (level_blocks d) = [[(0, 1); (1, 1)]; [(0, 2); (2, 2); (1, 2); (3, 2)]].
Proof. eexists _, _. split; [vm_compute; reflexivity|]. split; [reflexivity|]. split; [discriminate|reflexivity]. Qed.

(** C279.  len() of the directory is the number of blocks that get_level returns for all levels; with one level that is the root, with more levels
    get_level(k) returns blocks of level k + 1 ... *)
Theorem C279_size order data D levels dthr athr : (forall l, Permutation (order l) l) -> valid data D levels dthr ->
  exists b d, process order data levels dthr athr initial = Ok b /\ dir b = Some d /\ size d = length (concat (level_blocks d)) /\
    forall k x, In x (nth k (level_blocks d) []) -> level x = if levels =? 1 then 0 else S k.
Proof.
  intros Ho V. destruct (process_directory order data D levels dthr athr Ho V) as (b & d & E & Ed & C). exists b, d. destruct (directory_regions data D levels dthr athr d V C) as (_ & _ & _ & _ & A5 & A6). auto 8.
Qed.
Print Assumptions C279_size.
Example C279_example : exists b d, process (fun l => l) w77 3 0 0 initial = Ok b /\ dir b = Some d /\ size d = 6 /\ map (@length block) (level_blocks d) = [2; 4].
Proof. eexists _, _. split; [vm_compute; reflexivity|]. split; [reflexivity|]. split; reflexivity. Qed.
(** ... so the root is not counted: where it is the only leaf, len() is 0 although there is a leaf, ... *)
Theorem C279_size_refuted : exists data D levels dthr athr b d, valid data D levels dthr /\ process (fun l => l) data levels dthr athr initial = Ok b /\ dir b = Some d /\
  size d = 0 /\ length (leafs d) = 1.
Proof.
  exists w77, 1, 3, 0%Q, 10. eexists _, _. split; [exact w77_valid|]. split; [vm_compute; reflexivity|]. split; [reflexivity|]. split; reflexivity.
Qed.
Print Assumptions C279_size_refuted.
(** ... and get_level(0) does not return the block of level 0. *)
Theorem C279_level_refuted : exists data D levels dthr athr b d, valid data D levels dthr /\ process (fun l => l) data levels dthr athr initial = Ok b /\ dir b = Some d /\
  nth 0 (level_blocks d) [] <> [] /\ forall x, In x (nth 0 (level_blocks d) []) -> level x <> 0.
Proof.
  exists w77, 1, 3, 0%Q, 0. eexists _, _. split; [exact w77_valid|]. split; [vm_compute; reflexivity|]. split; [reflexivity|]. split; [discriminate|]. cbn [level_blocks nth In]. intros x [<- | [<- | []]]; discriminate.
Qed.
Print Assumptions C279_level_refuted.
