(** CLIQUE: specification and proofs. *)
From Verif Require Import Base Kmeans_Model Kmeans_Proofs Bsas_Model Bsas_Proofs Clique_Model.

(** * Specification *)
(** cells of the grid *)
Definition in_grid (dim a : nat) (l : list nat) : Prop := length l = dim /\ forall d, d < dim -> nth d l 0 < a.

(** cells with a common face *)
Definition face (dim : nat) (l m : list nat) : Prop :=
  exists d, d < dim /\ (nth d m 0 = nth d l 0 + 1 \/ nth d l 0 = nth d m 0 + 1) /\ forall e, e < dim -> e <> d -> nth e l 0 = nth e m 0.

(** chain of dense cells of the grid *)
Inductive dense_chain (dim a : nat) (dns : list nat -> Prop) : list nat -> list nat -> Prop :=
| dc_one l : in_grid dim a l -> dns l -> dense_chain dim a dns l l
| dc_hop l m n : dense_chain dim a dns l m -> face dim m n -> in_grid dim a n -> dns n -> dense_chain dim a dns l n.

(** smallest and greatest value of a coordinate *)
Definition lowest (data : list point) (d : nat) (v : Q) : Prop :=
  (exists p, In p data /\ v = coord p d) /\ forall p, In p data -> (v <= coord p d)%Q.
Definition highest (data : list point) (d : nat) (v : Q) : Prop :=
  (exists p, In p data /\ v = coord p d) /\ forall p, In p data -> (coord p d <= v)%Q.

(** the closed box of a cell: the range of each coordinate is cut into equal intervals *)
Definition in_box (data : list point) (a : nat) (l : list nat) (p : point) : Prop :=
  forall d lo hi, d < length p -> lowest data d lo -> highest data d hi ->
    (inject_Z (Z.of_nat a) * lo + (hi - lo) * inject_Z (Z.of_nat (nth d l 0%nat)) <= inject_Z (Z.of_nat a) * coord p d)%Q /\
    (inject_Z (Z.of_nat a) * coord p d <= inject_Z (Z.of_nat a) * lo + (hi - lo) * inject_Z (Z.of_nat (nth d l 0%nat + 1)))%Q.

(** the cell at [l] holds more than [threshold] of the [n] points, point [i] being in the cell [where_ i] *)
Definition dense_loc (n threshold : nat) (where_ : nat -> list nat) (l : list nat) : Prop :=
  threshold < length (filter (fun i => if list_eq_dec Nat.eq_dec (where_ i) l then true else false) (seq 0 n)).

(** * The grid *)
Section Grid.
Variable a : nat.
Hypothesis Ha : 1 <= a.

Fixpoint val (l : list nat) : nat := match l with [] => 0 | x :: t => x + a * val t end.
Definition below (l : list nat) : Prop := Forall (fun x => x < a) l.

Lemma val_bound l : below l -> val l < a ^ length l.
Proof.
  induction 1 as [|x t Hx Ht IH]; simpl; [lia|]. assert (a * val t + a <= a * a ^ length t) by nia. lia.
Qed.

Lemma val_inj l : forall m, below l -> below m -> length l = length m -> val l = val m -> l = m.
Proof.
  induction l as [|x t IH]; intros [|y u] Hl Hm Hlen E; simpl in *; try discriminate; auto.
  inversion Hl; subst. inversion Hm; subst.
  assert (Hxy : x = y). { assert (E1 : (x + val t * a) mod a = x) by (rewrite Nat.mod_add by lia; apply Nat.mod_small; auto).
    assert (E2 : (y + val u * a) mod a = y) by (rewrite Nat.mod_add by lia; apply Nat.mod_small; auto).
    rewrite <- E1, <- E2. f_equal. rewrite (Nat.mul_comm (val t)), (Nat.mul_comm (val u)). exact E. }
  subst y. f_equal. apply IH; auto. nia.
Qed.

Lemma inc_length l : length (increment a l) = length l.
Proof. induction l as [|x t IH]; simpl; auto. destruct (x + 1 <? a); simpl; auto. Qed.

Lemma inc_below l : below l -> below (increment a l).
Proof.
  induction 1 as [|x t Hx Ht IH]; simpl; [constructor|]. destruct (Nat.ltb_spec (x + 1) a); constructor; auto; lia.
Qed.

Lemma inc_val l : below l -> val (increment a l) = if val l + 1 <? a ^ length l then val l + 1 else 0.
Proof.
  induction 1 as [|x t Hx Ht IH]; [reflexivity|]. cbn [increment length Nat.pow val]. pose proof (val_bound t Ht) as Hb.
  destruct (Nat.ltb_spec (x + 1) a).
  - cbn [val]. assert (a * val t + a <= a * a ^ length t) by nia. destruct (Nat.ltb_spec (x + a * val t + 1) (a * a ^ length t)); lia.
  - cbn [val]. rewrite IH. assert (x + 1 = a) by lia. destruct (Nat.ltb_spec (val t + 1) (a ^ length t)); destruct (Nat.ltb_spec (x + a * val t + 1) (a * a ^ length t)); nia.
Qed.

Lemma locations_spec count : forall cur k, below cur -> val cur + count <= a ^ length cur -> k < count ->
  let l := nth k (locations a count cur) [] in
  length l = length cur /\ below l /\ val l = if val cur + k + 1 <? a ^ length cur then val cur + k + 1 else 0.
Proof.
  induction count as [|c IH]; intros cur k Hb Hle Hk; [lia|]. cbn [locations].
  pose proof (inc_val cur Hb) as Ev. pose proof (inc_below cur Hb) as Hb'. pose proof (inc_length cur) as Hl.
  destruct k as [|k]; cbn [nth].
  - split; auto. split; auto. rewrite Ev. rewrite Nat.add_0_r. reflexivity.
  - destruct (Nat.ltb_spec (val cur + 1) (a ^ length cur)); [|lia].
    destruct (IH (increment a cur) k Hb') as (E1 & E2 & E3); [rewrite Ev, Hl; lia|lia|]. rewrite Hl in *. split; [lia|]. split; auto. rewrite E3, Ev.
    replace (val cur + 1 + k + 1) with (val cur + S k + 1) by lia. reflexivity.
Qed.

Lemma locations_length count cur : length (locations a count cur) = count.
Proof. revert cur. induction count; intros; simpl; auto. Qed.
End Grid.

Lemma below_iff a dim l : length l = dim -> (below a l <-> forall d, d < dim -> nth d l 0 < a).
Proof.
  intros <-. unfold below. rewrite Forall_forall. split.
  - intros H d Hd. apply H, nth_In. auto.
  - intros H x Hx. apply (In_nth _ _ 0) in Hx as (d & Hd & <-). auto.
Qed.

Section Proofs.
Variable data : list point.
Variable a : nat.
Variable threshold : nat.
Hypothesis Ha : 1 <= a.
Hypothesis Hne : data <> [].
Notation D := (dimension data).
Hypothesis Hdim : uniform D data.
Notation N := (length (cells data a)).
Notation loc k := (nth k (cells data a) []).

Lemma repeat0_below n : below a (repeat 0 n).
Proof. unfold below. rewrite Forall_forall. intros x Hx. apply repeat_spec in Hx. lia. Qed.
Lemma repeat0_val n : val a (repeat 0 n) = 0.
Proof. induction n; simpl; lia. Qed.

Lemma cells_length : N = a ^ D.
Proof. unfold cells. apply locations_length. Qed.

Lemma cell_val k : k < N -> in_grid D a (loc k) /\ val a (loc k) = if k + 1 <? a ^ D then k + 1 else 0.
Proof.
  intros Hk. rewrite cells_length in Hk.
  destruct (locations_spec a Ha (a ^ D) (repeat 0 D) k (repeat0_below D)) as (E1 & E2 & E3); [rewrite repeat0_val, repeat_length; lia|auto|].
  rewrite repeat_length in *. rewrite repeat0_val in E3. fold (cells data a) in *. split; [split; auto|rewrite E3; simpl; reflexivity].
  apply below_iff; auto.
Qed.

Lemma loc_inj k j : k < N -> j < N -> loc k = loc j -> k = j.
Proof.
  intros Hk Hj E. pose proof (proj2 (cell_val k Hk)) as V1. pose proof (proj2 (cell_val j Hj)) as V2. rewrite E in V1. rewrite V2 in V1. rewrite cells_length in *.
  destruct (Nat.ltb_spec (k + 1) (a ^ D)), (Nat.ltb_spec (j + 1) (a ^ D)); lia.
Qed.

Lemma grid_cell l : in_grid D a l -> exists k, k < N /\ loc k = l.
Proof.
  intros [Hl Hb]. assert (Hbl : below a l) by (apply (below_iff a D l Hl); auto).
  pose proof (val_bound a Ha l Hbl) as Hv. rewrite Hl in Hv.
  set (k := if val a l =? 0 then a ^ D - 1 else val a l - 1).
  assert (Hk : k < N) by (rewrite cells_length; unfold k; destruct (Nat.eqb_spec (val a l) 0); lia).
  exists k. split; auto. destruct (cell_val k Hk) as [[G1 G2] V].
  apply (val_inj a Ha); auto; [apply (below_iff a D _ G1); auto|lia|]. rewrite V. unfold k.
  destruct (Nat.eqb_spec (val a l) 0); destruct (Nat.ltb_spec (a ^ D - 1 + 1) (a ^ D)), (Nat.ltb_spec (val a l - 1 + 1) (a ^ D)); lia.
Qed.

Lemma index_of_spec l L : match index_of l L with Some k => k < length L /\ nth k L [] = l | None => ~ In l L end.
Proof.
  induction L as [|x t IH]; cbn [index_of]; [intros []|]. destruct (list_eq_dec Nat.eq_dec x l) as [->|Hn]; [simpl; split; auto; lia|].
  destruct (index_of l t) as [k|]; simpl; [split; [lia|tauto]|]. intros [H|H]; auto.
Qed.

Lemma index_of_cell k : k < N -> index_of (loc k) (cells data a) = Some k.
Proof.
  intros Hk. pose proof (index_of_spec (loc k) (cells data a)) as H. destruct (index_of (loc k) (cells data a)) as [j|].
  - destruct H as [Hj E]. f_equal. apply loc_inj; auto.
  - exfalso. apply H, nth_In. auto.
Qed.

(** ** adjacency *)
Lemma neighbors_face l m : in_grid D a l -> (In m (location_neighbors a l) <-> face D l m /\ in_grid D a m).
Proof.
  intros [Hl Hb]. unfold location_neighbors. rewrite in_flat_map. rewrite Hl. split.
  - intros (d & Hd & H). apply in_seq in Hd. destruct Hd as [_ Hd]. simpl in Hd. apply in_app_iff in H. specialize (Hb d Hd) as Hbd.
    assert (Hm : exists v, m = upd l d v /\ v < a /\ (v = nth d l 0 + 1 \/ nth d l 0 = v + 1)).
    { destruct H as [H|H].
      - destruct (Nat.ltb_spec (nth d l 0 + 1) a); [|contradiction]. destruct H as [<-|[]]. eexists. split; [reflexivity|]. split; lia.
      - destruct (Nat.leb_spec 1 (nth d l 0)); [|contradiction]. destruct H as [<-|[]]. eexists. split; [reflexivity|]. split; lia. }
    destruct Hm as (v & -> & Hv & Hor). split.
    + exists d. split; auto. split; [rewrite upd_nth_eq by lia; auto|]. intros e He Hne'. rewrite upd_nth_neq; auto.
    + split; [rewrite upd_length; auto|]. intros e He. destruct (Nat.eq_dec e d) as [->|Hed]; [rewrite upd_nth_eq by lia; auto|rewrite upd_nth_neq by auto; auto].
  - intros [(d & Hd & Hor & Heq) [Hm Hbm]]. exists d. split; [apply in_seq; lia|].
    assert (E : m = upd l d (nth d m 0)).
    { apply (nth_ext _ _ 0 0); [rewrite upd_length; lia|]. intros e He. destruct (Nat.eq_dec e d) as [->|Hed]; [rewrite upd_nth_eq by lia; auto|]. rewrite upd_nth_neq by auto. symmetry. apply Heq; auto. lia. }
    apply in_app_iff. pose proof (Hbm d Hd). destruct Hor as [Hor|Hor].
    + left. rewrite <- Hor. destruct (Nat.ltb_spec (nth d m 0) a); [|lia]. left. auto.
    + right. replace (nth d l 0 - 1) with (nth d m 0) by lia. destruct (Nat.leb_spec 1 (nth d l 0)); [|lia]. left. auto.
Qed.

Definition adj (c x : nat) : Prop := face D (loc c) (loc x).
Lemma adj_sym c x : adj c x -> adj x c.
Proof. intros (d & Hd & Hor & H). exists d. split; auto. split; [tauto|]. intros e He Hn. symmetry. auto. Qed.

Lemma get_neighbors_spec ls : (forall l, In l ls -> in_grid D a l) -> forall V, length V = N ->
  exists new V', get_neighbors data a ls V = Ok (new, V') /\ length V' = N /\ NoDup new /\
    (forall x, In x new <-> x < N /\ In (loc x) ls /\ nth x V false = false) /\
    (forall x, nth x V' false = true <-> nth x V false = true \/ In x new).
Proof.
  induction ls as [|l t IH]; intros Hg V HV; cbn [get_neighbors].
  - exists [], V. split; auto. split; auto. split; [constructor|]. split; [intros x; simpl; tauto|]. intros x. simpl. tauto.
  - destruct (grid_cell l (Hg l ltac:(left; auto))) as (c & Hc & El). rewrite <- El, index_of_cell by auto.
    destruct (nth c V false) eqn:Ev.
    + destruct (IH ltac:(intros; apply Hg; right; auto) V HV) as (new & V' & E & L & Nd & Hin & HV'). exists new, V'. split; auto. split; auto. split; auto. split; auto.
      intros x. rewrite Hin. split; [intros (H1 & H2 & H3); split; auto; split; auto; right; auto|]. intros (H1 & [H2|H2] & H3); auto.
      apply loc_inj in H2; auto. subst x. congruence.
    + destruct (IH ltac:(intros; apply Hg; right; auto) (upd V c true) ltac:(rewrite upd_length; auto)) as (new & V' & E & L & Nd & Hin & HV').
      rewrite E. cbn [bind fst snd]. exists (c :: new), V'. split; auto. split; auto.
      assert (Hcn : ~ In c new) by (rewrite Hin; intros (_ & _ & H); rewrite upd_nth_eq in H by lia; discriminate).
      split; [constructor; auto|]. split.
      * intros x. simpl. rewrite Hin. split.
        -- intros [<-|(H1 & H2 & H3)]; [auto|]. split; auto. split; auto. destruct (Nat.eq_dec x c) as [->|Hx]; [auto|]. rewrite upd_nth_neq in H3 by auto. auto.
        -- intros (H1 & H2 & H3). destruct (Nat.eq_dec x c) as [->|Hx]; [left; auto|]. right. split; auto. split; [destruct H2 as [H2|H2]; auto; apply loc_inj in H2; auto; congruence|]. rewrite upd_nth_neq by auto. auto.
      * intros x. rewrite HV'. simpl. destruct (Nat.eq_dec x c) as [->|Hx]; [rewrite upd_nth_eq by lia; tauto|]. rewrite upd_nth_neq by auto. intuition congruence.
Qed.

Lemma neighbors_spec c V : c < N -> length V = N ->
  exists new V', neighbors data a c V = Ok (new, V') /\ length V' = N /\ NoDup new /\
    (forall x, In x new <-> x < N /\ adj c x /\ nth x V false = false) /\
    (forall x, nth x V' false = true <-> nth x V false = true \/ In x new).
Proof.
  intros Hc HV. pose proof (proj1 (cell_val c Hc)) as Hg. unfold neighbors.
  destruct (get_neighbors_spec (location_neighbors a (loc c)) ltac:(intros l Hl; apply (neighbors_face _ _ Hg) in Hl; tauto) V HV) as (new & V' & E & L & Nd & Hin & HV').
  exists new, V'. split; auto. split; auto. split; auto. split; auto. intros x. rewrite Hin, (neighbors_face _ _ Hg). unfold adj.
  split; [tauto|]. intros (H1 & H2 & H3). split; auto. split; auto. split; auto. apply cell_val. auto.
Qed.

(** ** expansion *)
Notation dns := (dense data a threshold).
Notation pts := (points_of data a).

Inductive conn (s : nat) : nat -> Prop :=
| conn_here : conn s s
| conn_step x y : conn s x -> y < N -> adj x y -> dns y = true -> conn s y.

Definition closed (V : list bool) : Prop := forall x y, x < N -> y < N -> nth x V false = true -> dns x = true -> adj x y -> nth y V false = true.

Section Expand.
Variable s : nat.
Variable V0 : list bool.
Hypothesis Hs : s < N.
Hypothesis Hs0 : nth s V0 false = false.

Record einv (P R : list nat) (V : list bool) : Prop := {
  e_len : length V = N;
  e_nodup : NoDup (s :: P ++ R);
  e_new : forall x, In x (s :: P ++ R) -> x < N /\ nth x V0 false = false;
  e_vis : forall x, nth x V false = true <-> nth x V0 false = true \/ In x (s :: P ++ R);
  e_done : forall x y, x = s \/ In x P -> dns x = true -> y < N -> adj x y -> nth y V false = true;
  e_conn : forall x, In x (s :: P ++ R) -> dns x = true -> conn s x }.

Lemma einv_bound P R V : einv P R V -> length P + length R + 1 <= N.
Proof.
  intros I. pose proof (e_nodup _ _ _ I) as Hn. assert (H : incl (s :: P ++ R) (seq 0 N)).
  { intros x Hx. apply (e_new _ _ _ I) in Hx. apply in_seq. lia. }
  apply (NoDup_incl_length Hn) in H. rewrite seq_length in H. simpl in H. rewrite app_length in H. lia.
Qed.

Lemma expand_loop_spec fuel : forall R P cluster noise V, einv P R V -> N <= fuel + length P + 1 ->
  exists P' V', expand_loop data a threshold fuel R cluster noise V =
      Ok (cluster ++ flat_map pts (filter dns P'), noise ++ flat_map pts (filter (fun c => negb (dns c)) P'), V') /\ einv (P ++ P') [] V'.
Proof.
  induction fuel as [|fuel IH]; intros R P cluster noise V I Hf.
  - pose proof (einv_bound _ _ _ I). destruct R as [|c R]; [|simpl in *; lia]. exists [], V. cbn [expand_loop filter flat_map]. rewrite !app_nil_r. auto.
  - destruct R as [|c R]; cbn [expand_loop]; [exists [], V; cbn [filter flat_map]; rewrite !app_nil_r; auto|].
    assert (Hmid : forall x, In x (s :: (P ++ [c]) ++ R) <-> In x (s :: P ++ c :: R)) by (intros x; rewrite <- app_assoc; simpl; tauto).
    destruct (e_new _ _ _ I c ltac:(right; apply in_app_iff; right; left; auto)) as [HcN Hc0].
    destruct (dns c) eqn:Ed.
    + destruct (neighbors_spec c V HcN (e_len _ _ _ I)) as (new & V' & E & L & Nd & Hin & HV'). rewrite E. cbn [bind fst snd].
      assert (Hnew : forall x, In x new -> ~ In x (s :: P ++ c :: R) /\ nth x V0 false = false).
      { intros x Hx. apply Hin in Hx as (H1 & H2 & H3). split; [intros H; assert (nth x V false = true) by (apply (e_vis _ _ _ I); auto); congruence|].
        destruct (nth x V0 false) eqn:E0; auto. assert (nth x V false = true) by (apply (e_vis _ _ _ I); auto). congruence. }
      destruct (IH (R ++ new) (P ++ [c]) (cluster ++ pts c) noise V') as (P' & V'' & E' & I').
      * assert (Hall : forall x, In x (s :: (P ++ [c]) ++ R ++ new) <-> In x (s :: P ++ c :: R) \/ In x new) by (intros x; rewrite <- app_assoc; simpl; rewrite !in_app_iff; simpl; rewrite in_app_iff; tauto).
        constructor.
        -- auto.
        -- assert (Es : s :: (P ++ [c]) ++ R ++ new = (s :: P ++ c :: R) ++ new) by (simpl; rewrite <- !app_assoc; reflexivity). rewrite Es.
           apply NoDup_app_intro; auto; [apply (e_nodup _ _ _ I)|]. intros x Hx Hx'. apply Hnew in Hx'. tauto.
        -- intros x Hx. apply Hall in Hx as [Hx|Hx]; [apply (e_new _ _ _ I); auto|]. split; [apply Hin; auto|apply Hnew; auto].
        -- intros x. rewrite HV', (e_vis _ _ _ I), Hall. tauto.
        -- intros x y Hx Hd Hy Hadj. rewrite HV'. assert (Hx' : (x = s \/ In x P) \/ x = c) by (destruct Hx as [->|Hx]; auto; apply in_app_iff in Hx as [Hx|[->|[]]]; auto).
           destruct Hx' as [Hx'| ->]; [left; eapply (e_done _ _ _ I); eauto|]. destruct (nth y V false) eqn:Ey; auto. right. apply Hin. auto.
        -- intros x Hx Hd. apply Hall in Hx as [Hx|Hx]; [apply (e_conn _ _ _ I); auto|]. apply Hin in Hx as (H1 & H2 & _). apply conn_step with c; auto. apply (e_conn _ _ _ I); auto. right. apply in_app_iff. right. left. auto.
      * rewrite app_length. simpl. lia.
      * exists (c :: P'), V''. split; [|rewrite <- app_assoc in I'; exact I']. rewrite E'. cbn [filter]. rewrite Ed. cbn [negb flat_map]. rewrite <- app_assoc. reflexivity.
    + destruct (IH R (P ++ [c]) cluster (noise ++ pts c) V) as (P' & V'' & E' & I').
      * constructor.
        -- apply (e_len _ _ _ I).
        -- rewrite <- app_assoc. apply (e_nodup _ _ _ I).
        -- intros x Hx. apply Hmid in Hx. apply (e_new _ _ _ I). auto.
        -- intros x. rewrite (e_vis _ _ _ I), Hmid. tauto.
        -- intros x y Hx Hd. apply (e_done _ _ _ I); auto. destruct Hx as [->|Hx]; auto. apply in_app_iff in Hx as [Hx|[->|[]]]; auto. congruence.
        -- intros x Hx. apply Hmid in Hx. apply (e_conn _ _ _ I). auto.
      * rewrite app_length. simpl. lia.
      * exists (c :: P'), V''. split; [|rewrite <- app_assoc in I'; exact I']. rewrite E'. cbn [filter]. rewrite Ed. cbn [negb flat_map]. rewrite <- app_assoc. reflexivity.
Qed.
End Expand.

(** result of the allocation so far *)
Record ainv (V : list bool) (st : cst) (comps : list (list nat)) (sparse : list nat) : Prop := {
  a_len : length V = N;
  a_clusters : clusters st = map (flat_map pts) comps;
  a_noise : noise st = flat_map pts sparse;
  a_nodup : NoDup (concat comps ++ sparse);
  a_vis : forall x, nth x V false = true <-> In x (concat comps) \/ In x sparse;
  a_range : forall x, nth x V false = true -> x < N;
  a_sparse : forall x, In x sparse -> dns x = false;
  a_comp : forall C, In C comps -> exists s, s < N /\ dns s = true /\ forall x, In x C <-> conn s x;
  a_closed : closed V }.

Lemma nodup_perm4 (A B P1 P2 S : list nat) : NoDup (A ++ B) -> NoDup S -> Permutation S (P1 ++ P2) -> (forall x, In x S -> ~ In x (A ++ B)) -> NoDup ((A ++ P1) ++ (B ++ P2)).
Proof.
  intros H1 H2 Hp H3. apply (Permutation_NoDup (l := (A ++ B) ++ S)).
  - rewrite Hp. rewrite <- !app_assoc. apply Permutation_app_head. rewrite !app_assoc. apply Permutation_app_tail. apply Permutation_app_comm.
  - apply NoDup_app_intro; auto. intros x Hx Hx'. exact (H3 x Hx' Hx).
Qed.

Lemma filter_split {A} (f : A -> bool) l : Permutation l (filter f l ++ filter (fun x => negb (f x)) l).
Proof.
  induction l as [|x t IH]; simpl; auto. destruct (f x); simpl; [constructor; auto|]. rewrite <- Permutation_middle. constructor. auto.
Qed.

Lemma expand_cluster_spec c V st comps sparse : ainv V st comps sparse -> c < N -> nth c V false = false ->
  exists V' st' comps' sparse', expand_cluster data a threshold c V st = Ok (V', st') /\ ainv V' st' comps' sparse' /\
    nth c V' false = true /\ (forall x, nth x V false = true -> nth x V' false = true).
Proof.
  intros I Hc HcV. unfold expand_cluster.
  assert (Hup : forall x, nth x (upd V c true) false = true <-> nth x V false = true \/ x = c).
  { intros x. destruct (Nat.eq_dec x c) as [->|Hx]; [rewrite upd_nth_eq by (rewrite (a_len _ _ _ _ I); auto); tauto|]. rewrite upd_nth_neq by auto. tauto. }
  destruct (dns c) eqn:Ed.
  - destruct (neighbors_spec c (upd V c true) Hc ltac:(rewrite upd_length; apply (a_len _ _ _ _ I))) as (new & V1 & E & L & Nd & Hin & HV1). rewrite E. cbn [bind fst snd].
    assert (Hnew : forall x, In x new -> x < N /\ x <> c /\ nth x V false = false).
    { intros x Hx. apply Hin in Hx as (H1 & H2 & H3). split; auto. destruct (Nat.eq_dec x c) as [->|Hn]; [rewrite (proj2 (Hup c)) in H3; [discriminate|auto]|]. rewrite upd_nth_neq in H3; auto. }
    assert (EI : einv c V [] new V1).
    { constructor.
      - auto.
      - simpl. constructor; auto. intros Hx. apply Hnew in Hx. tauto.
      - intros x [<-|Hx]; auto. simpl in Hx. apply Hnew in Hx. tauto.
      - intros x. rewrite HV1, Hup. simpl. intuition.
      - intros x y [->|[]] Hd Hy Hadj. rewrite HV1. destruct (nth y (upd V c true) false) eqn:Ey; auto. right. apply Hin. auto.
      - intros x [<-|Hx] Hd; [constructor|]. simpl in Hx. apply Hin in Hx as (H1 & H2 & _). apply conn_step with c; auto. constructor. }
    destruct (expand_loop_spec c V Hc (length (cells data a)) new [] (pts c) (noise st) V1 EI ltac:(simpl; lia)) as (P & V' & E' & I'). rewrite E'. cbn [bind].
    simpl in I'. set (C := c :: filter dns P). exists V', (mkS (clusters st ++ [pts c ++ flat_map pts (filter dns P)]) (noise st ++ flat_map pts (filter (fun x => negb (dns x)) P))), (comps ++ [C]), (sparse ++ filter (fun x => negb (dns x)) P).
    split; auto. pose proof (e_nodup _ _ _ _ _ I') as Hnd. rewrite app_nil_r in Hnd.
    assert (Hvis : forall x, nth x V' false = true <-> nth x V false = true \/ In x (c :: P)) by (intros x; rewrite (e_vis _ _ _ _ _ I'), app_nil_r; tauto).
    assert (HinP : forall x, In x (c :: P) -> x < N /\ nth x V false = false) by (intros x Hx; apply (e_new _ _ _ _ _ I'); rewrite app_nil_r; auto).
    assert (HC : forall x, In x C <-> In x (c :: P) /\ dns x = true).
    { intros x. unfold C. simpl. rewrite filter_In. split; [intros [<-|H]; [auto|tauto]|]. intros [[<-|H] Hd]; auto. }
    assert (Hclosed : closed V').
    { intros x y Hx Hy Hv Hd Hadj. apply Hvis in Hv as [Hv|Hv].
      - apply Hvis. left. exact (a_closed _ _ _ _ I x y Hx Hy Hv Hd Hadj).
      - apply (e_done _ _ _ _ _ I' x y); auto. simpl in Hv. destruct Hv as [->|Hv]; auto. }
    split; [|split; [apply Hvis; right; left; auto|intros x Hx; apply Hvis; auto]]. constructor; cbn [clusters noise].
    + apply (e_len _ _ _ _ _ I').
    + rewrite map_app, (a_clusters _ _ _ _ I). reflexivity.
    + rewrite flat_map_app, (a_noise _ _ _ _ I). reflexivity.
    + rewrite concat_app. simpl. rewrite app_nil_r. apply nodup_perm4 with (S := c :: P); auto.
      * apply (a_nodup _ _ _ _ I).
      * unfold C. simpl. constructor. apply filter_split.
      * intros x Hx Hx'. apply HinP in Hx as [_ Hx]. assert (nth x V false = true) by (apply (a_vis _ _ _ _ I); apply in_app_iff in Hx'; auto). congruence.
    + intros x. rewrite Hvis, (a_vis _ _ _ _ I), concat_app, !in_app_iff. cbn [concat]. rewrite app_nil_r.
      assert (Hsp : In x (c :: P) <-> In x C \/ In x (filter (fun y => negb (dns y)) P)).
      { rewrite HC, filter_In, negb_true_iff. simpl. destruct (dns x) eqn:Edx; [intuition congruence|]. split; [intros [<-|H]; [congruence|tauto]|intuition congruence]. }
      rewrite Hsp. tauto.
    + intros x Hx. apply Hvis in Hx as [Hx|Hx]; [apply (a_range _ _ _ _ I); auto|apply HinP; auto].
    + intros x Hx. apply in_app_iff in Hx as [Hx|Hx]; [apply (a_sparse _ _ _ _ I); auto|]. apply filter_In in Hx as [_ Hx]. apply negb_true_iff in Hx. auto.
    + intros C' HC'. apply in_app_iff in HC' as [HC'|[<-|[]]]; [apply (a_comp _ _ _ _ I); auto|]. exists c. split; auto. split; auto. intros x. rewrite HC. split.
      * intros [H1 H2]. apply (e_conn _ _ _ _ _ I'); auto. rewrite app_nil_r. auto.
      * intros Hx. induction Hx as [|x y Hx IH Hy Hadj Hd]; [split; [left|]; auto|]. destruct IH as [IH1 IH2]. split; auto. destruct (HinP x IH1) as [HxN HxV].
        assert (Hv : nth y V' false = true) by (eapply Hclosed with (x := x); eauto; apply Hvis; auto).
        apply Hvis in Hv as [Hv|Hv]; auto. exfalso. pose proof (a_closed _ _ _ _ I y x Hy HxN Hv Hd (adj_sym _ _ Hadj)). congruence.
    + exact Hclosed.
  - exists (upd V c true), (mkS (clusters st) (noise st ++ pts c)), comps, (sparse ++ [c]). split; auto. split; [|split; [apply Hup; auto|intros x Hx; apply Hup; auto]].
    constructor; cbn [clusters noise].
    + rewrite upd_length. apply (a_len _ _ _ _ I).
    + apply (a_clusters _ _ _ _ I).
    + rewrite flat_map_app, (a_noise _ _ _ _ I). simpl. rewrite app_nil_r. reflexivity.
    + rewrite app_assoc. apply NoDup_app_snoc; [apply (a_nodup _ _ _ _ I)|]. intros H. assert (nth c V false = true) by (apply (a_vis _ _ _ _ I); apply in_app_iff in H; auto). congruence.
    + intros x. rewrite Hup, (a_vis _ _ _ _ I), in_app_iff. simpl. intuition.
    + intros x Hx. apply Hup in Hx as [Hx| ->]; auto. apply (a_range _ _ _ _ I); auto.
    + intros x Hx. apply in_app_iff in Hx as [Hx|[<-|[]]]; auto. apply (a_sparse _ _ _ _ I); auto.
    + apply (a_comp _ _ _ _ I).
    + intros x y Hx Hy Hv Hd Hadj. apply Hup. apply Hup in Hv as [Hv| ->]; [|congruence]. left. exact (a_closed _ _ _ _ I x y Hx Hy Hv Hd Hadj).
Qed.

Lemma allocate_spec cs : forall V st comps sparse, ainv V st comps sparse -> (forall c, In c cs -> c < N) ->
  exists V' st' comps' sparse', allocate data a threshold cs V st = Ok st' /\ ainv V' st' comps' sparse' /\
    (forall x, nth x V false = true -> nth x V' false = true) /\ (forall x, In x cs -> nth x V' false = true).
Proof.
  induction cs as [|c cs IH]; intros V st comps sparse I Hc; cbn [allocate].
  - exists V, st, comps, sparse. split; [auto|]. split; [auto|]. split; [auto|intros x []].
  - destruct (nth c V false) eqn:Ev.
    + destruct (IH V st comps sparse I ltac:(intros; apply Hc; right; auto)) as (V' & st' & c' & s' & E & I' & M & A). exists V', st', c', s'. split; [auto|]. split; [auto|]. split; [auto|intros x [<-|Hx]; auto].
    + destruct (expand_cluster_spec c V st comps sparse I (Hc c ltac:(left; auto)) Ev) as (V1 & st1 & c1 & s1 & E1 & I1 & Hc1 & M1). rewrite E1. cbn [bind fst snd].
      destruct (IH V1 st1 c1 s1 I1 ltac:(intros; apply Hc; right; auto)) as (V' & st' & c' & s' & E & I' & M & A). exists V', st', c', s'. split; [auto|]. split; [auto|]. split; [auto|intros x [<-|Hx]; auto].
Qed.

Lemma process_spec : exists st comps sparse, process data a threshold (mkS [] []) = Ok st /\
  clusters st = map (flat_map pts) comps /\ noise st = flat_map pts sparse /\ Permutation (concat comps ++ sparse) (seq 0 N) /\
  (forall x, In x sparse -> dns x = false) /\ (forall C, In C comps -> exists s, s < N /\ dns s = true /\ forall x, In x C <-> conn s x).
Proof.
  assert (Hrep : forall x, nth x (repeat false N) false = false) by (intros x; destruct (nth_in_or_default x (repeat false N) false) as [H|H]; auto; apply repeat_spec in H; auto).
  unfold process. destruct (allocate_spec (seq 0 N) (repeat false N) (mkS [] []) [] []) as (V & st & comps & sparse & E & I & _ & A).
  - constructor; cbn [clusters noise concat app flat_map map]; auto.
    + apply repeat_length.
    + constructor.
    + intros x. rewrite Hrep. split; [discriminate|intros [[]|[]]].
    + intros x. rewrite Hrep. discriminate.
    + intros x [].
    + intros C [].
    + intros x y _ _ H. rewrite Hrep in H. discriminate.
  - intros c Hc. apply in_seq in Hc. lia.
  - exists st, comps, sparse. split; auto. split; [apply (a_clusters _ _ _ _ I)|]. split; [apply (a_noise _ _ _ _ I)|]. split; [|split; [apply (a_sparse _ _ _ _ I)|apply (a_comp _ _ _ _ I)]].
    apply NoDup_Permutation; [apply (a_nodup _ _ _ _ I)|apply seq_NoDup|]. intros x. rewrite in_app_iff, <- (a_vis _ _ _ _ I). split; [intros H; apply in_seq; apply (a_range _ _ _ _ I) in H; lia|intros H; apply A; auto].
Qed.

(** ** capturing *)
Lemma fold_upd_false captured : forall av i, nth i (fold_left (fun b j => upd b j false) captured av) false = nth i av false && negb (existsb (Nat.eqb i) captured).
Proof.
  induction captured as [|j t IH]; intros av i; cbn [fold_left existsb negb]; [rewrite andb_true_r; auto|]. rewrite IH, upd_nth.
  rewrite (Nat.eqb_sym i j). destruct (Nat.eqb_spec j i) as [->|]; cbn [andb orb negb]; auto. rewrite andb_false_r. destruct (Nat.ltb_spec i (length av)); [reflexivity|].
  rewrite nth_overflow by auto. reflexivity.
Qed.


Lemma capture_all_length ls : forall av, length (capture_all data a ls av) = length ls.
Proof. induction ls as [|l t IH]; intros av; cbn [capture_all]; auto. unfold capture_points. simpl. auto. Qed.

Lemma capture_all_spec ls : forall av,
  (forall k i, In i (nth k (capture_all data a ls av) []) -> i < length data /\ nth i av false = true /\ k < length ls /\ contains data a (nth k ls []) (nth i data []) = true) /\
  (forall i, i < length data -> nth i av false = true -> (exists l, In l ls /\ contains data a l (nth i data []) = true) -> exists k, In i (nth k (capture_all data a ls av) [])) /\
  NoDup (concat (capture_all data a ls av)).
Proof.
  induction ls as [|l t IH]; intros av; cbn [capture_all].
  - split; [intros [|k] i []|]. split; [intros i _ _ (l & [] & _)|constructor].
  - unfold capture_points. set (cap := filter (fun i => nth i av false && contains data a l (nth i data [])) (seq 0 (length data))).
    set (av' := fold_left (fun b j => upd b j false) cap av). destruct (IH av') as (I1 & I2 & I3).
    assert (Hcap : forall i, In i cap <-> i < length data /\ nth i av false = true /\ contains data a l (nth i data []) = true).
    { intros i. unfold cap. rewrite filter_In, in_seq, andb_true_iff. intuition lia. }
    assert (Hav : forall i, nth i av' false = true <-> nth i av false = true /\ ~ In i cap).
    { intros i. unfold av'. rewrite fold_upd_false, andb_true_iff, negb_true_iff. split; intros [H1 H2]; split; auto.
      - intros H. assert (existsb (Nat.eqb i) cap = true) by (apply existsb_exists; exists i; split; auto; apply Nat.eqb_refl). congruence.
      - destruct (existsb (Nat.eqb i) cap) eqn:E; auto. apply existsb_exists in E as (j & Hj & Ej). apply Nat.eqb_eq in Ej. subst. contradiction. }
    split; [|split].
    + intros [|k] i Hi; cbn [nth] in *.
      * apply Hcap in Hi. simpl. intuition lia.
      * apply I1 in Hi as (H1 & H2 & H3 & H4). apply Hav in H2. simpl. intuition lia.
    + intros i Hi Hv (m & [<-|Hm] & Hc).
      * exists 0. cbn [nth]. apply Hcap. auto.
      * destruct (in_dec Nat.eq_dec i cap) as [Hin|Hin]; [exists 0; auto|]. destruct (I2 i Hi) as [k Hk]; [apply Hav; auto|eauto|]. exists (S k). auto.
    + simpl. apply NoDup_app_intro; auto; [apply NoDup_filter, seq_NoDup|]. intros x Hx Hx'. apply in_concat in Hx' as (g & Hg & Hx').
      apply (In_nth _ _ []) in Hg as (k & Hk & <-). apply I1 in Hx' as (_ & H & _). apply Hav in H. tauto.
Qed.

(** ** every point lies in a cell *)
Lemma fold_min_spec d l : forall m, (fold_left (fun m p => if Qltb (coord p d) m then coord p d else m) l m <= m)%Q /\
  (forall p, In p l -> (fold_left (fun m p => if Qltb (coord p d) m then coord p d else m) l m <= coord p d)%Q) /\
  (fold_left (fun m p => if Qltb (coord p d) m then coord p d else m) l m = m \/ exists p, In p l /\ fold_left (fun m p => if Qltb (coord p d) m then coord p d else m) l m = coord p d).
Proof.
  induction l as [|q t IH]; intros m; simpl; [split; [lra|split; [intros p []|auto]]|].
  destruct (IH (if Qltb (coord q d) m then coord q d else m)) as (H1 & H2 & H3). set (r := fold_left _ t _) in *.
  assert (Hq : (r <= m)%Q /\ (r <= coord q d)%Q).
  { destruct (Qltb (coord q d) m) eqn:E; [apply Qltb_true in E|apply Qltb_false in E]; split; lra. }
  split; [tauto|]. split; [intros p [<-|Hp]; [tauto|auto]|]. destruct H3 as [H3|(p & Hp & H3)]; [|right; eauto].
  destruct (Qltb (coord q d) m); [right; eauto|auto].
Qed.
Lemma fold_max_spec d l : forall m, (m <= fold_left (fun m p => if Qltb m (coord p d) then coord p d else m) l m)%Q /\
  (forall p, In p l -> (coord p d <= fold_left (fun m p => if Qltb m (coord p d) then coord p d else m) l m)%Q) /\
  (fold_left (fun m p => if Qltb m (coord p d) then coord p d else m) l m = m \/ exists p, In p l /\ fold_left (fun m p => if Qltb m (coord p d) then coord p d else m) l m = coord p d).
Proof.
  induction l as [|q t IH]; intros m; simpl; [split; [lra|split; [intros p []|auto]]|].
  destruct (IH (if Qltb m (coord q d) then coord q d else m)) as (H1 & H2 & H3). set (r := fold_left _ t _) in *.
  assert (Hq : (m <= r)%Q /\ (coord q d <= r)%Q).
  { destruct (Qltb m (coord q d)) eqn:E; [apply Qltb_true in E|apply Qltb_false in E]; split; lra. }
  split; [tauto|]. split; [intros p [<-|Hp]; [tauto|auto]|]. destruct H3 as [H3|(p & Hp & H3)]; [|right; eauto].
  destruct (Qltb m (coord q d)); [right; eauto|auto].
Qed.

Lemma min_lowest d : lowest data d (min_corner data d).
Proof.
  unfold min_corner, lowest. destruct data as [|q t]; [congruence|]. cbn [hd tl]. destruct (fold_min_spec d t (coord q d)) as (H1 & H2 & H3).
  split; [destruct H3 as [->|(p & Hp & ->)]; [exists q|exists p]; simpl; auto|]. intros p [<-|Hp]; auto.
Qed.
Lemma max_highest d : highest data d (max_corner data d).
Proof.
  unfold max_corner, highest. destruct data as [|q t]; [congruence|]. cbn [hd tl]. destruct (fold_max_spec d t (coord q d)) as (H1 & H2 & H3).
  split; [destruct H3 as [->|(p & Hp & ->)]; [exists q|exists p]; simpl; auto|]. intros p [<-|Hp]; auto.
Qed.

Lemma lowest_unique d x y : lowest data d x -> lowest data d y -> x == y.
Proof. intros [(p & Hp & ->) H1] [(q & Hq & ->) H2]. specialize (H1 q Hq). specialize (H2 p Hp). lra. Qed.
Lemma highest_unique d x y : highest data d x -> highest data d y -> x == y.
Proof. intros [(p & Hp & ->) H1] [(q & Hq & ->) H2]. specialize (H1 q Hq). specialize (H2 p Hp). lra. Qed.

Lemma inject_S n : inject_Z (Z.of_nat (S n)) == inject_Z (Z.of_nat n) + 1.
Proof. rewrite Nat2Z.inj_succ. unfold Z.succ. rewrite inject_Z_plus. reflexivity. Qed.
Lemma inject_pos n : 1 <= n -> (0 < inject_Z (Z.of_nat n))%Q.
Proof. intros H. change 0%Q with (inject_Z 0). rewrite <- Zlt_Qlt. lia. Qed.

Lemma slot_exists (lo sz x : Q) n : 1 <= n -> (0 <= sz)%Q -> (lo <= x)%Q -> (x <= lo + sz * inject_Z (Z.of_nat n))%Q ->
  exists j, j < n /\ (lo + sz * inject_Z (Z.of_nat j) <= x)%Q /\ (x <= lo + sz * inject_Z (Z.of_nat j) + sz)%Q.
Proof.
  intros Hn Hs Hl. induction n as [|n IH]; intros Hx; [lia|]. rewrite inject_S in Hx.
  destruct (Qlt_le_dec x (lo + sz * inject_Z (Z.of_nat n))) as [H|H].
  - destruct n as [|n]; [change (inject_Z (Z.of_nat 0)) with 0%Q in H; exfalso; lra|]. destruct IH as (j & Hj & H1 & H2); [lia|lra|]. exists j. split; [lia|auto].
  - exists n. split; [lia|]. split; auto. lra.
Qed.

Lemma size_mul d : cell_size data a d * inject_Z (Z.of_nat a) == max_corner data d - min_corner data d.
Proof. unfold cell_size. pose proof (inject_pos a Ha). field. lra. Qed.

Lemma size_nonneg d : (0 <= cell_size data a d)%Q.
Proof.
  unfold cell_size. apply Qle_shift_div_l; [apply inject_pos; auto|]. destruct (min_lowest d) as [(p & Hp & E) _]. destruct (max_highest d) as [_ H].
  specialize (H p Hp). rewrite E. lra.
Qed.

Lemma contains_iff l p : contains data a l p = true <-> forall d, d < length p -> (cell_min data a l d <= coord p d)%Q /\ (coord p d <= cell_max data a l d)%Q.
Proof.
  unfold contains. rewrite forallb_forall. split.
  - intros H d Hd. specialize (H d ltac:(apply in_seq; lia)). apply negb_true_iff, orb_false_iff in H as [H1 H2]. apply Qltb_false in H1. apply Qltb_false in H2. auto.
  - intros H d Hd. apply in_seq in Hd. destruct (H d) as [H1 H2]; [lia|]. apply negb_true_iff, orb_false_iff. split; apply Qltb_false; auto.
Qed.

Lemma cell_max_eq l d : cell_max data a l d == cell_min data a l d + cell_size data a d.
Proof.
  unfold cell_max. destruct (Nat.eqb_spec (nth d l 0) (a - 1)) as [E|]; [|reflexivity]. unfold cell_min. rewrite E.
  pose proof (size_mul d) as H. replace a with (S (a - 1)) in H at 2 by lia. rewrite inject_S in H. lra.
Qed.

Lemma contains_in_box l p : contains data a l p = true <-> in_box data a l p.
Proof.
  rewrite contains_iff. pose proof (inject_pos a Ha) as Hpos. set (A := inject_Z (Z.of_nat a)) in *.
  assert (Hkey : forall d lo hi, lowest data d lo -> highest data d hi -> forall x,
     ((cell_min data a l d <= x)%Q <-> (A * lo + (hi - lo) * inject_Z (Z.of_nat (nth d l 0%nat)) <= A * x)%Q) /\
     ((x <= cell_max data a l d)%Q <-> (A * x <= A * lo + (hi - lo) * inject_Z (Z.of_nat (nth d l 0%nat + 1)))%Q)).
  { intros d lo hi Hlo Hhi x. pose proof (lowest_unique d _ _ Hlo (min_lowest d)) as El. pose proof (highest_unique d _ _ Hhi (max_highest d)) as Eh.
    pose proof (size_mul d) as Hsz. fold A in Hsz. rewrite cell_max_eq. unfold cell_min. rewrite Nat.add_1_r, inject_S. set (J := inject_Z (Z.of_nat (nth d l 0))).
    set (sz := cell_size data a d) in *. set (mn := min_corner data d) in *. set (mx := max_corner data d) in *.
    assert (E1 : A * (mn + sz * J) == A * lo + (hi - lo) * J). { rewrite El, Eh, <- Hsz. ring. }
    assert (E2 : A * (mn + sz * J + sz) == A * lo + (hi - lo) * (J + 1)). { rewrite El, Eh, <- Hsz. ring. }
    rewrite <- E1, <- E2. rewrite !Qmult_le_l by auto. tauto. }
  split.
  - intros H d lo hi Hd Hlo Hhi. specialize (H d Hd). fold A. destruct (Hkey d lo hi Hlo Hhi (coord p d)). tauto.
  - intros H d Hd. specialize (H d _ _ Hd (min_lowest d) (max_highest d)). fold A in H. destruct (Hkey d _ _ (min_lowest d) (max_highest d) (coord p d)). tauto.
Qed.

Lemma point_in_cell p : In p data -> exists l, In l (cells data a) /\ contains data a l p = true.
Proof.
  intros Hp. assert (Hl : length p = D) by (apply Hdim; auto).
  assert (Hj : forall d, exists j, j < a /\ (min_corner data d + cell_size data a d * inject_Z (Z.of_nat j) <= coord p d)%Q /\ (coord p d <= min_corner data d + cell_size data a d * inject_Z (Z.of_nat j) + cell_size data a d)%Q).
  { intros d. apply slot_exists; auto; [apply size_nonneg|apply (min_lowest d); auto|]. rewrite size_mul. pose proof (proj2 (max_highest d) p Hp). lra. }
  assert (Hall : forall n, exists l, length l = n /\ forall d, d < n -> nth d l 0 < a /\ (min_corner data d + cell_size data a d * inject_Z (Z.of_nat (nth d l 0%nat)) <= coord p d)%Q /\ (coord p d <= min_corner data d + cell_size data a d * inject_Z (Z.of_nat (nth d l 0%nat)) + cell_size data a d)%Q).
  { induction n as [|n (l & Ll & IH)]; [exists []; split; auto; intros; lia|]. destruct (Hj n) as (j & Hj'). exists (l ++ [j]). split; [rewrite app_length; simpl; lia|].
    intros d Hd. destruct (Nat.eq_dec d n) as [->|]; [rewrite app_nth2, Ll, Nat.sub_diag by lia; exact Hj'|]. rewrite app_nth1 by lia. apply IH. lia. }
  destruct (Hall D) as (l & Ll & H). destruct (grid_cell l) as (k & Hk & <-); [split; auto; intros d Hd; apply H; auto|]. exists (loc k). split; [apply nth_In; auto|].
  apply contains_iff. intros d Hd. rewrite cell_max_eq. unfold cell_min. destruct (H d) as (_ & H1 & H2); [lia|]. auto.
Qed.

Lemma cell_points_length : length (cell_points data a) = N.
Proof. apply capture_all_length. Qed.

Lemma pts_range c x : In x (pts c) -> c < N.
Proof. intros H. destruct (Nat.lt_ge_cases c N); auto. unfold points_of in H. rewrite nth_overflow in H by (rewrite cell_points_length; auto). destruct H. Qed.

(** ** the final form *)
Lemma capture_facts :
  (forall k i, In i (pts k) -> i < length data /\ k < N /\ contains data a (loc k) (nth i data []) = true) /\
  (forall i, i < length data -> exists k, In i (pts k)) /\ NoDup (concat (cell_points data a)).
Proof.
  assert (Hrep : forall i, i < length data -> nth i (repeat true (length data)) false = true).
  { intros i Hi. apply (repeat_spec (length data) true). apply nth_In. rewrite repeat_length. auto. }
  destruct (capture_all_spec (cells data a) (repeat true (length data))) as (H1 & H2 & H3). unfold points_of, cell_points. split; [|split; auto].
  - intros k i Hi. apply H1 in Hi. tauto.
  - intros i Hi. apply H2; auto. apply point_in_cell, nth_In. auto.
Qed.

Definition cell_idx (i : nat) : nat := match find (fun k => existsb (Nat.eqb i) (pts k)) (seq 0 N) with Some k => k | None => 0 end.

Lemma cell_idx_spec i : i < length data -> cell_idx i < N /\ forall k, In i (pts k) <-> k = cell_idx i.
Proof.
  intros Hi. destruct capture_facts as (H1 & H2 & H3). destruct (H2 i Hi) as [k Hk]. unfold cell_idx.
  assert (Hex : forall j, existsb (Nat.eqb i) (pts j) = true <-> In i (pts j)).
  { intros j. rewrite existsb_exists. split; [intros (x & Hx & E); apply Nat.eqb_eq in E; subst; auto|]. intros H. exists i. split; auto. apply Nat.eqb_refl. }
  destruct (find _ _) as [j|] eqn:E.
  - apply find_some in E as [Hj E]. apply in_seq in Hj. apply Hex in E. split; [lia|]. intros m. split; [|intros ->; auto]. intros Hm. eapply (concat_nodup_inj _ H3); eauto.
  - exfalso. pose proof (find_none _ _ E k ltac:(apply in_seq; apply H1 in Hk; lia)) as H. apply Hex in Hk. cbv beta in H. congruence.
Qed.

Definition place (i : nat) : list nat := loc (cell_idx i).

Lemma dense_place k : k < N -> (dense_loc (length data) threshold place (loc k) <-> dns k = true).
Proof.
  intros Hk. unfold dense_loc, dense. rewrite Nat.ltb_lt. destruct capture_facts as (H1 & H2 & H3).
  assert (Hp : Permutation (filter (fun i => if list_eq_dec Nat.eq_dec (place i) (loc k) then true else false) (seq 0 (length data))) (pts k)).
  { apply NoDup_Permutation; [apply NoDup_filter, seq_NoDup| |].
    - unfold points_of. destruct (nth_in_or_default k (cell_points data a) []) as [H|H]; [|rewrite H; constructor]. revert H3 H. generalize (nth k (cell_points data a) []). generalize (cell_points data a).
      induction l as [|g t IH]; simpl; [intros ? ? []|]. intros g' Hn [<-|Hg]; [eapply NoDup_app_inv in Hn; tauto|]. apply IH; auto. eapply NoDup_app_inv in Hn; tauto.
    - intros i. rewrite filter_In, in_seq. split.
      + intros [Hi E]. assert (Hi' : i < length data) by lia. destruct (list_eq_dec Nat.eq_dec (place i) (loc k)) as [El|]; [|discriminate]. destruct (cell_idx_spec i Hi') as [Hc Hu].
        apply Hu. apply loc_inj in El; auto.
      + intros Hi. destruct (H1 _ _ Hi) as (Hi' & _). destruct (cell_idx_spec i Hi') as [Hc Hu]. apply Hu in Hi. split; [lia|]. unfold place. rewrite <- Hi.
        destruct (list_eq_dec Nat.eq_dec (loc k) (loc k)); congruence. }
  rewrite (Permutation_length Hp). tauto.
Qed.

Lemma conn_range s x : s < N -> conn s x -> x < N.
Proof. intros Hs H. destruct H; auto. Qed.
Lemma conn_dense s x : dns s = true -> conn s x -> dns x = true.
Proof. intros Hs H. destruct H; auto. Qed.
Lemma conn_trans s x y : conn s x -> conn x y -> conn s y.
Proof. intros H1 H2. induction H2; auto. econstructor; eauto. Qed.
Lemma conn_sym s x : s < N -> dns s = true -> conn s x -> conn x s.
Proof.
  intros Hs Hd H. induction H as [|x y H IH Hy Hadj Hdy]; [constructor|]. apply conn_trans with x; auto.
  apply conn_step with y; [constructor|exact (conn_range s x Hs H)|apply adj_sym; auto|exact (conn_dense s x Hd H)].
Qed.

Lemma conn_chain s x : s < N -> dns s = true -> (conn s x <-> x < N /\ dense_chain D a (dense_loc (length data) threshold place) (loc s) (loc x)).
Proof.
  intros Hs Hd. split.
  - intros H. split; [eapply conn_range; eauto|]. induction H as [|x y H IH Hy Hadj Hdy].
    + constructor; [apply cell_val; auto|apply dense_place; auto].
    + apply dc_hop with (loc x); auto; [apply cell_val; auto|apply dense_place; auto].
  - intros [Hx H]. assert (Hgen : forall l m, dense_chain D a (dense_loc (length data) threshold place) l m -> l = loc s -> forall x, x < N -> m = loc x -> conn s x).
    { induction 1 as [l Hg Hdl|l m n H' IH Hf Hg Hdl]; intros El y Hy Em.
      - rewrite El in Em. apply loc_inj in Em; auto. subst. constructor.
      - assert (Hgm : in_grid D a m) by (clear - H'; destruct H'; auto). destruct (grid_cell m Hgm) as (z & Hz & Ez). apply conn_step with z; auto.
        + unfold adj. rewrite Ez, <- Em. auto.
        + apply dense_place; auto. rewrite <- Em. auto. }
    eapply Hgen; eauto.
Qed.

Lemma clique_spec : exists st where_, clique data a threshold = Ok st /\
  (forall i, i < length data -> in_grid D a (where_ i) /\ in_box data a (where_ i) (nth i data [])) /\
  Permutation (concat (clusters st) ++ noise st) (seq 0 (length data)) /\ no_empty (clusters st) /\
  (forall i, i < length data -> (In i (noise st) <-> ~ dense_loc (length data) threshold where_ (where_ i))) /\
  (forall i j, i < length data -> j < length data ->
     ((exists c, In c (clusters st) /\ In i c /\ In j c) <-> dense_chain D a (dense_loc (length data) threshold where_) (where_ i) (where_ j))).
Proof.
  destruct process_spec as (st & comps & sparse & E & Ec & En & Hp & Hsp & Hco). destruct capture_facts as (H1 & H2 & H3).
  exists st, place. split; [unfold clique; destruct data; [congruence|]; destruct (Nat.eqb_spec a 0); [lia|exact E]|].
  assert (Hcov : forall k, k < N -> In k (concat comps) \/ In k sparse) by (intros k Hk; apply in_app_iff; apply (Permutation_in k (Permutation_sym Hp)); apply in_seq; lia).
  assert (Hnd : NoDup (concat comps ++ sparse)) by (apply (Permutation_NoDup (Permutation_sym Hp)), seq_NoDup).
  assert (Hdense : forall k, In k (concat comps) -> dns k = true).
  { intros k Hk. apply in_concat in Hk as (C & HC & Hk). destruct (Hco C HC) as (s & Hs & Hds & Hs'). apply Hs' in Hk. eapply conn_dense; eauto. }
  split; [|split; [|split; [|split]]].
  - intros i Hi. destruct (cell_idx_spec i Hi) as [Hc Hu]. split; [apply cell_val; auto|]. apply contains_in_box. apply H1. apply Hu. auto.
  - assert (Eall : concat (clusters st) ++ noise st = flat_map pts (concat comps ++ sparse)).
    { rewrite Ec, En, flat_map_app. f_equal. clear. induction comps as [|C t IH]; simpl; auto. rewrite flat_map_app, IH. auto. }
    rewrite Eall, Hp. assert (Em : flat_map pts (seq 0 N) = concat (cell_points data a)).
    { rewrite flat_map_concat_map. f_equal. rewrite <- cell_points_length. unfold points_of. clear. generalize (cell_points data a). induction l as [|g t IH]; auto.
      cbn [length seq map nth]. f_equal. rewrite <- seq_shift, map_map. exact IH. }
    rewrite Em. apply NoDup_Permutation; auto; [apply seq_NoDup|]. intros i. rewrite in_seq. split.
    + intros Hi. apply in_concat in Hi as (g & Hg & Hi). apply (In_nth _ _ []) in Hg as (k & Hk & <-). apply H1 in Hi. lia.
    + intros Hi. destruct (H2 i) as [k Hk]; [lia|]. eapply nth_in_concat. exact Hk.
  - apply Forall_forall. intros c Hc. rewrite Ec in Hc. apply in_map_iff in Hc as (C & <- & HC). destruct (Hco C HC) as (s & Hs & Hds & Hs').
    unfold dense in Hds. apply Nat.ltb_lt in Hds. intros E0. assert (Hin : In s C) by (apply Hs'; constructor).
    apply in_split in Hin as (A & B & ->). rewrite flat_map_app in E0. simpl in E0. apply app_eq_nil in E0 as [_ E0]. apply app_eq_nil in E0 as [E0 _]. rewrite E0 in Hds. simpl in Hds. lia.
  - intros i Hi. destruct (cell_idx_spec i Hi) as [Hc Hu]. unfold place at 2. rewrite (dense_place _ Hc), En, in_flat_map. split.
    + intros (k & Hk & Hik). apply Hu in Hik. subst k. apply Hsp in Hk. congruence.
    + intros Hd. exists (cell_idx i). split; [|apply Hu; auto]. destruct (Hcov _ Hc) as [H|H]; auto. apply Hdense in H. congruence.
  - intros i j Hi Hj. destruct (cell_idx_spec i Hi) as [Hci Hui]. destruct (cell_idx_spec j Hj) as [Hcj Huj]. rewrite Ec. unfold place at 2 3. split.
    + intros (c & Hc & Hin & Hjn). apply in_map_iff in Hc as (C & <- & HC). apply in_flat_map in Hin as (k & Hk & Hik). apply in_flat_map in Hjn as (m & Hm & Hjm).
      apply Hui in Hik. apply Huj in Hjm. subst k m. destruct (Hco C HC) as (s & Hs & Hds & Hs'). apply Hs' in Hk. apply Hs' in Hm.
      apply (conn_chain (cell_idx i) (cell_idx j)); auto; [eapply conn_dense; eauto|]. apply conn_trans with s; auto. apply conn_sym; auto.
    + intros H. assert (Hd : dns (cell_idx i) = true).
      { apply dense_place; auto. clear - H. induction H; auto. }
      destruct (Hcov _ Hci) as [Hin|Hin]; [|apply Hsp in Hin; congruence]. apply in_concat in Hin as (C & HC & Hin). destruct (Hco C HC) as (s & Hs & Hds & Hs').
      exists (flat_map pts C). split; [apply in_map; auto|]. split; apply in_flat_map.
      * exists (cell_idx i). split; auto. apply Hui. auto.
      * exists (cell_idx j). split; [|apply Huj; auto]. apply Hs'. apply conn_trans with (cell_idx i); [apply Hs'; auto|]. apply conn_chain; auto.
Qed.
End Proofs.
