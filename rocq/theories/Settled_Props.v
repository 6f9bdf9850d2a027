(** When X-means and G-means stop splitting: C214, C215. *)
From Verif Require Import Base Kmeans_Model Kmeans_Proofs Xmeans_Model Xmeans_Proofs.
From Verif Require Xmeans_Props.
Local Open Scope nat_scope.

(** k-means with two points of the cluster [g] as initial centres ends with the clusters [cl] (of positions in [g]) and
    the centres [ce] *)
Definition halved (metric : point -> point -> Q) (tol : Q) (data : list point) (g : list nat) (cl : list (list nat)) (ce : list point) : Prop :=
  exists i j w, In i g /\ In j g /\ kmeans_process metric (map (fun k => nth k data []) g) [nth i data []; nth j data []] tol 100 = Ok (cl, ce, w).

Lemma from_run_halved metric tol data g cl ce w : from_run metric tol (select data g) 2 (cl, ce, w) -> halved metric tol data g cl ce.
Proof.
  intros ([|a [|b [|]]] & L & I & E); try discriminate. unfold select in *. rewrite map_length in I. cbn [map] in E.
  assert (Ia : a < length g) by (apply I; left; auto). assert (Ib : b < length g) by (apply I; right; left; auto).
  exists (nth a g 0), (nth b g 0), w. split; [apply nth_In; auto|]. split; [apply nth_In; auto|].
  rewrite (nth_indep _ [] (nth 0 data [])), (nth_indep (map _ g) [] (nth 0 data [])) in E by (rewrite map_length; auto).
  rewrite !(map_nth (fun k => nth k data [])) in E. exact E.
Qed.

(** * G-means *)
Section G.
Variable tol : Q.
Variable seeds : nat -> nat -> nat -> list nat.
Variable data : list point.
Variable repeats : nat.
Variable k_max : option nat.
Variable is_null : list point -> list point -> bool.
Hypothesis seeds_ok : good_seeds seeds.
Hypothesis tol_ok : (0 <= tol)%Q.
Hypothesis data_ok : uniform (dimension data) data.
Hypothesis repeats_ok : repeats <> 0.

(** a cluster that G-means leaves: a single point, or the halves are one, or the test holds *)
Definition settled (g : list nat) : Prop :=
  length g = 1 \/ exists cl ce, halved sqdist tol data g cl ce /\ (length ce < 2 \/ is_null (map (fun k => nth k data []) g) ce = true).

Notation stat := (statistical_optimization tol seeds data repeats k_max is_null).

Lemma kept_settled g pos s : valid data g -> split_and_search tol seeds data repeats is_null g pos = Ok s -> fst s = None -> settled g.
Proof.
  intros Hg. unfold split_and_search. destruct (Nat.eqb_spec (length g) 1) as [H1|H1]; [left; auto|].
  destruct (select_dim data data_ok g Hg) as (Ed & Eu & El).
  assert (L2 : 2 <= length g) by (destruct Hg as [Hne _]; destruct g as [|? [|? ?]]; simpl in *; try congruence; lia).
  destruct (search_total sqdist tol seeds seeds_ok true (select data g) 2 repeats tol_ok) with (pos := pos) (best := @None solution) as (r & Er & Hr); [split; [lia|rewrite El; exact L2]|rewrite Ed; exact Eu|].
  rewrite Er. cbn [bind]. destruct (fst r) as [[[h ch] w]|] eqn:Ef; [|exfalso; apply Hr; auto].
  assert (F : from_run sqdist tol (select data g) 2 (h, ch, w)) by (eapply search_inv; [exact seeds_ok| |exact Er|discriminate|exact Ef]; lia).
  intros E N. right. exists h, ch. split; [exact (from_run_halved _ _ _ _ _ _ _ F)|].
  destruct (Nat.ltb_spec 1 (length ch)) as [Hl|Hl]; [|left; lia]. right. cbn [andb] in E.
  destruct (is_null (select data g) ch) eqn:En; [exact En|]. cbn [negb] in E. apply Ok_inj in E. subst s. discriminate.
Qed.

Lemma stat_same : forall cl ce potential pos a, Forall (valid data) cl -> stat cl ce potential pos = Ok a -> full k_max potential = false ->
  length cl <= length (fst a) /\ (length (fst a) = length cl -> Forall settled cl).
Proof.
  assert (More : forall cl ce potential pos a, stat cl ce potential pos = Ok a -> length cl <= length (fst a)).
  { induction cl as [|g cl IH]; intros ce potential pos a E; [simpl; lia|]. cbn [statistical_optimization] in E.
    destruct (split_and_search tol seeds data repeats is_null g pos) as [s|] eqn:Es; [|discriminate]. cbn [bind] in E.
    destruct (if full k_max potential then None else fst s) as [new|] eqn:En.
    - destruct (stat cl (tl ce) (S potential) (snd s)) as [rest|] eqn:Er; [|discriminate]. cbn [bind] in E. apply Ok_inj in E. subst a. cbn [fst]. rewrite app_length. apply IH in Er.
      destruct (full k_max potential); [discriminate|]. unfold split_and_search in Es. destruct (length g =? 1); [apply Ok_inj in Es; subst s; discriminate|].
      destruct (search_optimal sqdist tol seeds true (select data g) 2 repeats pos None) as [r|]; [|discriminate]. cbn [bind] in Es.
      match type of Es with (if ?b then _ else _) = _ => destruct b eqn:Eb end; apply Ok_inj in Es; subst s; [|discriminate]. cbn [fst] in En. injection En as <-.
      apply andb_true_iff in Eb as [Eb _]. apply Nat.ltb_lt in Eb. simpl. lia.
    - destruct (stat cl (tl ce) potential (snd s)) as [rest|] eqn:Er; [|discriminate]. cbn [bind] in E. apply Ok_inj in E. subst a. cbn [fst]. apply IH in Er. simpl. lia. }
  induction cl as [|g cl IH]; intros ce potential pos a Hv E Hf; [split; [simpl; lia|constructor]|]. split; [exact (More _ _ _ _ _ E)|]. intros Hl.
  cbn [statistical_optimization] in E. inversion Hv as [|? ? Hg Hv']; subst.
  destruct (split_and_search tol seeds data repeats is_null g pos) as [s|] eqn:Es; [|discriminate]. cbn [bind] in E. rewrite Hf in E.
  destruct (fst s) as [new|] eqn:En.
  - exfalso. destruct (stat cl (tl ce) (S potential) (snd s)) as [rest|] eqn:Er; [|discriminate]. cbn [bind] in E. apply Ok_inj in E. subst a. cbn [fst] in Hl. rewrite app_length in Hl. apply More in Er.
    unfold split_and_search in Es. destruct (length g =? 1); [apply Ok_inj in Es; subst s; discriminate|].
    destruct (search_optimal sqdist tol seeds true (select data g) 2 repeats pos None) as [r|]; [|discriminate]. cbn [bind] in Es.
    match type of Es with (if ?b then _ else _) = _ => destruct b eqn:Eb end; apply Ok_inj in Es; subst s; [|discriminate]. cbn [fst] in En. injection En as <-.
    apply andb_true_iff in Eb as [Eb _]. apply Nat.ltb_lt in Eb. simpl in Hl. lia.
  - destruct (stat cl (tl ce) potential (snd s)) as [rest|] eqn:Er; [|discriminate]. cbn [bind] in E. apply Ok_inj in E. subst a. cbn [fst length] in Hl.
    constructor; [exact (kept_settled g pos s Hg Es En)|]. destruct (IH _ _ _ _ Hv' Er Hf) as [_ H]. apply H. lia.
Qed.

Lemma gloop_settled : forall fuel cl ce w pos r, Forall (valid data) cl -> gmeans_loop tol seeds data repeats k_max is_null fuel cl ce w pos = Ok r ->
  (exists m, k_max = Some m /\ m <= length (fst (fst r))) \/ Forall settled (fst (fst r)).
Proof.
  induction fuel as [|f IH]; intros cl ce w pos r Hv E; cbn [gmeans_loop] in E; [discriminate|].
  destruct (full k_max (length cl)) eqn:Ef.
  - apply Ok_inj in E. subst r. left. unfold full in Ef. destruct k_max as [m|]; [|discriminate]. apply Nat.leb_le in Ef. exists m. auto.
  - destruct (stat cl ce (length cl) pos) as [a|] eqn:Ea; [|discriminate]. cbn [bind] in E. destruct (stat_same _ _ _ _ _ Hv Ea Ef) as [_ Hs].
    destruct (Nat.eqb_spec (length cl) (length (fst a))) as [El|El]; [apply Ok_inj in E; subst r; right; apply Hs; auto|].
    destruct (kmeans_process sqdist data (fst a) tol 100) as [[[cl' ce'] w']|] eqn:Ek; [|discriminate]. cbn [bind] in E.
    eapply IH; [|exact E]. eapply lloyd_valid. eapply process_lloyd; [|exact Ek]. lia.
Qed.
End G.

(** C214.  The clusters returned are as many as k_max allows, or each of them is a single point or passes the
    test: k-means with two of its points as initial centres ends with one centre, or the hypothesis that the points are of
    one Gaussian is not rejected along the line through the two centres. *)
Theorem C214_gmeans tol seeds (data : list point) repeats k_max is_null k_init fuel clusters centers wce :
  good_seeds seeds -> (forall p, In p data -> length p = dimension data) ->
  gmeans_process tol seeds data k_init repeats k_max is_null fuel = Ok (clusters, centers, wce) ->
  k_max = Some (length clusters) \/
  forall g, In g clusters -> length g = 1 \/
    exists cl ce, halved sqdist tol data g cl ce /\ (length ce < 2 \/ is_null (map (fun k => nth k data []) g) ce = true).
Proof.
  intros Hs Hd E.
  assert (A : (0 <= tol)%Q /\ repeats <> 0).
  { unfold gmeans_process in E. destruct (length data =? 0); [discriminate|]. destruct (k_init =? 0); [discriminate|]. destruct (Qle_bool tol 0) eqn:Et; [discriminate|]. destruct (Nat.eqb_spec repeats 0); [discriminate|].
    split; [|auto]. destruct (Qlt_le_dec 0 tol) as [H|H]; [apply Qlt_le_weak; exact H|]. apply Qle_bool_iff in H. congruence. }
  destruct A as [Ht Hr].
  destruct (gmeans_spec tol seeds Hs data Hd Ht repeats k_max is_null k_init fuel clusters centers wce Hr E) as (_ & M & _).
  destruct (gmeans_start tol seeds data repeats k_max is_null k_init fuel (Ok (clusters, centers, wce)) E ltac:(discriminate)) as (Hk & Hm & Es).
  destruct (search_optimal sqdist tol seeds true data k_init repeats 0 None) as [s|] eqn:Esr; [|discriminate]. cbn [bind] in Es. symmetry in Es.
  assert (G : forall cl ce w, Forall (valid data) cl -> gmeans_loop tol seeds data repeats k_max is_null fuel cl ce w (snd s) = Ok (clusters, centers, wce) -> k_max = Some (length clusters) \/ Forall (settled tol data is_null) clusters).
  { intros cl ce w Hv El. destruct (gloop_settled tol seeds data repeats k_max is_null Hs Ht Hd Hr _ _ _ _ _ _ Hv El) as [(m & Em & Hle)|H]; [|right; exact H].
    left. cbn [fst] in Hle. specialize (M m Em). rewrite Em. f_equal. lia. }
  assert (G' : k_max = Some (length clusters) \/ Forall (settled tol data is_null) clusters).
  { destruct (fst s) as [[[cl ce] w]|] eqn:Ef; [|eapply G; [constructor|exact Es]].
    destruct (search_inv sqdist tol seeds Hs true data k_init repeats Hk 0 None s Esr ltac:(intros; discriminate) _ Ef) as (idx & _ & _ & Ek).
    eapply G; [|exact Es]. eapply lloyd_valid. eapply process_lloyd; [|exact Ek]. lia. }
  destruct G' as [G'|G']; [left; exact G'|right]. rewrite Forall_forall in G'. exact G'.
Qed.
Print Assumptions C214_gmeans.

Example C214_gmeans_example : good_seeds Xmeans_Props.first_seeds /\ (forall p, In p Xmeans_Props.xdata -> length p = dimension Xmeans_Props.xdata) /\
  exists centers wce, gmeans_process (1 # 1000) Xmeans_Props.first_seeds Xmeans_Props.xdata 1 3 None (fun p _ => length p =? 2) 20 = Ok ([[0; 1]; [2; 3]; [4; 5]], centers, wce).
Proof.
  split; [apply Xmeans_Props.C37_example|]. split; [intros p; simpl; intuition (subst; reflexivity)|]. eexists. eexists. vm_compute. reflexivity.
Qed.

(** * X-means *)
Section X.
Variable metric : point -> point -> Q.
Variable tol : Q.
Variable seeds : nat -> nat -> nat -> list nat.
Variable data : list point.
Variable kmax repeats : nat.
Variable better : list (list nat) -> list point -> list (list nat) -> list point -> bool.
Hypothesis seeds_ok : good_seeds seeds.

(** a cluster that X-means leaves: a single point, or its halves are one, or the criterion does not prefer the halves *)
Definition xsettled (g : list nat) (c : point) : Prop :=
  length g = 1 \/ exists cl ce, halved metric tol data g cl ce /\
    (length cl < 2 \/ better [g] [c] [map (fun k => nth k g 0) (nth 0 cl []); map (fun k => nth k g 0) (nth 1 cl [])] ce = false).

Lemma children_settled g c pos chcl chce pos' : children metric tol seeds data repeats g pos = Ok (chcl, chce, pos') ->
  (1 <? length chcl) && better [g] [c] [nth 0 chcl []; nth 1 chcl []] chce = false -> xsettled g c.
Proof.
  unfold children. destruct (Nat.eqb_spec (length g) 1) as [H1|H1]; [left; auto|].
  destruct (search_optimal metric tol seeds false (select data g) 2 repeats pos None) as [s|] eqn:Es; [|discriminate]. cbn [bind].
  destruct (fst s) as [[[h ch] w]|] eqn:Ef; [|discriminate]. intros E. apply Ok_inj in E. injection E as <- <- <-.
  assert (F : from_run metric tol (select data g) 2 (h, ch, w)) by (eapply search_inv; [exact seeds_ok| |exact Es|discriminate|exact Ef]; lia).
  intros N. right. exists h, ch. split; [exact (from_run_halved _ _ _ _ _ _ _ F)|]. unfold to_global in N. rewrite map_length in N.
  destruct (Nat.ltb_spec 1 (length h)) as [Hl|Hl]; [|left; lia]. right. cbn [andb] in N.
  destruct h as [|h0 [|h1 h]]; [simpl in Hl; lia|simpl in Hl; lia|]. exact N.
Qed.

Lemma improve_same cl : forall ce free pos a, length ce = length cl -> 0 < free -> improve_structure metric tol seeds data repeats better cl ce free pos = Ok a -> length (fst a) = length cl ->
  forall j, j < length cl -> xsettled (nth j cl []) (nth j ce []).
Proof.
  induction cl as [|g cl IH]; intros ce free pos a Lc Hf E Hl j Hj; [simpl in Hj; lia|]. destruct ce as [|c ce]; [discriminate|].
  cbn [improve_structure hd tl] in E. destruct (children metric tol seeds data repeats g pos) as [[[chcl chce] pos']|] eqn:Ec; [|discriminate]. cbn [bind] in E.
  match type of E with context [if ?b then free - 1 else free] => set (sp := b) in E end.
  destruct (improve_structure metric tol seeds data repeats better cl ce (if sp then free - 1 else free) pos') as [rest|] eqn:Er; [|discriminate].
  cbn [bind] in E. apply Ok_inj in E. subst a. cbn [fst] in Hl. rewrite app_length in Hl. pose proof (improve_bound _ _ _ _ _ _ _ _ _ _ _ Er) as B.
  destruct sp eqn:Esp; [simpl in Hl; lia|]. unfold sp in Esp. apply Nat.ltb_lt in Hf. rewrite Hf, andb_true_r in Esp. apply Nat.ltb_lt in Hf.
  destruct j as [|j]; [exact (children_settled _ _ _ _ _ _ Ec Esp)|]. cbn [nth]. simpl in Lc, Hl, Hj. eapply IH; [|exact Hf|exact Er| |]; lia.
Qed.

Lemma xloop_settled : forall fuel ce pos ce', xmeans_loop metric tol seeds data kmax repeats better fuel ce pos = Ok ce' -> length ce <= kmax ->
  exists start cl w, kmeans_process metric data start tol 100 = Ok (cl, ce', w) /\ length ce' <= kmax /\
    (length ce' = kmax \/ length ce' < length start \/ forall j, j < length cl -> xsettled (nth j cl []) (nth j ce' [])).
Proof.
  induction fuel as [|f IH]; intros ce pos ce' E Hk; cbn [xmeans_loop] in E; [discriminate|].
  destruct (Nat.leb_spec (length ce) kmax); [|lia]. destruct (kmeans_process metric data ce tol 100) as [[[cl ce1] w]|] eqn:Ek; [|discriminate]. cbn [bind] in E.
  destruct (improve_structure metric tol seeds data repeats better cl ce1 (kmax - length ce1) pos) as [a|] eqn:Ea; [|discriminate]. cbn [bind] in E.
  destruct (lloyd_ok metric data (uniform (dimension data) ce) (length ce) cl ce1) as (_ & _ & L1 & L2 & _); [eapply process_lloyd; [|exact Ek]; lia|].
  pose proof (improve_bound _ _ _ _ _ _ _ _ _ _ _ Ea) as B. destruct (Nat.eqb_spec (length ce) (length (fst a))) as [El|El].
  - apply Ok_inj in E. subst ce'. exists ce, cl, w. split; [exact Ek|]. split; [lia|]. destruct (Nat.eq_dec (length ce1) kmax) as [|Hn]; [left; auto|right].
    destruct (Nat.eq_dec (length ce1) (length ce)) as [He|He]; [right|left; lia]. eapply improve_same; [exact L1| |exact Ea|]; lia.
  - eapply IH; [exact E|]. lia.
Qed.
End X.

(** C215.  The result is that of k-means from centres for which k-means had given clusters (of these centres)
    that are as many as kmax allows, or each a single point or not to be split: its halves are one, or the criterion does
    not prefer them.  The exception is that k-means dropped a centre in the last round: then the search may end at once
    (C215_xmeans_refuted). *)
Theorem C215_xmeans_partial metric tol seeds (data : list point) kmax repeats better initial fuel clusters centers wce :
  good_seeds seeds -> length initial <= kmax ->
  xmeans_process metric tol seeds data kmax repeats better initial fuel = Ok (clusters, centers, wce) ->
  exists start cl ce w, kmeans_process metric data start tol 100 = Ok (cl, ce, w) /\ kmeans_process metric data ce tol 100 = Ok (clusters, centers, wce) /\
    (length ce = kmax \/ length ce < length start \/
     forall j, j < length cl -> length (nth j cl []) = 1 \/ exists hcl hce, halved metric tol data (nth j cl []) hcl hce /\
       (length hcl < 2 \/ better [nth j cl []] [nth j ce []] [map (fun k => nth k (nth j cl []) 0) (nth 0 hcl []); map (fun k => nth k (nth j cl []) 0) (nth 1 hcl [])] hce = false)).
Proof.
  intros Hs Hk. unfold xmeans_process. destruct (length data =? 0); [discriminate|]. destruct (length initial =? 0); [discriminate|]. destruct (Qltb tol 0); [discriminate|]. destruct (repeats =? 0); [discriminate|].
  destruct (xmeans_loop metric tol seeds data kmax repeats better fuel initial 0) as [ce|] eqn:El; [|discriminate]. cbn [bind]. intros E.
  destruct (xloop_settled metric tol seeds data kmax repeats better Hs _ _ _ _ El Hk) as (start & cl & w & E1 & _ & H). exists start, cl, ce, w. auto.
Qed.
Print Assumptions C215_xmeans_partial.

(** Two equal initial centres: k-means drops one, the one cluster is to be split into two, which are as many centres as
    there were, and X-means ends with one cluster although four are allowed and the criterion wants a split. *)
Theorem C215_xmeans_refuted : exists metric tol seeds data kmax repeats better initial fuel clusters centers wce,
  good_seeds seeds /\ length initial <= kmax /\ xmeans_process metric tol seeds data kmax repeats better initial fuel = Ok (clusters, centers, wce) /\
  length clusters < kmax /\ exists g c, clusters = [g] /\ centers = [c] /\ forall hcl hce, halved metric tol data g hcl hce ->
    hce = [nth 0 hce []] \/ better [g] [c] [map (fun k => nth k g 0) (nth 0 hcl []); map (fun k => nth k g 0) (nth 1 hcl [])] hce = true.
Proof.
  exists sqdist, 0%Q, (fun pos n amount => seq 0 amount), [[0]; [1]; [10]; [11]]%Q, 4, 1, Xmeans_Props.wide, [[5]; [5]]%Q, 10.
  eexists. eexists. eexists. split; [apply Xmeans_Props.C37_example|]. split; [simpl; lia|]. split; [vm_compute; reflexivity|]. split; [simpl; lia|].
  eexists. eexists. split; [reflexivity|]. split; [reflexivity|]. 
  intros hcl hce (i & j & w & Hi & Hj & E). cbn [In] in Hi, Hj.
  destruct Hi as [<-|[<-|[<-|[<-|[]]]]]; destruct Hj as [<-|[<-|[<-|[<-|[]]]]]; vm_compute in E; injection E as <- <- <-; (right; vm_compute; reflexivity) || (left; reflexivity).
Qed.
Print Assumptions C215_xmeans_refuted.

Example C215_xmeans_example : exists r, xmeans_process sqdist 0%Q Xmeans_Props.first_seeds Xmeans_Props.xdata 5 2 Xmeans_Props.wide [[0%Q]; [30%Q]] 10 = Ok r /\ length (fst (fst r)) = 3.
Proof. eexists. split; [vm_compute; reflexivity|reflexivity]. Qed.
