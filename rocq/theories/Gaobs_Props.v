(** Properties of the history of the genetic algorithm (C206), of its pictures
    (C207) and of its roulette (C208). *)
From Coq Require Import String.
From Verif Require Import Base Kmeans_Model Kmeans_Proofs Ga_Model Ga_Proofs Ga_Props Canvas_Model Gaobs_Model.
Open Scope nat_scope.

(** ** C206: the history *)

Lemma collect_lists o best new values :
  need_global (collect o best new values) = need_global o /\
  need_population (collect o best new values) = need_population o /\
  need_mean (collect o best new values) = need_mean o /\
  go_global (collect o best new values) = (if need_global o then go_global o ++ [best] else go_global o) /\
  go_population (collect o best new values) = (if need_population o then go_population o ++ [new] else go_population o) /\
  go_mean (collect o best new values) =
    (if need_mean o then go_mean o ++ [sumQ values / inject_Z (Z.of_nat (length values))]%Q else go_mean o).
Proof. destruct o as [[] [] [] gl po me]; cbn; auto 10. Qed.

Section History.
Variable data : list point.
Variable k m : nat.
Variable init : nat -> nat -> nat.
Variable pick : nat -> nat -> list Q -> nat.
Variable pairs : nat -> list nat.
Variable mask : nat -> nat -> nat -> bool.
Variable order : nat -> list nat.
Variable gene value : nat -> nat -> nat -> nat.
Variable genes : nat.
Variable coeff : Q.
Let next := next_population data k pick pairs mask order gene value genes coeff.
Let first := init_population data k m init.
Let gen := generation data k m init pick pairs mask order gene value genes coeff.

Lemma observed_same left : forall g cs best o obs,
  snd (observed_generations data k next left g cs best o) =
  do r <- generations data k pick pairs mask order gene value genes coeff left g cs best obs; Ok (fst r).
Proof.
  induction left as [|left IH]; intros g cs best o obs; cbn [observed_generations generations]; [reflexivity|].
  unfold next. destruct (next_population data k pick pairs mask order gene value genes coeff g cs) as [cs1|e]; cbn [bind]; [|reflexivity].
  destruct (get_best data k cs1) as [new|e]; cbn [bind]; [|reflexivity]. apply IH.
Qed.

(** what the lists hold after [g] generations *)
Definition history_ok (g : nat) (o : ga_observer) (best : list nat * Q) (pops : list (list (list nat))) (gl po : list (list nat * Q)) (me : list Q) : Prop :=
  length pops = S g /\ length gl = S g /\ length po = S g /\ length me = S g /\
  go_global o = (if need_global o then gl else []) /\
  go_population o = (if need_population o then po else []) /\
  go_mean o = (if need_mean o then me else []) /\
  last gl ([], 0%Q) = best /\
  forall h, h <= g ->
    gen h (nth h pops []) /\ nth h pops [] <> [] /\
    (let b := nth h po ([], 0%Q) in
     In (fst b) (nth h pops []) /\ snd b = fitness data k (fst b) /\ forall c, In c (nth h pops []) -> (snd b <= fitness data k c)%Q) /\
    (let b := nth h gl ([], 0%Q) in
     snd b = fitness data k (fst b) /\ (exists h', h' <= h /\ In (fst b) (nth h' pops [])) /\
     forall h' c, h' <= h -> In c (nth h' pops []) -> (snd b <= fitness data k c)%Q) /\
    nth h me 0%Q = (sumQ (map (fitness data k) (nth h pops [])) / inject_Z (Z.of_nat (length (nth h pops []))))%Q.

Lemma history_step g o best pops gl po me cs1 new :
  history_ok g o best pops gl po me -> next g (nth g pops []) = Ok cs1 -> get_best data k cs1 = Ok new ->
  let best' := if Qltb (snd new) (snd best) then new else best in
  history_ok (S g) (collect o best' new (map (fitness data k) cs1)) best' (pops ++ [cs1]) (gl ++ [best']) (po ++ [new])
    (me ++ [sumQ (map (fitness data k) cs1) / inject_Z (Z.of_nat (length cs1))]%Q).
Proof.
  intros (L1 & L2 & L3 & L4 & E1 & E2 & E3 & E4 & H) Hn Hb best'.
  assert (Hne : cs1 <> []) by (intros ->; discriminate).
  destruct (get_best_spec data k cs1 Hne) as (b & Eb & I1 & I2 & I3). rewrite Hb in Eb. apply Ok_inj in Eb. subst b.
  destruct (collect_lists o best' new (map (fitness data k) cs1)) as (C1 & C2 & C3 & C4 & C5 & C6).
  unfold history_ok. rewrite C1, C2, C3, C4, C5, C6, E1, E2, E3, !app_length, L1, L2, L3, L4, map_length. cbn [length].
  split; [lia|]. split; [lia|]. split; [lia|]. split; [lia|].
  split; [destruct (need_global o); reflexivity|]. split; [destruct (need_population o); reflexivity|]. split; [destruct (need_mean o); reflexivity|].
  split; [apply last_last|].
  assert (Pn : forall h, h <= g -> nth h (pops ++ [cs1]) [] = nth h pops []) by (intros h Hh; apply app_nth1; lia).
  assert (Pl : nth (S g) (pops ++ [cs1]) [] = cs1) by (rewrite app_nth2, L1, Nat.sub_diag by lia; reflexivity).
  intros h Hh. destruct (Nat.eq_dec h (S g)) as [->|Hne'].
  - rewrite Pl. destruct (H g (le_n g)) as (G & _ & _ & (B1 & B2 & B3) & _).
    assert (Eg : nth g gl ([], 0%Q) = best).
    { rewrite <- E4. clear - L2. destruct (exists_last (l := gl)) as (l & x & ->); [destruct gl; [discriminate|discriminate]|].
      rewrite app_length in L2. cbn in L2. rewrite last_last, app_nth2 by lia. replace (g - length l) with 0 by lia. reflexivity. }
    rewrite Eg in B1, B2, B3.
    split; [econstructor; eauto|]. split; [exact Hne|].
    rewrite (app_nth2 po) by lia. rewrite (app_nth2 gl) by lia. rewrite (app_nth2 me) by lia. rewrite L2, L3, L4, Nat.sub_diag. cbn [nth].
    split; [split; [exact I1|]; split; [exact I2|exact I3]|]. split; [|reflexivity].
    assert (Hle : (snd best' <= snd best)%Q /\ (snd best' <= snd new)%Q).
    { unfold best'. destruct (Qltb (snd new) (snd best)) eqn:Eq; [apply Qltb_true in Eq|apply Qltb_false in Eq]; split; lra. }
    split; [unfold best'; destruct (Qltb _ _); auto|]. split.
    + unfold best'. destruct (Qltb _ _).
      * exists (S g). split; [lia|]. rewrite Pl. exact I1.
      * destruct B2 as (h' & Hh' & Hin). exists h'. split; [lia|]. rewrite Pn by lia. exact Hin.
    + intros h' c Hh' Hc. destruct (Nat.eq_dec h' (S g)) as [->|].
      * rewrite Pl in Hc. specialize (I3 c Hc). lra.
      * rewrite Pn in Hc by lia. specialize (B3 h' c ltac:(lia) Hc). lra.
  - assert (Hhg : h <= g) by lia. destruct (H h Hhg) as (G1 & G2 & G3 & (B1 & (h1 & B2a & B2b) & B3) & G5). rewrite Pn by exact Hhg.
    rewrite !app_nth1 by lia. split; [exact G1|]. split; [exact G2|]. split; [exact G3|]. split; [|exact G5].
    split; [exact B1|]. split; [exists h1; rewrite Pn by lia; auto|]. intros h' c Hh' Hc. rewrite Pn in Hc by lia. apply (B3 h' c); auto.
Qed.

Lemma history_loop left : forall g o best pops gl po me cs o' r,
  history_ok g o best pops gl po me -> nth g pops [] = cs ->
  observed_generations data k next left g cs best o = (o', Ok r) ->
  need_global o' = need_global o /\ need_population o' = need_population o /\ need_mean o' = need_mean o /\
  exists pops gl po me, history_ok (g + left) o' r pops gl po me.
Proof.
  induction left as [|left IH]; intros g o best pops gl po me cs o' r H Hc E; cbn [observed_generations] in E.
  - injection E as -> ->. rewrite Nat.add_0_r. eauto 10.
  - destruct (next g cs) as [cs1|] eqn:En; [|discriminate]. destruct (get_best data k cs1) as [new|] eqn:Eb; [|discriminate].
    rewrite <- Hc in En. pose proof (history_step g o best pops gl po me cs1 new H En Eb) as H1. cbn zeta in H1.
    destruct (collect_lists o (if Qltb (snd new) (snd best) then new else best) new (map (fitness data k) cs1)) as (C1 & C2 & C3 & _).
    rewrite <- C1, <- C2, <- C3. replace (g + S left) with (S g + left) by lia. eapply IH; [exact H1| |exact E].
    destruct H as (L1 & _). rewrite app_nth2, L1, Nat.sub_diag by lia. reflexivity.
Qed.

Lemma history_all count fg fp fm o r :
  observed_ga data k next first count (go_new fg fp fm) = (o, Ok r) ->
  need_global o = fg /\ need_population o = fp /\ need_mean o = fm /\ exists pops gl po me, history_ok count o r pops gl po me.
Proof.
  unfold observed_ga. destruct (length data =? 0); [discriminate|]. destruct (k =? 0); [discriminate|].
  destruct (get_best data k first) as [b|] eqn:Eb; [|discriminate]. intro H.
  assert (Hne : first <> []) by (intro Hz; rewrite Hz in Eb; discriminate).
  destruct (get_best_spec data k first Hne) as (b' & Eb' & I1 & I2 & I3). rewrite Eb in Eb'. apply Ok_inj in Eb'. subst b'.
  destruct (collect_lists (go_new fg fp fm) b b (map (fitness data k) first)) as (C1 & C2 & C3 & C4 & C5 & C6).
  eapply (history_loop count 0 _ b [first] [b] [b] [sumQ (map (fitness data k) first) / inject_Z (Z.of_nat (length first))]%Q first) in H; [|clear H|reflexivity].
  { rewrite C1, C2, C3 in H. exact H. }
  unfold history_ok. rewrite C1, C2, C3, C4, C5, C6, map_length. cbn [go_new need_global need_population need_mean go_global go_population go_mean app length last].
  repeat (split; [reflexivity|]). intros h Hh. assert (h = 0) by lia. subst h. cbn [nth]. split; [constructor|]. split; [exact Hne|].
  split; [auto|]. split; [|reflexivity]. split; [exact I2|]. split; [exists 0; auto|]. intros h' c Hh' Hc. assert (h' = 0) by lia. subst h'. apply I3. exact Hc.
Qed.
End History.

(** An observer changes nothing: process returns what it returns without. *)
Theorem C206_same_result data k m init pick pairs mask order gene value genes coeff count o :
  snd (observed_ga data k (next_population data k pick pairs mask order gene value genes coeff) (init_population data k m init) count o) =
  do r <- ga_process data k m init pick pairs mask order gene value genes coeff count; Ok (fst r).
Proof.
  unfold observed_ga, ga_process. destruct (length data =? 0); [reflexivity|]. destruct (k =? 0); [reflexivity|].
  destruct (get_best data k (init_population data k m init)) as [b|e]; cbn [bind]; [|reflexivity]. apply observed_same.
Qed.
Print Assumptions C206_same_result.

(** Each list has one entry per generation, the first population included, or
    none if it was not asked for. *)
Theorem C206_lengths data k m init pick pairs mask order gene value genes coeff count fg fp fm o r :
  observed_ga data k (next_population data k pick pairs mask order gene value genes coeff) (init_population data k m init) count
    (go_new fg fp fm) = (o, Ok r) ->
  length (go_global o) = (if fg then S count else 0) /\ length (go_population o) = (if fp then S count else 0) /\
  length (go_mean o) = (if fm then S count else 0) /\ go_len o = (if fg || fp || fm then S count else 0).
Proof.
  intro H. apply history_all in H. destruct H as (F1 & F2 & F3 & pops & gl & po & me & L1 & L2 & L3 & L4 & E1 & E2 & E3 & _).
  unfold go_len. rewrite E1, E2, E3, F1, F2, F3. destruct fg, fp, fm; cbn [length orb]; rewrite ?L2, ?L3, ?L4; repeat split; lia.
Qed.
Print Assumptions C206_lengths.

(** Entry g is about generation g: the population's best is a chromosome of
    that generation with the smallest cost and its cost; the mean is the
    average cost; the global best is one of the chromosomes so far with the
    smallest cost of all of them.  The last global best is the result. *)
Theorem C206_history data k m init pick pairs mask order gene value genes coeff count fg fp fm o best ff :
  0 < k -> fair m pick pairs order ->
  observed_ga data k (next_population data k pick pairs mask order gene value genes coeff) (init_population data k m init) count
    (go_new fg fp fm) = (o, Ok (best, ff)) ->
  (fg = true -> nth_error (go_global o) count = Some (best, ff)) /\
  forall g, g <= count -> exists cs,
    generation data k m init pick pairs mask order gene value genes coeff g cs /\
    (forall c f, nth_error (go_population o) g = Some (c, f) ->
       In c cs /\ (f == label_cost data c)%Q /\ forall c', In c' cs -> (f <= label_cost data c')%Q) /\
    (forall c f, nth_error (go_global o) g = Some (c, f) ->
       (f == label_cost data c)%Q /\
       (exists h cs', h <= g /\ generation data k m init pick pairs mask order gene value genes coeff h cs' /\ In c cs') /\
       forall h cs' c', h <= g -> generation data k m init pick pairs mask order gene value genes coeff h cs' -> In c' cs' ->
         (f <= label_cost data c')%Q) /\
    (forall x, nth_error (go_mean o) g = Some x ->
       (inject_Z (Z.of_nat m) * x == qsum (map (label_cost data) cs))%Q).
Proof.
  intros Hk (Hp1 & Hp2 & Hp3) H. apply history_all in H.
  destruct H as (F1 & F2 & F3 & pops & gl & po & me & L1 & L2 & L3 & L4 & E1 & E2 & E3 & E4 & H).
  rewrite F1 in E1. rewrite F2 in E2. rewrite F3 in E3.
  assert (Cost : forall g cs c, generation data k m init pick pairs mask order gene value genes coeff g cs -> In c cs ->
                 (fitness data k c == label_cost data c)%Q).
  { intros g cs c Hg Hc. exact (generation_cost data k m init pick pairs mask order gene value genes coeff Hk Hp1 Hp2 Hp3 g cs c Hg Hc). }
  assert (Fun : forall g cs cs', generation data k m init pick pairs mask order gene value genes coeff g cs ->
                 generation data k m init pick pairs mask order gene value genes coeff g cs' -> cs = cs').
  { intros g cs cs'. apply generation_fun. }
  split.
  - intro Hf. rewrite Hf in E1. rewrite E1. rewrite (nth_error_nth' gl ([], 0%Q)) by lia. f_equal. rewrite <- E4.
    destruct (exists_last (l := gl)) as (l & x & ->); [destruct gl; [discriminate|discriminate]|].
    rewrite app_length in L2. cbn in L2. rewrite last_last, app_nth2 by lia. replace (count - length l) with 0 by lia. reflexivity.
  - intros g Hg. exists (nth g pops []). destruct (H g Hg) as (G1 & G2 & (P1 & P2 & P3) & (B1 & (h1 & B2a & B2b) & B3) & M). split; [exact G1|]. split; [|split].
    + intros c f Hc. assert (Hn : nth g po ([], 0%Q) = (c, f)).
      { rewrite E2 in Hc. destruct fp; [|destruct g; discriminate]. apply (nth_error_nth _ _ ([], 0%Q)) in Hc. exact Hc. }
      rewrite Hn in P1, P2, P3. cbn [fst snd] in *. split; [exact P1|]. subst f. split; [eapply Cost; eauto|].
      intros c' Hc'. specialize (P3 c' Hc'). rewrite (Cost g _ c' G1 Hc') in P3. exact P3.
    + intros c f Hc. assert (Hn : nth g gl ([], 0%Q) = (c, f)).
      { rewrite E1 in Hc. destruct fg; [|destruct g; discriminate]. apply (nth_error_nth _ _ ([], 0%Q)) in Hc. exact Hc. }
      rewrite Hn in B1, B2b, B3. cbn [fst snd] in *. destruct (H h1 ltac:(lia)) as (G1' & _). subst f. split; [eapply Cost; eauto|]. split.
      * exists h1, (nth h1 pops []). auto.
      * intros h cs' c' Hh Hgen Hc'. destruct (H h ltac:(lia)) as (G1'' & _). assert (cs' = nth h pops []) by (eapply Fun; eauto). subst cs'.
        specialize (B3 h c' Hh Hc'). rewrite (Cost h _ c' G1'' Hc') in B3. exact B3.
    + intros x Hx. assert (Hn : nth g me 0%Q = x).
      { rewrite E3 in Hx. destruct fm; [|destruct g; discriminate]. apply (nth_error_nth _ _ 0%Q) in Hx. exact Hx. }
      rewrite Hn in M. subst x.
      assert (Hm : length (nth g pops []) = m).
      { apply (generation_ok data k m init pick pairs mask order gene value genes coeff Hk Hp1 Hp2 Hp3 g) in G1. destruct G1 as [G1 _]. exact G1. }
      rewrite Hm, sumQ_qsum.
      rewrite (qsum_ext (fitness data k) (label_cost data)) by (intros c Hc; eapply Cost; eauto).
      field. intro Hz. apply G2, length_zero_iff_nil. rewrite Hm. unfold Qeq in Hz. cbn in Hz. lia.
Qed.
Print Assumptions C206_history.

(** The run of C43 with an observer of everything. *)
Definition ga_next := next_population ga_data 2 ga_pick (fun g => [1; 0]) (fun g i j => j <? 2) (fun g => [0; 1])
  (fun g i j => 1) (fun g i j => g) 1 (1 # 2).
Definition ga_seen (fg fp fm : bool) := observed_ga ga_data 2 ga_next (init_population ga_data 2 2 ga_init) 3 (go_new fg fp fm).
Example C206_example :
  fair 2 ga_pick (fun g => [1; 0]) (fun g => [0; 1]) /\
  match ga_seen true true true with
  | (o, Ok (best, ff)) =>
      best = [0; 0; 1; 1] /\ map (fun b => Qred (snd b)) (go_global o) = [38 # 3; 38 # 3; 2; 2]%Q /\
      map fst (go_population o) = [[0; 1; 1; 1]; [0; 0; 0; 1]; [0; 0; 1; 1]; [0; 0; 0; 1]] /\
      map Qred (go_mean o) = [49 # 3; 38 # 3; 11; 38 # 3]%Q
  | _ => False
  end.
Proof.
  split; [exact (proj1 C43_case)|]. vm_compute. repeat split.
Qed.

(** ** C207: the pictures *)

Lemma slice_nth {A} (l : list A) start stop x : nth_error (slice start stop l) x =
  if x <? stop - start then nth_error l (start + x) else None.
Proof.
  unfold slice. destruct (Nat.ltb_spec x (stop - start)) as [H|H].
  - assert (G : forall a (l' : list A) i, i < a -> nth_error (firstn a l') i = nth_error l' i).
    { induction a as [|a IH]; intros l' i Hi; [lia|]. destruct l' as [|y l']; [destruct i; reflexivity|]. destruct i; [reflexivity|]. cbn. apply IH. lia. }
    rewrite G by exact H. clear. revert l. induction start as [|s IH]; intro l; [reflexivity|]. destruct l as [|y l]; [destruct x; reflexivity|]. cbn. apply IH.
  - apply nth_error_None. rewrite firstn_length. lia.
Qed.

Lemma curve_nth (l : list Q) x : nth_error (curve l) x = match nth_error l x with Some v => Some (x, v) | None => None end.
Proof.
  unfold curve. assert (G : forall (l : list Q) s x, nth_error (combine (seq s (length l)) l) x = match nth_error l x with Some v => Some (s + x, v) | None => None end).
  { induction l0 as [|y l0 IH]; intros s z; [destruct z; reflexivity|]. destruct z as [|z]; cbn [length seq combine nth_error]; [now rewrite Nat.add_0_r|].
    rewrite IH. destruct (nth_error l0 z); [|reflexivity]. do 2 f_equal. lia. }
  apply (G l 0 x).
Qed.

(** The curves: at position x stands the value of iteration start + x. *)
Theorem C207_curves o start stop x :
  let e := match stop with Some s => s | None => go_len o end in
  let at_ (l : list Q) := if x <? e - start then match nth_error l (start + x) with Some v => Some (x, v) | None => None end else None in
  nth_error (fst (fst (fst (show_evolution o start stop)))) x = at_ (map snd (go_global o)) /\
  nth_error (snd (fst (fst (show_evolution o start stop)))) x = at_ (map snd (go_population o)) /\
  nth_error (snd (fst (show_evolution o start stop))) x = at_ (go_mean o).
Proof.
  cbv zeta. unfold show_evolution. cbn [fst snd]. set (e := match stop with Some s => s | None => go_len o end).
  rewrite !curve_nth, !slice_nth. repeat split; destruct (x <? e - start); reflexivity.
Qed.
Print Assumptions C207_curves.

(** Without a first iteration (the default) every value up to the last
    iteration stands at its iteration, and the axis shows all of them. *)
Theorem C207_from_the_start o x v :
  nth_error (map snd (go_global o)) x = Some v ->
  nth_error (fst (fst (fst (show_evolution o 0 None)))) x = Some (x, v) /\
  forall lo hi, snd (show_evolution o 0 None) = Some (lo, hi) -> lo <= x <= hi.
Proof.
  intro H. assert (Hx : x < length (go_global o)) by (rewrite <- (map_length snd); apply nth_error_Some; congruence).
  assert (Hl : x < go_len o) by (unfold go_len; lia). split.
  - destruct (C207_curves o 0 None x) as (-> & _). cbn [Nat.add]. rewrite H.
    destruct (Nat.ltb_spec x (go_len o - 0)); [reflexivity|lia].
  - intros lo hi E. unfold show_evolution in E. cbn [snd] in E. destruct (0 <? go_len o - 1); [|discriminate]. injection E as <- <-. lia.
Qed.
Print Assumptions C207_from_the_start.

(** False for a later first iteration: the value drawn at iteration 1 is that
    of iteration 2. *)
Theorem C207_from_later_refuted :
  exists o r v1 v2, ga_seen true true true = (o, Ok r) /\
    nth_error (map snd (go_global o)) 1 = Some v1 /\ nth_error (map snd (go_global o)) 2 = Some v2 /\ ~ (v1 == v2)%Q /\
    snd (show_evolution o 1 None) = Some (1, 3) /\
    nth_error (fst (fst (fst (show_evolution o 1 None)))) 1 = Some (1, v2).
Proof.
  eexists. eexists. eexists. eexists. split; [vm_compute; reflexivity|]. split; [reflexivity|]. split; [reflexivity|].
  split; [vm_compute; discriminate|]. split; reflexivity.
Qed.
Print Assumptions C207_from_later_refuted.

(** In general a value that can be seen (inside the limits of the axis) is that
    of an iteration not before 2 * start: the iterations start ... 2 * start - 1
    that were asked for are never visible. *)
Theorem C207_visible o start stop lo hi x v :
  snd (show_evolution o start stop) = Some (lo, hi) ->
  In (x, v) (fst (fst (fst (show_evolution o start stop)))) -> lo <= x <= hi ->
  nth_error (map snd (go_global o)) (start + x) = Some v /\ 2 * start <= start + x.
Proof.
  intros Hl Hin Hx. apply In_nth_error in Hin. destruct Hin as [i Hi].
  destruct (C207_curves o start stop i) as (E & _). rewrite E in Hi. clear E.
  destruct (i <? _); [|discriminate]. destruct (nth_error (map snd (go_global o)) (start + i)) as [w|] eqn:Ew; [|discriminate].
  injection Hi as -> ->. split; [exact Ew|].
  unfold show_evolution in Hl. cbn [snd] in Hl. destruct (start <? _); [|discriminate]. injection Hl as <- _. lia.
Qed.
Print Assumptions C207_visible.

Lemma max_ge (c : list nat) x : In x c -> x <= fold_right Nat.max 0 c.
Proof. induction c as [|y c IH]; intros H; destruct H; cbn; [lia|]. specialize (IH H). lia. Qed.

Lemma labelled_none c j : Forall (fun g => g < j) c -> labelled c j = [].
Proof.
  intro H. unfold labelled. 
  assert (G : forall l, (forall i, In i l -> i < length c) -> filter (fun i => nth i c 0 =? j) l = []).
  { induction l as [|i l IH]; intro Hl; [reflexivity|]. cbn [filter]. destruct (Nat.eqb_spec (nth i c 0) j) as [E|E].
    - exfalso. rewrite Forall_forall in H. specialize (H (nth i c 0) (nth_In _ _ (Hl i (or_introl eq_refl)))). lia.
    - apply IH. intros i' Hi'. apply Hl. now right. }
  apply G. intros i Hi. apply in_seq in Hi. lia.
Qed.

Lemma represent_clusters (data : list point) k c (n := length data) : 0 < n -> chromosome_ok n k c ->
  exists cl cl', represent c = Ok cl /\ get_clusters_representation k c = Ok cl' /\ partitions n cl /\
    filter nonempty cl = filter nonempty cl'.
Proof.
  intros Hn Hc. destruct c as [|x c0] eqn:Ec; [destruct Hc as [Hc _]; cbn in Hc; lia|]. rewrite <- Ec in *.
  set (k' := calc_count_centers c).
  assert (Hk' : chromosome_ok n k' c).
  { split; [apply Hc|]. apply Forall_forall. intros y Hy. unfold k', calc_count_centers. apply max_ge in Hy. lia. }
  assert (Hle : k' <= k).
  { unfold k', calc_count_centers. destruct Hc as [_ Hc]. assert (G : forall l, Forall (fun g => g < k) l -> l <> [] -> fold_right Nat.max 0 l < k).
    { induction l as [|y l IH]; intros Hl Hl'; [congruence|]. inversion_clear Hl as [|? ? H1 H2]. cbn. destruct l; [cbn; lia|]. specialize (IH H2 ltac:(discriminate)). lia. }
    specialize (G c Hc ltac:(rewrite Ec; discriminate)). lia. }
  destruct (representation_ok data k' c Hk') as (cl & E1 & L1 & P1 & N1).
  destruct (representation_ok data k c Hc) as (cl' & E2 & L2 & P2 & N2).
  exists cl, cl'. split; [unfold represent; rewrite Ec at 1; exact E1|]. split; [exact E2|]. split; [exact P1|].
  assert (F : forall j, k' <= j -> labelled c j = []).
  { intros j Hj. apply labelled_none. destruct Hk' as [_ Hk']. eapply Forall_impl; [|exact Hk']. cbn. intros; lia. }
  assert (A1 : cl = map (labelled c) (seq 0 k')).
  { apply nth_ext with (d := []) (d' := []); [now rewrite map_length, seq_length|]. intros j Hj. rewrite L1 in Hj. rewrite N1, nth_map_seq0 by exact Hj. reflexivity. }
  assert (A2 : cl' = map (labelled c) (seq 0 k)).
  { apply nth_ext with (d := []) (d' := []); [now rewrite map_length, seq_length|]. intros j Hj. rewrite L2 in Hj. rewrite N2, nth_map_seq0 by exact Hj. reflexivity. }
  rewrite A1, A2. replace k with (k' + (k - k')) by lia. rewrite seq_app, map_app, filter_app.
  replace (filter nonempty (map (labelled c) (seq (0 + k') (k - k')))) with (@nil (list nat)); [now rewrite app_nil_r|].
  symmetry. assert (G : forall l, (forall j, In j l -> k' <= j) -> filter nonempty (map (labelled c) l) = []).
  { induction l as [|j l IH]; intro Hl; [reflexivity|]. cbn [map filter]. rewrite F by (apply Hl; now left). cbn [nonempty]. apply IH. intros; apply Hl; now right. }
  apply G. intros j Hj. apply in_seq in Hj. lia.
Qed.

(** With an observer of the global best the clusters shown are those of the
    result, empty ones left out. *)
Theorem C207_clusters data k m init pick pairs mask order gene value genes coeff count fp fm o r :
  0 < k -> fair m pick pairs order ->
  observed_ga data k (next_population data k pick pairs mask order gene value genes coeff) (init_population data k m init) count
    (go_new true fp fm) = (o, Ok r) ->
  exists shown clusters, shown_clusters o = Ok shown /\ get_clusters_representation k (fst r) = Ok clusters /\
    partitions (length data) shown /\ filter nonempty shown = filter nonempty clusters.
Proof.
  intros Hk Hf H. destruct r as [best ff]. pose proof (C206_lengths _ _ _ _ _ _ _ _ _ _ _ _ _ _ _ _ _ _ H) as (L & _).
  assert (Hd : 0 < length data) by (unfold observed_ga in H; destruct (Nat.eqb_spec (length data) 0); [discriminate|lia]).
  destruct (C206_history _ _ _ _ _ _ _ _ _ _ _ _ _ _ _ _ _ _ _ Hk Hf H) as (E & G). specialize (E eq_refl).
  destruct (G count (le_n _)) as (cs & _ & _ & B & _). destruct (B _ _ E) as (_ & (h & cs' & Hh & Hgen & Hin) & _).
  destruct Hf as (F1 & F2 & F3).
  destruct (generation_ok data k m init pick pairs mask order gene value genes coeff Hk F1 F2 F3 h cs' Hgen) as [_ Hok].
  rewrite Forall_forall in Hok. specialize (Hok best Hin).
  destruct (represent_clusters data k best Hd Hok) as (cl & cl' & R1 & R2 & R3 & R4). exists cl, cl'.
  split; [|auto]. unfold shown_clusters.
  destruct (exists_last (l := go_global o)) as (l & x & El); [intro Hz; rewrite Hz in L; discriminate|].
  rewrite El, rev_app_distr. cbn [rev app]. rewrite El in E, L. rewrite app_length in L. cbn in L. rewrite nth_error_app2 in E by lia.
  replace (count - length l) with 0 in E by lia. injection E as ->. exact R1.
Qed.
Print Assumptions C207_clusters.

(** With any other observer, the default one for example, show_clusters raises
    IndexError. *)
Theorem C207_not_collected data k next first count fp fm o r sample :
  observed_ga data k next first count (go_new false fp fm) = (o, r) -> ga_show_clusters sample o = Raise IndexError.
Proof.
  intro H. assert (Hg : go_global o = [] /\ need_global o = false).
  { unfold observed_ga in H. destruct (length data =? 0); [injection H as <- _; auto|]. destruct (k =? 0); [injection H as <- _; auto|].
    destruct (get_best data k first) as [b|e]; [|injection H as <- _; auto].
    assert (G : forall left g cs best o0, go_global o0 = [] /\ need_global o0 = false ->
       forall o1 r1, observed_generations data k next left g cs best o0 = (o1, r1) -> go_global o1 = [] /\ need_global o1 = false).
    { induction left as [|left IH]; intros g cs best o0 H0 o1 r1 E; cbn [observed_generations] in E; [injection E as <- _; exact H0|].
      destruct (next g cs) as [cs1|e]; [|injection E as <- _; exact H0]. destruct (get_best data k cs1) as [new|e]; [|injection E as <- _; exact H0].
      eapply IH; [|exact E]. destruct (collect_lists o0 (if Qltb (snd new) (snd best) then new else best) new (map (fitness data k) cs1)) as (C1 & _ & _ & C4 & _).
      rewrite C1, C4. destruct H0 as [H0 H1]. rewrite H0, H1. auto. }
    eapply G; [|exact H]. destruct (collect_lists (go_new false fp fm) b b (map (fitness data k) first)) as (C1 & _ & _ & C4 & _). rewrite C1, C4. auto. }
  destruct Hg as [Hg _]. unfold ga_show_clusters, shown_clusters. rewrite Hg. reflexivity.
Qed.
Print Assumptions C207_not_collected.

(** False: an observed run can be shown. *)
Theorem C207_default_refuted :
  exists o r, ga_seen false true true = (o, Ok r) /\ ga_show_clusters ga_data o = Raise IndexError.
Proof. eexists. eexists. split; [vm_compute; reflexivity|reflexivity]. Qed.
Print Assumptions C207_default_refuted.

(** A frame of the animation of a run observed completely: the clusters of the
    population's best and of the best so far in that generation. *)
Theorem C207_frames data k m init pick pairs mask order gene value genes coeff count fm o r g :
  0 < k -> fair m pick pairs order ->
  observed_ga data k (next_population data k pick pairs mask order gene value genes coeff) (init_population data k m init) count
    (go_new true true fm) = (o, Ok r) -> g <= count ->
  exists p b local_ global, nth_error (go_population o) g = Some p /\ nth_error (go_global o) g = Some b /\
    ga_frame o g = Ok (local_, global, show_evolution o 0 (Some (S g))) /\
    represent (fst p) = Ok local_ /\ represent (fst b) = Ok global /\
    partitions (length data) local_ /\ partitions (length data) global.
Proof.
  intros Hk Hf H Hg. destruct r as [best ff]. pose proof (C206_lengths _ _ _ _ _ _ _ _ _ _ _ _ _ _ _ _ _ _ H) as (L1 & L2 & _).
  assert (Hd : 0 < length data) by (unfold observed_ga in H; destruct (Nat.eqb_spec (length data) 0); [discriminate|lia]).
  destruct (C206_history _ _ _ _ _ _ _ _ _ _ _ _ _ _ _ _ _ _ _ Hk Hf H) as (_ & G). destruct (G g Hg) as (cs & Gc & P & B & _).
  destruct (nth_error (go_population o) g) as [[pc pf]|] eqn:Ep; [|apply nth_error_None in Ep; lia].
  destruct (nth_error (go_global o) g) as [[bc bf]|] eqn:Eb; [|apply nth_error_None in Eb; lia].
  destruct (P _ _ eq_refl) as (Pin & _). destruct (B _ _ eq_refl) as (_ & (h & cs' & Hh & Hgen & Bin) & _).
  destruct Hf as (F1 & F2 & F3).
  pose proof (generation_ok data k m init pick pairs mask order gene value genes coeff Hk F1 F2 F3) as Gok.
  destruct (Gok g cs Gc) as [_ O1]. destruct (Gok h cs' Hgen) as [_ O2]. rewrite Forall_forall in O1, O2.
  destruct (represent_clusters data k pc Hd (O1 _ Pin)) as (cl & _ & R1 & _ & R2 & _).
  destruct (represent_clusters data k bc Hd (O2 _ Bin)) as (cl' & _ & R3 & _ & R4 & _).
  exists (pc, pf), (bc, bf), cl, cl'. unfold ga_frame. rewrite Ep, Eb. cbn [fst]. rewrite R1. cbn [bind]. rewrite R3. cbn [bind].
  repeat (split; [auto|]); auto.
Qed.
Print Assumptions C207_frames.

Example C207_example :
  match ga_seen true true true with
  | (o, Ok _) => shown_clusters o = Ok [[0; 1]; [2; 3]] /\
      match ga_frame o 1 with Ok (l, g, _) => l = [[0; 1; 2]; [3]] /\ g = [[0]; [1; 2; 3]] | Raise _ => False end
  | _ => False
  end.
Proof. vm_compute. repeat split. Qed.

(** ** C208: the roulette *)

(** The weight of a chromosome: the inverse of its fitness, none for zero. *)
Definition weight (f : Q) : Q := if Qeq_bool f 0 then 0%Q else (/ f)%Q.

(** The segment of a chromosome starts where the one before ends. *)
Definition lower (probs : list Q) (i : nat) : Q := match i with 0 => 0%Q | S j => nth j probs 0%Q end.

Lemma weight_nonneg f : (0 <= f)%Q -> (0 <= weight f)%Q.
Proof. intro H. unfold weight. destruct (Qeq_bool f 0); [lra|]. apply Qinv_le_0_compat. exact H. Qed.

Lemma inverses_ok (fs : list Q) :
  exists inv, inverses (map Some fs) = Ok inv /\ length inv = length fs /\ forall i, i < length fs -> (nth i inv 0 == weight (nth i fs 0))%Q.
Proof.
  induction fs as [|f fs IH]; [exists []; repeat split; auto; cbn; lia|]. destruct IH as (inv & E & L & N).
  cbn [map inverses]. rewrite E. cbn [bind].
  eexists. split; [reflexivity|]. split; [cbn; congruence|]. intros i Hi. destruct i as [|i]; cbn [nth].
  - unfold weight. destruct (Qeq_bool f 0) eqn:Eq; [reflexivity|]. unfold Qdiv. ring.
  - apply N. cbn in Hi. lia.
Qed.

Lemma accumulated_nth l : forall acc i, i < length l -> (nth i (accumulated acc l) 0 == acc + qsum (firstn (S i) l))%Q.
Proof.
  induction l as [|x l IH]; intros acc i Hi; [cbn in Hi; lia|]. cbn [accumulated]. destruct i as [|i]; [cbn; ring|].
  change (nth (S i) ((acc + x)%Q :: accumulated (acc + x) l) 0%Q) with (nth i (accumulated (acc + x) l) 0%Q).
  rewrite IH by (cbn in Hi; lia). change (firstn (S (S i)) (x :: l)) with (x :: firstn (S i) l). cbn [qsum]. ring.
Qed.

Lemma accumulated_length l : forall acc, length (accumulated acc l) = length l.
Proof. induction l; intro acc; cbn; [reflexivity|]. now rewrite IHl. Qed.

Lemma qsum_firstn_S (l : list Q) i : i < length l -> (qsum (firstn (S i) l) == qsum (firstn i l) + nth i l 0)%Q.
Proof.
  revert i. induction l as [|x l IH]; intros i Hi; [cbn in Hi; lia|]. destruct i as [|i]; [cbn; ring|].
  change (firstn (S (S i)) (x :: l)) with (x :: firstn (S i) l). change (firstn (S i) (x :: l)) with (x :: firstn i l). cbn [qsum nth].
  rewrite IH by (cbn in Hi; lia). ring.
Qed.

Lemma qsum_nth_ext (l l' : list Q) : length l = length l' -> (forall i, i < length l -> (nth i l 0 == nth i l' 0)%Q) -> (qsum l == qsum l')%Q.
Proof.
  revert l'. induction l as [|x l IH]; intros [|y l'] L H; try discriminate; [reflexivity|]. cbn [qsum].
  rewrite (IH l'); [|now injection L|intros i Hi; apply (H (S i)); cbn; lia]. pose proof (H 0 ltac:(cbn; lia)) as H0. cbn in H0. rewrite H0. reflexivity.
Qed.

Lemma qsum_nonneg l : Forall (fun x => 0 <= x)%Q l -> (0 <= qsum l)%Q.
Proof. induction 1; cbn; lra. Qed.

Lemma qsum_positive l x : Forall (fun x => 0 <= x)%Q l -> In x l -> (0 < x)%Q -> (0 < qsum l)%Q.
Proof.
  induction 1 as [|y l Hy H IH]; intros Hx H0; [destruct Hx|]. destruct Hx as [->|Hx]; cbn [qsum]; [|specialize (IH Hx H0); lra].
  apply qsum_nonneg in H. lra.
Qed.

Lemma last_nth_pred {A} (l : list A) d : l <> [] -> last l d = nth (length l - 1) l d.
Proof.
  intro H. destruct (exists_last H) as (l' & x & ->). rewrite last_last, app_length, app_nth2 by (cbn; lia). cbn.
  replace (length l' + 1 - 1 - length l') with 0 by lia. reflexivity.
Qed.

Lemma uniform_from_spec r probs : forall i0 i,
  uniform_from i0 r probs = Some i <->
  exists j, i = i0 + j /\ j < length probs /\ (r < nth j probs 0)%Q /\ forall j', j' < j -> (nth j' probs 0 <= r)%Q.
Proof.
  induction probs as [|p probs IH]; intros i0 i; cbn [uniform_from].
  - split; [discriminate|]. intros (j & _ & Hj & _). cbn in Hj. lia.
  - destruct (Qltb r p) eqn:E.
    + apply Qltb_true in E. split.
      * intro H. injection H as <-. exists 0. split; [lia|]. split; [cbn; lia|]. split; [exact E|]. intros; lia.
      * intros (j & -> & Hj & Hr & Hb). destruct j as [|j]; [f_equal; lia|]. specialize (Hb 0 ltac:(lia)). cbn in Hb. lra.
    + apply Qltb_false in E. rewrite IH. split.
      * intros (j & -> & Hj & Hr & Hb). exists (S j). split; [lia|]. split; [cbn; lia|]. split; [exact Hr|].
        intros [|j'] Hj'; [exact E|]. apply Hb. lia.
      * intros (j & -> & Hj & Hr & Hb). destruct j as [|j]; [cbn in Hr; lra|]. exists j. split; [lia|]. split; [cbn in Hj; lia|]. split; [exact Hr|].
        intros j' Hj'. apply (Hb (S j')). lia.
Qed.

(** The segments fill [0, 1): each is as wide as the share of the weight of its
    chromosome; the chromosome chosen for a random number is the one whose
    segment it falls into, and there always is one. *)
Theorem C208_roulette (fs : list Q) :
  Forall (fun f => 0 <= f)%Q fs -> Exists (fun f => 0 < f)%Q fs ->
  exists probs, calc_probability_vector (map Some fs) = Ok (Some probs) /\ length probs = length fs /\
    (lower probs (length fs) == 1)%Q /\
    (forall i, i < length fs -> (nth i probs 0 - lower probs i == weight (nth i fs 0) / qsum (map weight fs))%Q) /\
    (forall r i, (0 <= r)%Q -> get_uniform r probs = Some i <-> i < length fs /\ (lower probs i <= r)%Q /\ (r < nth i probs 0)%Q) /\
    (forall r, (r < 1)%Q -> exists i, get_uniform r probs = Some i).
Proof.
  intros Hf Hex. destruct (inverses_ok fs) as (inv & E & L & N).
  assert (Hne : fs <> []) by (intros ->; inversion Hex).
  assert (Hw : (qsum inv == qsum (map weight fs))%Q).
  { apply qsum_nth_ext; [etransitivity; [exact L|symmetry; apply map_length]|]. intros i Hi. rewrite L in Hi. rewrite N by exact Hi.
    rewrite (nth_indep (map weight fs) 0%Q (weight 0)) by (rewrite map_length; exact Hi). rewrite map_nth. reflexivity. }
  assert (Hpos : (0 < qsum (map weight fs))%Q).
  { apply Exists_exists in Hex. destruct Hex as (f & Hin & Hp). apply (qsum_positive _ (weight f)).
    - apply Forall_forall. intros x Hx. apply in_map_iff in Hx. destruct Hx as (y & <- & Hy). apply weight_nonneg. rewrite Forall_forall in Hf. auto.
    - apply in_map. exact Hin.
    - unfold weight. destruct (Qeq_bool f 0) eqn:Eq; [apply Qeq_bool_eq in Eq; lra|]. apply Qinv_lt_0_compat. exact Hp. }
  set (W := qsum (map weight fs)) in *.
  assert (Hlen : length (accumulated 0 inv) = length fs) by (rewrite accumulated_length; exact L).
  assert (Hn0 : 0 < length fs) by (destruct fs; [congruence|cbn; lia]).
  assert (Hlast : (last (accumulated 0 inv) 0 == W)%Q).
  { rewrite last_nth_pred by (intro Hz; rewrite Hz in Hlen; cbn in Hlen; lia). rewrite Hlen, accumulated_nth by lia.
    replace (S (length fs - 1)) with (length inv) by lia. rewrite firstn_all, Hw. ring. }
  set (total := last (accumulated 0 inv) 0%Q) in *.
  assert (Ht : (0 < total)%Q) by (rewrite Hlast; exact Hpos).
  exists (map (fun p => p / total)%Q (accumulated 0 inv)). set (probs := map (fun p => p / total)%Q (accumulated 0 inv)).
  assert (Hpn : forall i, i < length fs -> (nth i probs 0 == qsum (firstn (S i) inv) / W)%Q).
  { intros i Hi. unfold probs. rewrite (nth_indep _ 0%Q (0 / total)%Q) by (rewrite map_length; lia). rewrite (map_nth (fun p => p / total)%Q).
    rewrite accumulated_nth by lia. rewrite Hlast. field. lra. }
  assert (Hlow : forall i, i <= length fs -> (lower probs i == qsum (firstn i inv) / W)%Q).
  { intros [|i] Hi; [cbn; field; lra|]. cbn [lower]. apply Hpn. lia. }
  assert (Hmono : forall i j, i <= j -> j <= length fs -> (lower probs i <= lower probs j)%Q).
  { intros i j Hij. induction Hij as [|j Hij IH]; intros Hj; [lra|]. eapply Qle_trans; [apply IH; lia|].
    rewrite (Hlow j), (Hlow (S j)) by lia. apply Qle_shift_div_l; [exact Hpos|].
    setoid_replace (qsum (firstn j inv) / W * W)%Q with (qsum (firstn j inv)) by (field; lra).
    rewrite qsum_firstn_S by lia. rewrite N by lia.
    assert (0 <= weight (nth j fs 0))%Q by (apply weight_nonneg; rewrite Forall_forall in Hf; apply Hf, nth_In; lia). lra. }
  split.
  { unfold calc_probability_vector. destruct fs as [|f0 ft] eqn:Efs; [congruence|]. cbn [map] in *. rewrite E. cbn [bind].
    fold total. destruct (Qeq_bool total 0) eqn:Eq; [apply Qeq_bool_eq in Eq; lra|]. reflexivity. }
  split; [unfold probs; rewrite map_length; exact Hlen|].
  split; [rewrite Hlow by lia; rewrite <- L, firstn_all, Hw; field; lra|].
  split; [intros i Hi; rewrite Hpn, Hlow, qsum_firstn_S, N by lia; field; lra|].
  assert (Hpl : length probs = length fs) by (unfold probs; rewrite map_length; exact Hlen).
  split.
  - intros r i Hr. unfold get_uniform. rewrite uniform_from_spec. rewrite Hpl. split.
    + intros (j & -> & Hj & H1 & H2). cbn [Nat.add]. split; [exact Hj|]. split; [|exact H1].
      destruct j as [|j]; [exact Hr|]. cbn [lower]. apply H2. lia.
    + intros (Hi & H1 & H2). exists i. split; [reflexivity|]. split; [exact Hi|]. split; [exact H2|].
      intros j' Hj'. eapply Qle_trans; [|exact H1]. apply (Hmono (S j') i); lia.
  - intros r Hr.
    assert (G : forall n, n <= length fs -> (exists i, uniform_from 0 r probs = Some i) \/ forall j, j < n -> (nth j probs 0 <= r)%Q).
    { induction n as [|n IH]; intro Hn; [right; intros; lia|]. destruct (IH ltac:(lia)) as [H|H]; [left; exact H|].
      destruct (Qlt_le_dec r (nth n probs 0%Q)) as [Hl|Hl].
      - left. exists n. apply uniform_from_spec. exists n. rewrite Hpl. auto with arith.
      - right. intros j Hj. destruct (Nat.eq_dec j n) as [->|]; [exact Hl|]. apply H. lia. }
    destruct (G (length fs) (le_n _)) as [H|H]; [exact H|]. exfalso.
    specialize (H (length fs - 1) ltac:(lia)). rewrite Hpn in H by lia. replace (S (length fs - 1)) with (length inv) in H by lia.
    rewrite firstn_all, Hw in H. setoid_replace (W / W)%Q with 1%Q in H by (field; lra). lra.
Qed.
Print Assumptions C208_roulette.

(** The smaller the fitness, the wider the segment. *)
Theorem C208_fitter (f g : Q) : (0 < f)%Q -> (f <= g)%Q -> (weight g <= weight f)%Q.
Proof.
  intros Hf Hg. unfold weight. destruct (Qeq_bool f 0) eqn:E1; [apply Qeq_bool_eq in E1; lra|].
  destruct (Qeq_bool g 0) eqn:E2; [apply Qinv_le_0_compat; lra|].
  assert (Hg0 : (0 < g)%Q) by lra.
  setoid_replace (/ g)%Q with (f * (/ f * / g))%Q by (field; split; lra).
  setoid_replace (/ f)%Q with (g * (/ f * / g))%Q at 2 by (field; split; lra).
  apply Qmult_le_compat_r; [exact Hg|]. apply Qlt_le_weak, Qmult_lt_0_compat; apply Qinv_lt_0_compat; assumption.
Qed.
Print Assumptions C208_fitter.

(** A chromosome of fitness zero would never be chosen. *)
Theorem C208_zero (fs probs : list Q) r i :
  Forall (fun f => 0 <= f)%Q fs -> Exists (fun f => 0 < f)%Q fs -> calc_probability_vector (map Some fs) = Ok (Some probs) ->
  (0 <= r)%Q -> get_uniform r probs = Some i -> (0 < nth i fs 0)%Q.
Proof.
  intros Hf Hex E Hr H. destruct (C208_roulette fs Hf Hex) as (p & E' & L & _ & Hw & Hs & _). rewrite E in E'. injection E' as <-.
  apply Hs in H; [|exact Hr]. destruct H as (Hi & H1 & H2). specialize (Hw i Hi).
  rewrite Forall_forall in Hf. pose proof (Hf _ (nth_In fs 0%Q Hi)) as H0.
  destruct (Qeq_bool (nth i fs 0%Q) 0) eqn:Eq.
  - unfold weight in Hw. rewrite Eq in Hw. unfold Qdiv in Hw. rewrite Qmult_0_l in Hw. lra.
  - apply Qeq_bool_neq in Eq. lra.
Qed.
Print Assumptions C208_zero.

(** Refused: no chromosomes, or an infinite fitness. *)
Theorem C208_refused (fs : list (option Q)) :
  (calc_probability_vector [] = Raise AttributeError) /\
  (In None fs -> calc_probability_vector fs = Raise ValueError).
Proof.
  split; [reflexivity|]. intro H.
  assert (G : inverses fs = Raise ValueError).
  { induction fs as [|[f|] fs IH]; [destruct H| |reflexivity]. destruct H as [H|H]; [discriminate|]. cbn [inverses]. rewrite (IH H). reflexivity. }
  destruct fs as [|f fs]; [destruct H|]. unfold calc_probability_vector. rewrite G. reflexivity.
Qed.
Print Assumptions C208_refused.

Example C208_example :
  match calc_probability_vector (map Some [1; 2; 4]%Q) with
  | Ok (Some probs) => map Qred probs = [4 # 7; 6 # 7; 1]%Q /\
      map (fun r => get_uniform r probs) [0; 4 # 7; 13 # 14]%Q = [Some 0; Some 1; Some 2]
  | _ => False
  end.
Proof. vm_compute. split; reflexivity. Qed.
