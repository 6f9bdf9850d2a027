(** C287: the answers of dimension_info do not depend on the calls made before. *)
From Verif Require Import Base Diminfo_Model.

(** ** specification *)
Definition rectangular (n : nat) (data : list point) : Prop := data <> [] /\ Forall (fun p => length p = n) data.
(** the greatest and the least values of the coordinates *)
Definition greatest (n : nat) (data : list point) (m : point) : Prop :=
  length m = n /\ forall d, d < n -> (exists p, In p data /\ coord m d = coord p d) /\ forall p, In p data -> (coord p d <= coord m d)%Q.
Definition least (n : nat) (data : list point) (m : point) : Prop :=
  length m = n /\ forall d, d < n -> (exists p, In p data /\ coord m d = coord p d) /\ forall p, In p data -> (coord m d <= coord p d)%Q.
(** the answer is the one that the data give *)
Definition right_answer (n : nat) (data : list point) (c : call) (r : res answer) : Prop :=
  match c, r with
  | Dimensions, Ok (Number k) => k = n
  | Maximum, Ok (Coordinates m) => greatest n data m
  | Minimum, Ok (Coordinates m) => least n data m
  | Width, Ok (Coordinates w) => length w = n /\ exists a b, greatest n data a /\ least n data b /\ forall d, d < n -> (coord w d == coord a d - coord b d)%Q
  | Center, Ok (Coordinates w) => length w = n /\ exists a b, greatest n data a /\ least n data b /\ forall d, d < n -> (coord w d - coord b d == coord a d - coord w d)%Q
  | _, _ => False
  end.
Definition asks (c : call) : Prop := match c with Change _ => False | _ => True end.

(** ** proofs *)
Lemma row_scan_spec p n : length p = n -> forall ds mx mn, NoDup ds -> (forall d, In d ds -> d < n) -> length mx = n -> length mn = n ->
  exists mx' mn', row_scan p ds mx mn = (mx', mn', None) /\ length mx' = n /\ length mn' = n /\
  forall d, (In d ds -> coord mx' d = (if Qltb (coord mx d) (coord p d) then coord p d else coord mx d) /\
                       coord mn' d = (if Qltb (coord mx d) (coord p d) then coord mn d else if Qltb (coord p d) (coord mn d) then coord p d else coord mn d)) /\
            (~ In d ds -> coord mx' d = coord mx d /\ coord mn' d = coord mn d).
Proof.
  intros Hp. induction ds as [|d ds IH]; intros mx mn N Hd Hx Hn; cbn [row_scan].
  - exists mx, mn. repeat (split; [solve [auto]|]). intros d. split; [intros []|auto].
  - inversion N as [|? ? Nd Nds]; subst. pose proof (Hd d (or_introl eq_refl)) as Hdn.
    rewrite (nth_error_nth' p 0%Q) by exact Hdn. change (nth d p 0%Q) with (coord p d).
    assert (Ht : forall x, In x ds -> x < length p) by (intros; apply Hd; right; assumption).
    assert (U : forall l x e, length l = length p -> coord (upd l d x) e = if d =? e then x else coord l e).
    { intros l x e Hl. unfold coord. rewrite upd_nth. destruct (Nat.eqb_spec d e) as [->|]; cbn [andb]; [|reflexivity]. rewrite Hl. destruct (Nat.ltb_spec e (length p)); [reflexivity|lia]. }
    destruct (Qltb (coord mx d) (coord p d)) eqn:E1; [|destruct (Qltb (coord p d) (coord mn d)) eqn:E2].
    + destruct (IH (upd mx d (coord p d)) mn Nds Ht) as (mx' & mn' & R & L1 & L2 & S); [now rewrite upd_length|exact Hn|].
      exists mx', mn'. repeat (split; [solve [auto]|]). intros e. destruct (S e) as (S1 & S2). rewrite U in S1, S2 by exact Hx. split.
      * intros [->|He]; [destruct (S2 Nd) as (A & B); rewrite Nat.eqb_refl in A; rewrite E1; auto|]. destruct (Nat.eqb_spec d e) as [->|]; [contradiction|]. apply S1, He.
      * intros He. destruct (Nat.eqb_spec d e) as [->|]; [exfalso; apply He; left; reflexivity|]. apply S2. intro; apply He; right; assumption.
    + destruct (IH mx (upd mn d (coord p d)) Nds Ht) as (mx' & mn' & R & L1 & L2 & S); [exact Hx|now rewrite upd_length|].
      exists mx', mn'. repeat (split; [solve [auto]|]). intros e. destruct (S e) as (S1 & S2). rewrite U in S1, S2 by exact Hn. split.
      * intros [->|He]; [destruct (S2 Nd) as (A & B); rewrite Nat.eqb_refl in B; rewrite E1, E2; auto|]. destruct (Nat.eqb_spec d e) as [->|]; [contradiction|]. apply S1, He.
      * intros He. destruct (Nat.eqb_spec d e) as [->|]; [exfalso; apply He; left; reflexivity|]. apply S2. intro; apply He; right; assumption.
    + destruct (IH mx mn Nds Ht Hx Hn) as (mx' & mn' & R & L1 & L2 & S).
      exists mx', mn'. repeat (split; [solve [auto]|]). intros e. destruct (S e) as (S1 & S2). split.
      * intros [->|He]; [destruct (S2 Nd) as (A & B); rewrite E1, E2; auto|]. apply S1, He.
      * intros He. apply S2. intro; apply He; right; assumption.
Qed.

Lemma rows_scan_spec n rows : Forall (fun p => length p = n) rows -> forall seen mx mn, greatest n seen mx -> least n seen mn ->
  exists mx' mn', rows_scan rows n mx mn = (mx', mn', None) /\ greatest n (seen ++ rows) mx' /\ least n (seen ++ rows) mn'.
Proof.
  induction 1 as [|p rows Hp Hr IH]; intros seen mx mn Hx Hn; cbn [rows_scan].
  - exists mx, mn. now rewrite app_nil_r.
  - destruct (row_scan_spec p n Hp (seq 0 n) mx mn (seq_NoDup _ _)) as (mx1 & mn1 & -> & L1 & L2 & S); [intros d Hd; apply in_seq in Hd; lia|apply Hx|apply Hn|].
    destruct (IH (seen ++ [p]) mx1 mn1) as (mx' & mn' & R).
    + split; [exact L1|]. intros d Hd. destruct (S d) as (S1 & _). destruct (S1 ltac:(apply in_seq; lia)) as (A & _). rewrite A. destruct Hx as (_ & Hx). destruct (Hx d Hd) as ((q & Q1 & Q2) & Q3).
      destruct (Qltb (coord mx d) (coord p d)) eqn:E.
      * apply Qltb_true in E. split; [exists p; split; [apply in_app_iff; right; left; reflexivity|reflexivity]|]. intros r Hin. apply in_app_iff in Hin as [Hin|[<-|[]]]; [|lra]. specialize (Q3 r Hin). lra.
      * apply Qltb_false in E. split; [exists q; split; [apply in_app_iff; auto|exact Q2]|]. intros r Hin. apply in_app_iff in Hin as [Hin|[<-|[]]]; [|lra]. exact (Q3 r Hin).
    + split; [exact L2|]. intros d Hd. destruct (S d) as (S1 & _). destruct (S1 ltac:(apply in_seq; lia)) as (_ & A). rewrite A. destruct Hx as (_ & Hx). destruct (Hx d Hd) as ((q & Q1 & Q2) & Q3).
      destruct Hn as (_ & Hn). destruct (Hn d Hd) as ((q' & P1 & P2) & P3). destruct (Qltb (coord mx d) (coord p d)) eqn:E; [|destruct (Qltb (coord p d) (coord mn d)) eqn:E2].
      * apply Qltb_true in E. split; [exists q'; split; [apply in_app_iff; auto|exact P2]|]. intros r Hin. apply in_app_iff in Hin as [Hin|[<-|[]]]; [exact (P3 r Hin)|]. specialize (P3 q Q1). rewrite <- Q2 in P3. lra.
      * apply Qltb_true in E2. split; [exists p; split; [apply in_app_iff; right; left; reflexivity|reflexivity]|]. intros r Hin. apply in_app_iff in Hin as [Hin|[<-|[]]]; [|lra]. specialize (P3 r Hin). lra.
      * apply Qltb_false in E2. split; [exists q'; split; [apply in_app_iff; auto|exact P2]|]. intros r Hin. apply in_app_iff in Hin as [Hin|[<-|[]]]; [exact (P3 r Hin)|lra].
    + exists mx', mn'. rewrite <- app_assoc in R. exact R.
Qed.

Lemma scan_data n data : rectangular n data -> exists f mx mn, first_coords data n = Ok f /\ rows_scan data n f f = (mx, mn, None) /\ greatest n data mx /\ least n data mn.
Proof.
  intros (Hne & Hr). destruct data as [|p t]; [congruence|]. pose proof (Forall_inv Hr) as Hp.
  assert (F : first_coords (p :: t) n = Ok p).
  { unfold first_coords. destruct (Nat.eqb_spec n 0); [destruct p; [reflexivity|cbn in Hp; lia]|]. rewrite <- Hp at 1. rewrite Nat.leb_refl. now rewrite <- Hp, firstn_all. }
  destruct (rows_scan_spec n (p :: t) Hr [p] p p) as (mx & mn & R & G & L).
  - split; [exact Hp|]. intros d _. split; [exists p; split; [left|]; reflexivity|]. intros q [<-|[]]. apply Qle_refl.
  - split; [exact Hp|]. intros d _. split; [exists p; split; [left|]; reflexivity|]. intros q [<-|[]]. apply Qle_refl.
  - exists p, mx, mn. split; [exact F|]. split; [exact R|].
    assert (I : forall q, In q ([p] ++ p :: t) <-> In q (p :: t)) by (intros q; cbn [app]; cbn [In]; tauto).
    split; [destruct G as (A & B)|destruct L as (A & B)]; (split; [exact A|]); intros d Hd; destruct (B d Hd) as ((q & Hq & Eq) & C); (split; [exists q; split; [apply I, Hq|exact Eq]|]); intros r Hrr; apply C, I, Hrr.
Qed.

Section Calls.
Variables (n : nat) (data : list point).
Hypothesis Hdata : rectangular n data.

(** what is stored is right *)
Definition stored_pair (f : Q -> Q -> Q) (w : point) : Prop :=
  length w = n /\ exists a b, greatest n data a /\ least n data b /\ forall d, d < n -> (coord w d == f (coord a d) (coord b d))%Q.
Definition corners_ok (s : info) : Prop :=
  i_data s = data /\ (i_dims s = None \/ i_dims s = Some n) /\
  ((i_max s = None /\ i_min s = None) \/ exists a b, i_max s = Some a /\ i_min s = Some b /\ greatest n data a /\ least n data b).
Definition rest_ok (s : info) : Prop :=
  (forall w, i_width s = Some w -> stored_pair width_of w) /\ (forall w, i_center s = Some w -> stored_pair center_of w).

Lemma dims_ok s : corners_ok s -> exists s', get_dimensions s = (s', Ok n) /\ corners_ok s' /\ i_width s' = i_width s /\ i_center s' = i_center s /\ i_max s' = i_max s /\ i_min s' = i_min s.
Proof.
  intros (H1 & H2 & H3). unfold get_dimensions. destruct H2 as [E|E]; rewrite E.
  - assert (Hp : exists p t, data = p :: t /\ length p = n) by (destruct Hdata as (Hne & Hr); destruct data as [|p t]; [congruence|]; exists p, t; split; [reflexivity|exact (Forall_inv Hr)]).
    destruct Hp as (p & t & Ed & Lp). rewrite H1, Ed, Lp. exists (set_dims s n). split; [reflexivity|].
    unfold corners_ok. cbn [set_dims i_data i_dims i_max i_min i_width i_center]. auto 8.
  - exists s. unfold corners_ok. auto 10.
Qed.
Lemma maxmin_ok s : corners_ok s -> i_max s = None ->
  exists s' a b, calculate_maxmin s = (s', Ok tt) /\ corners_ok s' /\ i_width s' = i_width s /\ i_center s' = i_center s /\ i_max s' = Some a /\ i_min s' = Some b /\ greatest n data a /\ least n data b.
Proof.
  intros H Hm. destruct (dims_ok s H) as (s1 & E & H1 & W & C & _). unfold calculate_maxmin. rewrite E. destruct H1 as (D & N & _). rewrite D.
  destruct (scan_data n data Hdata) as (f & mx & mn & -> & -> & G & L). exists (set_corners s1 mx mn), mx, mn.
  split; [reflexivity|]. unfold corners_ok. cbn [set_corners i_data i_dims i_max i_min i_width i_center]. split; [split; [exact D|]; split; [exact N|]; right; exists mx, mn; auto|]. auto 8.
Qed.
Lemma max_ok s : corners_ok s -> exists s' a, get_maximum s = (s', Ok a) /\ greatest n data a /\ corners_ok s' /\ i_width s' = i_width s /\ i_center s' = i_center s.
Proof.
  intros H. unfold get_maximum. destruct (i_max s) as [a|] eqn:E.
  - destruct H as (H1 & H2 & H3). destruct H3 as [(H3 & _)|(a' & b & H3 & H4 & G & L)]; [congruence|]. rewrite E in H3. injection H3 as <-.
    exists s, a. split; [reflexivity|]. split; [exact G|]. split; [|auto]. split; [exact H1|]. split; [exact H2|]. right. eauto 8.
  - destruct (maxmin_ok s H E) as (s' & a & b & -> & H' & W & C & -> & _ & G & _). exists s', a. auto.
Qed.
Lemma min_ok s : corners_ok s -> exists s' a, get_minimum s = (s', Ok a) /\ least n data a /\ corners_ok s' /\ i_width s' = i_width s /\ i_center s' = i_center s.
Proof.
  intros H. unfold get_minimum. destruct (i_min s) as [a|] eqn:E.
  - destruct H as (H1 & H2 & H3). destruct H3 as [(_ & H3)|(a' & b & H3 & H4 & G & L)]; [congruence|]. rewrite E in H4. injection H4 as <-.
    exists s, a. split; [reflexivity|]. split; [exact L|]. split; [|auto]. split; [exact H1|]. split; [exact H2|]. right. eauto 8.
  - assert (E' : i_max s = None) by (destruct H as (_ & _ & [[H _]|(x & y & _ & H & _)]); [exact H|congruence]).
    destruct (maxmin_ok s H E') as (s' & a & b & -> & H' & W & C & _ & -> & _ & L). exists s', b. auto.
Qed.

(** corners are unique up to the value *)
Lemma greatest_unique a b d : greatest n data a -> greatest n data b -> d < n -> (coord a d == coord b d)%Q.
Proof. intros (_ & A) (_ & B) Hd. destruct (A d Hd) as ((p & P1 & P2) & P3), (B d Hd) as ((q & Q1 & Q2) & Q3). specialize (P3 q Q1). specialize (Q3 p P1). rewrite <- P2 in Q3. rewrite <- Q2 in P3. lra. Qed.
Lemma least_unique a b d : least n data a -> least n data b -> d < n -> (coord a d == coord b d)%Q.
Proof. intros (_ & A) (_ & B) Hd. destruct (A d Hd) as ((p & P1 & P2) & P3), (B d Hd) as ((q & Q1 & Q2) & Q3). specialize (P3 q Q1). specialize (Q3 p P1). rewrite <- P2 in Q3. rewrite <- Q2 in P3. lra. Qed.

Variables (put : info -> point -> info) (f : Q -> Q -> Q) (got : info -> option point) (other : info -> option point).
Hypothesis Hput : forall s l, corners_ok s -> corners_ok (put s l) /\ got (put s l) = Some l /\ other (put s l) = other s.
Hypothesis Hf : forall a a' b b', (a == a')%Q -> (b == b')%Q -> (f a b == f a' b')%Q.
Hypothesis Hmax : forall s s' a, get_maximum s = (s', Ok a) -> corners_ok s -> got s' = got s /\ other s' = other s.
Hypothesis Hmin : forall s s' a, get_minimum s = (s', Ok a) -> corners_ok s -> got s' = got s /\ other s' = other s.

Lemma fill_ok a b : greatest n data a -> least n data b -> forall ds l s, (forall d, In d ds -> d < n) -> length l = n -> corners_ok s -> got s = Some l ->
  (forall d, d < n -> ~ In d ds -> (coord l d == f (coord a d) (coord b d))%Q) ->
  exists s' w, fill put f ds l s = (s', Ok tt) /\ corners_ok s' /\ other s' = other s /\ got s' = Some w /\ length w = n /\
    forall d, d < n -> (coord w d == f (coord a d) (coord b d))%Q.
Proof.
  intros Ga Lb. induction ds as [|d ds IH]; intros l s Hd Hl Hs Hg Hdone; cbn [fill].
  - exists s, l. repeat (split; [solve [auto]|]). intros d Hdn. apply Hdone; auto.
  - destruct (max_ok s Hs) as (s1 & mx & E1 & G & H1 & _). rewrite E1. destruct (min_ok s1 H1) as (s2 & mn & E2 & L & H2 & _). rewrite E2. cbv zeta.
    destruct (Hmax s s1 mx E1 Hs) as (_ & O1). destruct (Hmin s1 s2 mn E2 H1) as (_ & O2).
    destruct (Hput s2 (upd l d (f (coord mx d) (coord mn d))) H2) as (P1 & P2 & P3).
    pose proof (Hd d (or_introl eq_refl)) as Hdn.
    destruct (IH (upd l d (f (coord mx d) (coord mn d))) (put s2 (upd l d (f (coord mx d) (coord mn d))))) as (s' & w & R1 & R2 & R3 & R4); auto.
    + intros; apply Hd; right; assumption.
    + now rewrite upd_length.
    + intros e He Hin. unfold coord at 1. rewrite upd_nth. destruct (Nat.eqb_spec d e) as [<-|Hne]; cbn [andb].
      * destruct (Nat.ltb_spec d (length l)); [|lia]. apply Hf; [apply greatest_unique|apply least_unique]; auto.
      * apply Hdone; auto. intros [|]; auto.
    + exists s', w. rewrite R1, R3, P3, O2, O1. auto.
Qed.
Hypothesis Hdims : forall s s', get_dimensions s = (s', Ok n) -> other s' = other s.
Lemma calculate_ok s : corners_ok s -> exists s' w, calculate put f s = (s', Ok tt) /\ corners_ok s' /\ other s' = other s /\ got s' = Some w /\ stored_pair f w.
Proof.
  intros Hs. destruct (scan_data n data Hdata) as (_ & a & b & _ & _ & Ga & Lb). destruct (dims_ok s Hs) as (s1 & E & H1 & _). unfold calculate. rewrite E. cbv zeta.
  destruct (Hput s1 (repeat 0%Q n) H1) as (P1 & P2 & P3). destruct (fill_ok a b Ga Lb (seq 0 n) (repeat 0%Q n) (put s1 (repeat 0%Q n))) as (s' & w & R1 & R2 & R3 & R4 & R5 & R6); auto.
  - intros d Hd. apply in_seq in Hd. lia.
  - apply repeat_length.
  - intros d Hd Hin. exfalso. apply Hin, in_seq. lia.
  - exists s', w. rewrite R1, R3, P3, (Hdims s s1 E). split; [auto|]. split; [auto|]. split; [auto|]. split; [auto|]. split; [exact R5|]. exists a, b. auto.
Qed.
End Calls.

Lemma step_ok n data s c : rectangular n data -> corners_ok n data s -> rest_ok n data s -> asks c ->
  right_answer n data c (snd (step s c)) /\ corners_ok n data (fst (step s c)) /\ rest_ok n data (fst (step s c)).
Proof.
  intros Hd Hc (Rw & Rc) Ha.
  assert (M1 : forall s0 s1 a, get_maximum s0 = (s1, Ok a) -> corners_ok n data s0 -> i_width s1 = i_width s0 /\ i_center s1 = i_center s0).
  { intros s0 s1 a E1 H1. destruct (max_ok n data Hd s0 H1) as (s2 & a2 & E2 & _ & _ & X & Y). rewrite E1 in E2. injection E2 as -> _. auto. }
  assert (M2 : forall s0 s1 a, get_minimum s0 = (s1, Ok a) -> corners_ok n data s0 -> i_width s1 = i_width s0 /\ i_center s1 = i_center s0).
  { intros s0 s1 a E1 H1. destruct (min_ok n data Hd s0 H1) as (s2 & a2 & E2 & _ & _ & X & Y). rewrite E1 in E2. injection E2 as -> _. auto. }
  destruct c as [ | | | | |d]; [| | | | |destruct Ha]; cbn [step].
  - destruct (dims_ok n data Hd s Hc) as (s' & -> & H & W & C & _). cbn. split; [reflexivity|]. split; [exact H|]. split; rewrite ?W, ?C; auto.
  - destruct (max_ok n data Hd s Hc) as (s' & a & -> & G & H & W & C). cbn [coordinates fst snd bind right_answer]. split; [exact G|]. split; [exact H|]. split; rewrite ?W, ?C; auto.
  - destruct (min_ok n data Hd s Hc) as (s' & a & -> & G & H & W & C). cbn [coordinates fst snd bind right_answer]. split; [exact G|]. split; [exact H|]. split; rewrite ?W, ?C; auto.
  - unfold get_width. destruct (i_width s) as [w|] eqn:E.
    + cbn [coordinates fst snd bind right_answer]. destruct (Rw w eq_refl) as (L & a & b & G & Le & F). split; [split; [exact L|]; exists a, b; auto|].
      split; [exact Hc|]. split; [|exact Rc]. intros w' Hw'. rewrite E in Hw'. apply Rw, Hw'.
    + destruct (calculate_ok n data Hd set_width width_of i_width i_center) with (s := s) as (s' & w & E1 & H & O & E2 & P); auto.
      * intros a a' b b' X Y. unfold width_of. now rewrite X, Y.
      * intros s0 s1. unfold get_dimensions. destruct (i_dims s0); [|destruct (i_data s0)]; intros X; inversion X; reflexivity.
      * rewrite E1, E2. cbn [coordinates fst snd bind right_answer]. split; [destruct P as (L & a & b & G & Le & F); split; [exact L|]; exists a, b; auto|].
        split; [exact H|]. split; [|rewrite O; exact Rc]. intros w' Hw'. rewrite E2 in Hw'. injection Hw' as <-. exact P.
  - unfold get_center. destruct (i_center s) as [w|] eqn:E.
    + cbn [coordinates fst snd bind right_answer]. destruct (Rc w eq_refl) as (L & a & b & G & Le & F).
      split; [split; [exact L|]; exists a, b; split; [auto|split; [auto|]]; intros d Hdn; rewrite (F d Hdn); unfold center_of; field|].
      split; [exact Hc|]. split; [exact Rw|]. intros w' Hw'. rewrite E in Hw'. apply Rc, Hw'.
    + destruct (calculate_ok n data Hd set_center center_of i_center i_width) with (s := s) as (s' & w & E1 & H & O & E2 & P); auto.
      * intros a a' b b' X Y. unfold center_of. now rewrite X, Y.
      * intros s0 s1 a X Y. destruct (M1 s0 s1 a X Y). auto.
      * intros s0 s1 a X Y. destruct (M2 s0 s1 a X Y). auto.
      * intros s0 s1. unfold get_dimensions. destruct (i_dims s0); [|destruct (i_data s0)]; intros X; inversion X; reflexivity.
      * rewrite E1, E2. cbn [coordinates fst snd bind right_answer].
        split; [destruct P as (L & a & b & G & Le & F); split; [exact L|]; exists a, b; split; [auto|split; [auto|]]; intros d Hdn; rewrite (F d Hdn); unfold center_of; field|].
        split; [exact H|]. split; [rewrite O; exact Rw|]. intros w' Hw'. rewrite E2 in Hw'. injection Hw' as <-. exact P.
Qed.

(** For points of the same number of coordinates, every call of every sequence of calls is answered, and the answer is
    the one the data give: the calls made before do not matter. *)
Theorem C287_any_order : forall (n : nat) (data : list point) (cs : list call),
  rectangular n data -> Forall asks cs ->
  Forall2 (right_answer n data) cs (answers (new_info data) cs).
Proof.
  intros n data cs Hd. assert (G : forall s, corners_ok n data s -> rest_ok n data s -> Forall asks cs -> Forall2 (right_answer n data) cs (answers s cs)).
  { induction cs as [|c cs IH]; intros s Hc Hr Ha; cbn [answers]; [constructor|]. inversion Ha; subst.
    destruct (step_ok n data s c) as (A & B & C); auto. }
  apply G; split; cbn; auto; discriminate.
Qed.
Print Assumptions C287_any_order.

(** Without points every call raises IndexError, whatever was called before. *)
Theorem C287_no_points : forall cs : list call, Forall asks cs ->
  answers (new_info []) cs = map (fun _ => Raise IndexError) cs.
Proof.
  induction cs as [|c cs IH]; intros Ha; [reflexivity|]. inversion Ha as [|? ? Hc Hcs]; subst. cbn [answers map].
  destruct c; try destruct Hc; (rewrite <- (IH Hcs) at 1; reflexivity).
Qed.
Print Assumptions C287_no_points.

(** For points of different numbers of coordinates the first call raises, but what it had stored by then is returned by
    the next calls without any exception: a width of zero, and a maximum that a point exceeds. *)
Theorem C287_after_exception_refuted : exists (data : list point) (m : point),
  answers (new_info data) [Width; Width; Maximum] = [Raise IndexError; Ok (Coordinates [0; 0]%Q); Ok (Coordinates m)] /\
  (exists p q, In p data /\ In q data /\ (coord p 0 - coord q 0 == 9)%Q) /\
  exists p, In p data /\ (coord m 0 < coord p 0)%Q.
Proof.
  exists [[0; 0]; [1]; [9; 9]]%Q, [1; 0]%Q. split; [vm_compute; reflexivity|].
  split; [exists [9; 9]%Q, [0; 0]%Q; repeat split; cbn; auto|]. exists [9; 9]%Q. split; [cbn; auto|reflexivity].
Qed.
Print Assumptions C287_after_exception_refuted.

(** The answers do not follow a change of the data by their owner: the width is that of the old data, although it was
    not asked for before the change. *)
Theorem C287_changed_data_refuted : exists (data data' : list point) (w : point),
  rectangular 1 data /\ rectangular 1 data' /\
  nth 2 (answers (new_info data) [Maximum; Change data'; Width]) (Ok Nothing) = Ok (Coordinates w) /\
  ~ right_answer 1 data' Width (Ok (Coordinates w)).
Proof.
  exists [[0]; [1]]%Q, [[0]; [9]]%Q, [1]%Q. split; [split; [discriminate|repeat constructor]|]. split; [split; [discriminate|repeat constructor]|].
  split; [vm_compute; reflexivity|]. intros (_ & a & b & (_ & A) & (_ & B) & E). specialize (E 0 ltac:(lia)).
  destruct (A 0 ltac:(lia)) as (_ & A2), (B 0 ltac:(lia)) as (_ & B2). specialize (A2 [9]%Q ltac:(cbn; auto)). specialize (B2 [0]%Q ltac:(cbn; auto)).
  unfold coord in *. cbn [nth] in *. lra.
Qed.
Print Assumptions C287_changed_data_refuted.

Example C287_example :
  rectangular 2 [[1; 5]; [3; 2]; [-1; 9]]%Q /\ Forall asks [Center; Width; Minimum; Dimensions; Maximum] /\
  match answers (new_info [[1; 5]; [3; 2]; [-1; 9]]%Q) [Center; Width; Minimum; Dimensions; Maximum] with
  | [Ok (Coordinates c); Ok (Coordinates w); Ok (Coordinates l); Ok (Number 2); Ok (Coordinates g)] =>
      peq c [1; 11 # 2]%Q /\ peq w [4; 7]%Q /\ l = [-1; 2]%Q /\ g = [3; 9]%Q
  | _ => False
  end.
Proof. split; [split; [discriminate|repeat constructor]|]. split; [repeat constructor|]. vm_compute. repeat split; repeat constructor. Qed.
