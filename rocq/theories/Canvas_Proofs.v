(** Specification of the drawing of clusters, in terms of the calls a user
    makes, and the proofs about the model. *)
From Coq Require Import String.
From Verif Require Import Base Canvas_Model.
Open Scope nat_scope.

(** * Specification *)

(** The calls that change a visualizer. *)
Inductive call : Type :=
| Append (c : content) (canvas : Z) (marker : string) (size : option Q) (color : option string)
| Attach (canvas cluster : nat) (data : list point) (marker : option string) (size : option Q)
| Title (text : string) (canvas : Z).

(** One call and the visualizer after it. *)
Definition step (v : visualizer) (c : call) : visualizer * res unit :=
  match c with
  | Append x canvas m s col =>
      match append_cluster v x canvas m s col with (v', Ok _) => (v', Ok tt) | (v', Raise e) => (v', Raise e) end
  | Attach canvas k data m s => append_attribute v canvas k data m s
  | Title t canvas => set_canvas_title v t canvas
  end.

(** All calls return normally. *)
Fixpoint run (v : visualizer) (calls : list call) : res visualizer :=
  match calls with
  | [] => Ok v
  | c :: rest => match step v c with (v', Ok _) => run v' rest | (_, Raise e) => Raise e end
  end.

(** What the user asked to see on a canvas: the non-empty clusters, and the
    attributes of the k-th of them. *)
Definition request : Type := (content * string * option Q * option string)%type.
Definition appended (calls : list call) (c : nat) : list request :=
  flat_map (fun x => match x with
                     | Append x canvas m s col =>
                         if (canvas =? Z.of_nat c)%Z && negb (amount x =? 0) then [(x, m, s, col)] else []
                     | _ => [] end) calls.
Definition attached (calls : list call) (c k : nat) : list (list point * option string * option Q) :=
  flat_map (fun x => match x with
                     | Attach canvas cluster l m s =>
                         if (canvas =? c) && (cluster =? k) then [(l, m, s)] else []
                     | _ => [] end) calls.

(** The points of a cluster. *)
Definition points_of (x : content) : list point :=
  match x with Points l => l | Indexes l data => map (fun i => nth i data []) l end.

(** The colour of the k-th cluster of a canvas, the size of its marks on a
    canvas of dimension d. *)
Definition colour (k : nat) (given : option string) : string :=
  match given with Some x => x | None => nth (k mod 35) TITLES EmptyString end.
Definition size_at (d : nat) (given : option Q) : option Q :=
  match given with Some x => Some x | None => Some (if d =? 3 then 30%Q else 5%Q) end.

(** One point on a canvas of dimension d. *)
Definition mark_of (d : nat) (col m : string) (s : option Q) (p : point) : mark :=
  match d with
  | 1 => Plot (coord p 0) 0 col m s
  | 2 => Plot (coord p 0) (coord p 1) col m s
  | _ => Scatter (coord p 0) (coord p 1) (coord p 2) col m s
  end.

Definition otherwise {A} (o : option A) (d : A) : A := match o with Some x => x | None => d end.

(** Everything on canvas c. *)
Definition expected (calls : list call) (c d : nat) : list mark :=
  flat_map (fun k =>
    match nth_error (appended calls c) k with
    | None => []
    | Some (x, m, s, col) =>
        map (mark_of d (colour k col) m (size_at d s)) (points_of x) ++
        flat_map (fun a => match a with (l, m', s') =>
          map (mark_of d (colour k col) (otherwise m' m)
                 (match s' with Some q => Some q | None => size_at d s end)) l end)
          (attached calls c k)
    end) (seq 0 (length (appended calls c))).

(** The title of canvas c, given first or set later. *)
Definition title_of (n : nat) (first : option string) (calls : list call) (c : nat) : option string :=
  fold_left (fun t x => match x with
                        | Title text k =>
                            if (k =? Z.of_nat c)%Z || (k =? Z.of_nat c - Z.of_nat n)%Z then Some text else t
                        | _ => t end) calls first.

(** * Proofs *)

Lemma nth_error_upd {A} (l : list A) i j v :
  nth_error (upd l i v) j = if (i =? j) && (i <? length l) then Some v else nth_error l j.
Proof.
  revert i j. induction l as [|x l IH]; intros i j; cbn.
  - destruct i; cbn; rewrite ?andb_false_r; destruct j; reflexivity.
  - destruct i as [|i]; destruct j as [|j]; cbn; try reflexivity.
    rewrite IH. reflexivity.
Qed.

Lemma appended_app a b c : appended (a ++ b) c = appended a c ++ appended b c.
Proof. unfold appended. apply flat_map_app. Qed.
Lemma attached_app a b c k : attached (a ++ b) c k = attached a c k ++ attached b c k.
Proof. unfold attached. apply flat_map_app. Qed.
Lemma title_app n t a b c : title_of n t (a ++ b) c = title_of n (title_of n t a c) b c.
Proof. unfold title_of. apply fold_left_app. Qed.

Lemma run_app a : forall v b, run v (a ++ b) = do v' <- run v a; run v' b.
Proof.
  induction a as [|x a IH]; intros v b; cbn; [reflexivity|].
  destruct (step v x) as [v' [u|e]]; cbn; [apply IH|reflexivity].
Qed.

(** The descriptor of a request, on a canvas of dimension d. *)
Definition layer_of (d k : nat) (r : request) : layer :=
  match r with (x, m, s, col) => mkLayer x m (size_at d s) (colour k col) end.
Definition attribute_of (la : layer) (a : list point * option string * option Q) : layer :=
  match a with (l, m, s) =>
    mkLayer (Points l) (otherwise m (la_marker la)) (match s with Some q => Some q | None => la_size la end) (la_color la) end.
Definition content_of (r : request) : content := match r with (x, _, _, _) => x end.

Record inv (n row : nat) (titles : list (option string)) (v : visualizer) (calls : list call) : Prop := mkInv
  { i_number : vi_number v = n;
    i_row : vi_row v = row;
    i_len : length (vi_clusters v) = n;
    i_dlen : length (vi_dims v) = n;
    i_tlen : length (vi_titles v) = length titles;
    i_title : forall c, c < length titles -> nth c (vi_titles v) None = title_of (length titles) (nth c titles None) calls c;
    i_dims : forall c r, c < n -> In r (appended calls c) ->
               exists d, dimension_of (content_of r) = Some d /\ 1 <= d <= 3 /\ nth c (vi_dims v) None = Some d;
    i_none : forall c, c < n -> appended calls c = [] -> nth c (vi_dims v) None = None;
    i_fresh : forall c k, c < n -> length (appended calls c) <= k -> attached calls c k = [];
    i_entries : forall c, c < n -> length (nth c (vi_clusters v) []) = length (appended calls c) /\
               forall d k r, nth c (vi_dims v) None = Some d -> nth_error (appended calls c) k = Some r ->
                 nth_error (nth c (vi_clusters v) []) k =
                 Some (mkEntry (layer_of d k r) (map (attribute_of (layer_of d k r)) (attached calls c k))) }.

Lemma nth_repeat_nil {A} n k (x : A) : nth k (repeat x n) x = x.
Proof. revert k. induction n; intros [|k]; cbn; auto. Qed.

Definition titles_of (n : nat) (titles : option (list (option string))) : list (option string) :=
  match titles with Some t => t | None => repeat None n end.

Lemma inv_init n row titles : inv n row (titles_of n titles) (vis_init n row titles) [].
Proof.
  constructor; cbn; auto using repeat_length.
  - intros c r _ [].
  - intros c _ _. apply nth_repeat_nil.
  - intros c Hc. rewrite nth_repeat_nil. split; [reflexivity|].
    intros d k r H. rewrite nth_repeat_nil in H. discriminate.
Qed.

Lemma nth_error_lt {A} (l : list A) k d : k < length l -> nth_error l k = Some (nth k l d).
Proof. apply nth_error_nth'. Qed.

Lemma inv_append n row t v calls x canvas m s col v' o :
  inv n row t v calls -> append_cluster v x canvas m s col = (v', Ok o) ->
  inv n row t v' (calls ++ [Append x canvas m s col]).
Proof.
  intros I H. unfold append_cluster in H.
  assert (Hatt : forall c k, attached (calls ++ [Append x canvas m s col]) c k = attached calls c k).
  { intros. rewrite attached_app. apply app_nil_r. }
  assert (Htit : forall q f c, title_of q f (calls ++ [Append x canvas m s col]) c = title_of q f calls c).
  { intros. rewrite title_app. reflexivity. }
  assert (Hout : forall c, (canvas =? Z.of_nat c)%Z && negb (amount x =? 0) = false ->
     appended (calls ++ [Append x canvas m s col]) c = appended calls c).
  { intros c E. rewrite appended_app. cbn [appended flat_map]. rewrite E. now rewrite !app_nil_r. }
  destruct (amount x =? 0) eqn:Ea.
  { injection H as <- _.
    assert (Ho : forall c, appended (calls ++ [Append x canvas m s col]) c = appended calls c).
    { intro c. apply Hout. now rewrite andb_false_r. }
    destruct I. constructor; auto.
    - intros c Hc. rewrite Htit. auto.
    - intros c r Hc. rewrite Ho. auto.
    - intros c Hc. rewrite Ho. auto.
    - intros c k Hc. rewrite Ho, Hatt. auto.
    - intros c Hc. rewrite Ho. destruct (i_entries0 c Hc) as [E1 E2]. split; [auto|].
      intros. rewrite Hatt. auto. }
  destruct ((Z.of_nat (vi_number v) <? canvas)%Z || (canvas <? 0)%Z) eqn:Er; [discriminate|].
  apply orb_false_iff in Er. destruct Er as [Er1 Er2]. apply Z.ltb_ge in Er1, Er2.
  set (k := Z.to_nat canvas) in *.
  assert (Hk : canvas = Z.of_nat k) by (unfold k; rewrite Z2Nat.id; lia).
  destruct (nth_error (vi_clusters v) k) as [entries|] eqn:En; [|discriminate].
  assert (Hkn : k < n).
  { rewrite <- (i_len _ _ _ _ _ I). apply nth_error_Some. congruence. }
  assert (Hen : nth k (vi_clusters v) [] = entries) by (apply nth_error_nth; auto).
  destruct (dimension_of x) as [d|] eqn:Ed; [|discriminate].
  destruct (match nth k (vi_dims v) None with None => false | Some d' => negb (d' =? d) end) eqn:Eo; [discriminate|].
  destruct ((d <? 1) || (3 <? d)) eqn:E3; [discriminate|].
  apply orb_false_iff in E3. destruct E3 as [E3 E4]. apply Nat.ltb_ge in E3, E4.
  injection H as <- _.
  set (dims := match nth k (vi_dims v) None with None => upd (vi_dims v) k (Some d) | Some _ => vi_dims v end).
  assert (Hdk : nth k dims None = Some d).
  { unfold dims. destruct (nth k (vi_dims v) None) as [d'|] eqn:Ek.
    - apply negb_false_iff, Nat.eqb_eq in Eo. congruence.
    - apply upd_nth_eq. now rewrite (i_dlen _ _ _ _ _ I). }
  assert (Hdo : forall c, c <> k -> nth c dims None = nth c (vi_dims v) None).
  { intros c Hc. unfold dims. destruct (nth k (vi_dims v) None); [auto|]. apply upd_nth_neq. auto. }
  assert (Hap : forall c, appended (calls ++ [Append x canvas m s col]) c =
                 appended calls c ++ if c =? k then [(x, m, s, col)] else []).
  { intro c. rewrite appended_app. cbn [appended flat_map]. rewrite app_nil_r, Ea, andb_true_r. f_equal.
    rewrite Hk. destruct (Nat.eqb_spec c k) as [->|Hc]; [now rewrite Z.eqb_refl|].
    destruct (Z.eqb_spec (Z.of_nat k) (Z.of_nat c)); [lia|reflexivity]. }
  pose proof (i_entries _ _ _ _ _ I k Hkn) as [L1 L2]. rewrite Hen in L1, L2.
  constructor; cbn [vi_number vi_row vi_clusters vi_dims vi_titles].
  - apply I.
  - apply I.
  - rewrite upd_length. apply I.
  - unfold dims. destruct (nth k (vi_dims v) None); rewrite ?upd_length; apply I.
  - apply I.
  - intros c Hc. rewrite Htit. now apply I.
  - intros c r Hc. rewrite Hap. intro Hin. apply in_app_iff in Hin. destruct (Nat.eqb_spec c k) as [->|Hck].
    + destruct Hin as [Hin|[<-|[]]].
      * destruct (i_dims _ _ _ _ _ I k r Hkn Hin) as (d' & H1 & H2 & H3). exists d. split; [|split; [lia|exact Hdk]].
        rewrite H3 in Eo. apply negb_false_iff, Nat.eqb_eq in Eo. congruence.
      * exists d. cbn. auto.
    + destruct Hin as [Hin|[]]. rewrite Hdo by auto. apply (i_dims _ _ _ _ _ I c r Hc Hin).
  - intros c Hc. rewrite Hap. destruct (Nat.eqb_spec c k) as [->|Hck].
    + intro Hnil. destruct (appended calls k); discriminate.
    + rewrite app_nil_r. rewrite Hdo by auto. now apply I.
  - intros c j Hc. rewrite Hap, Hatt, app_length. intro Hj. apply I; [auto|]. lia.
  - intros c Hc. rewrite Hap. destruct (Nat.eqb_spec c k) as [->|Hck].
    + rewrite upd_nth_eq by (rewrite (i_len _ _ _ _ _ I); auto). rewrite !app_length. split; [cbn; lia|].
      intros d' j r Hd' Hj. rewrite Hdk in Hd'. injection Hd' as <-. rewrite Hatt.
      destruct (Nat.lt_ge_cases j (length (appended calls k))) as [Hlt|Hge].
      * rewrite nth_error_app1 in Hj by auto. rewrite nth_error_app1 by (rewrite L1; auto).
        apply L2; [|exact Hj]. unfold dims in Hdk. destruct (nth k (vi_dims v) None) as [d'|] eqn:Ek; [congruence|].
        exfalso. apply nth_error_In in Hj. destruct (i_dims _ _ _ _ _ I k r Hkn Hj) as (q & _ & _ & Hq). congruence.
      * rewrite nth_error_app2 in Hj by auto.
        destruct (j - length (appended calls k)) as [|q] eqn:Ej; [|destruct q; discriminate].
        assert (Hjl : j = length (appended calls k)) by lia. cbn in Hj. injection Hj as <-.
        rewrite nth_error_app2 by lia. replace (j - length entries) with 0 by lia. cbn [nth_error].
        rewrite (i_fresh _ _ _ _ _ I k j Hkn) by lia. cbn [map layer_of]. do 2 f_equal.
        rewrite Hjl, <- L1. unfold size_at, colour. f_equal. destruct s; [reflexivity|]. destruct (d =? 3); reflexivity.
    + rewrite app_nil_r, upd_nth_neq by auto. rewrite Hdo by auto.
      destruct (i_entries _ _ _ _ _ I c Hc) as [M1 M2]. split; [exact M1|].
      intros. rewrite Hatt. apply M2; auto.
Qed.

Lemma inv_attach n row t v calls canvas cluster l m s v' u :
  inv n row t v calls -> append_attribute v canvas cluster l m s = (v', Ok u) ->
  inv n row t v' (calls ++ [Attach canvas cluster l m s]).
Proof.
  intros I H. unfold append_attribute in H.
  destruct (nth_error (vi_clusters v) canvas) as [entries|] eqn:En; [|discriminate].
  destruct (nth_error entries cluster) as [e|] eqn:Ee; [|discriminate].
  injection H as <- _.
  assert (Hkn : canvas < n).
  { rewrite <- (i_len _ _ _ _ _ I). apply nth_error_Some. congruence. }
  assert (Hen : nth canvas (vi_clusters v) [] = entries) by (apply nth_error_nth; auto).
  assert (Hcl : cluster < length entries) by (apply nth_error_Some; congruence).
  assert (Hap : forall c, appended (calls ++ [Attach canvas cluster l m s]) c = appended calls c).
  { intro c. rewrite appended_app. apply app_nil_r. }
  assert (Htit : forall q f c, title_of q f (calls ++ [Attach canvas cluster l m s]) c = title_of q f calls c).
  { intros. rewrite title_app. reflexivity. }
  assert (Hat : forall c k, attached (calls ++ [Attach canvas cluster l m s]) c k =
            attached calls c k ++ if (canvas =? c) && (cluster =? k) then [(l, m, s)] else []).
  { intros c k. rewrite attached_app. cbn [attached flat_map]. now rewrite app_nil_r. }
  pose proof (i_entries _ _ _ _ _ I canvas Hkn) as [L1 L2]. rewrite Hen in L1, L2.
  constructor; cbn [vi_number vi_row vi_clusters vi_dims vi_titles]; try apply I.
  - rewrite upd_length. apply I.
  - intros c Hc. rewrite Htit. now apply I.
  - intros c r Hc. rewrite Hap. now apply I.
  - intros c Hc. rewrite Hap. now apply I.
  - intros c k Hc. rewrite Hap, Hat. intro Hk. rewrite (i_fresh _ _ _ _ _ I c k Hc Hk). cbn.
    destruct (Nat.eqb_spec canvas c) as [->|]; [|reflexivity].
    destruct (Nat.eqb_spec cluster k) as [->|]; [|reflexivity]. lia.
  - intros c Hc. rewrite Hap. destruct (Nat.eq_dec canvas c) as [<-|Hne].
    + rewrite upd_nth_eq by (rewrite (i_len _ _ _ _ _ I); auto). rewrite upd_length. split; [exact L1|].
      intros d k r Hd Hk. rewrite nth_error_upd, Hat, Nat.eqb_refl.
      pose proof (L2 d k r Hd Hk) as HL.
      destruct (Nat.eqb_spec cluster k) as [->|Hck]; cbn [andb].
      * destruct (Nat.ltb_spec k (length entries)); [|lia].
        rewrite HL in Ee. injection Ee as <-. cbn [en_layer en_attributes]. rewrite map_app. cbn [map attribute_of].
        destruct m, s; reflexivity.
      * rewrite app_nil_r. exact HL.
    + rewrite upd_nth_neq by auto. destruct (i_entries _ _ _ _ _ I c Hc) as [M1 M2]. split; [exact M1|].
      intros d k r Hd Hk. rewrite Hat. destruct (Nat.eqb_spec canvas c); [congruence|]. cbn [andb]. rewrite app_nil_r. now apply M2.
Qed.

Lemma inv_title n row t v calls text canvas v' u :
  inv n row t v calls -> set_canvas_title v text canvas = (v', Ok u) ->
  inv n row t v' (calls ++ [Title text canvas]).
Proof.
  intros I H. unfold set_canvas_title in H.
  destruct (Z.of_nat (vi_number v) <? canvas)%Z eqn:E1; [discriminate|].
  set (i := if (canvas <? 0)%Z then (canvas + Z.of_nat (length (vi_titles v)))%Z else canvas) in H.
  destruct ((i <? 0)%Z || (Z.of_nat (length (vi_titles v)) <=? i)%Z) eqn:E2; [discriminate|].
  apply orb_false_iff in E2. destruct E2 as [E2 E3]. apply Z.ltb_ge in E2. apply Z.leb_gt in E3.
  injection H as <- _.
  assert (Hap : forall c, appended (calls ++ [Title text canvas]) c = appended calls c).
  { intro c. rewrite appended_app. apply app_nil_r. }
  assert (Hat : forall c k, attached (calls ++ [Title text canvas]) c k = attached calls c k).
  { intros. rewrite attached_app. apply app_nil_r. }
  constructor; cbn [vi_number vi_row vi_clusters vi_dims vi_titles]; try apply I.
  - rewrite upd_length. apply I.
  - intros c Hc. rewrite title_app. cbn [title_of fold_left]. rewrite <- (i_title _ _ _ _ _ I c Hc).
    pose proof (i_tlen _ _ _ _ _ I) as Ht. rewrite upd_nth.
    destruct (Nat.eqb_spec (Z.to_nat i) c) as [Hi|Hi]; cbn [andb].
    + destruct (Nat.ltb_spec (Z.to_nat i) (length (vi_titles v))); [|lia].
      destruct (Z.eqb_spec canvas (Z.of_nat c)); [reflexivity|].
      destruct (Z.eqb_spec canvas (Z.of_nat c - Z.of_nat (length t))); [reflexivity|].
      exfalso. unfold i in *. destruct (Z.ltb_spec canvas 0); lia.
    + destruct (Z.eqb_spec canvas (Z.of_nat c)) as [->|]; cbn [orb].
      * exfalso. apply Hi. unfold i. destruct (Z.ltb_spec (Z.of_nat c) 0); lia.
      * destruct (Z.eqb_spec canvas (Z.of_nat c - Z.of_nat (length t))); [|reflexivity].
        exfalso. apply Hi. unfold i. destruct (Z.ltb_spec canvas 0); lia.
  - intros c r Hc. rewrite Hap. now apply I.
  - intros c Hc. rewrite Hap. now apply I.
  - intros c k Hc. rewrite Hap, Hat. now apply I.
  - intros c Hc. rewrite Hap. destruct (i_entries _ _ _ _ _ I c Hc) as [M1 M2]. split; [exact M1|].
    intros. rewrite Hat. now apply M2.
Qed.

Lemma run_inv n row titles calls v :
  run (vis_init n row titles) calls = Ok v -> inv n row (titles_of n titles) v calls.
Proof.
  revert v. induction calls as [|x calls IH] using rev_ind; intros v H.
  - cbn in H. injection H as <-. apply inv_init.
  - rewrite run_app in H. destruct (run (vis_init n row titles) calls) as [w|]; cbn in H; [|discriminate].
    specialize (IH w eq_refl). destruct x as [c canvas m s col|canvas cluster l m s|text canvas]; cbn in H.
    + destruct (append_cluster w c canvas m s col) as [w' [o|]] eqn:E; [|discriminate].
      injection H as <-. eapply inv_append; eauto.
    + destruct (append_attribute w canvas cluster l m s) as [w' [o|]] eqn:E; [|discriminate].
      injection H as <-. eapply inv_attach; eauto.
    + destruct (set_canvas_title w text canvas) as [w' [o|]] eqn:E; [|discriminate].
      injection H as <-. eapply inv_title; eauto.
Qed.

(** ** Drawing *)

Lemma draw_all_ok {A} (f : A -> res (list mark)) (g : A -> list mark) l ms :
  (forall a m, In a l -> f a = Ok m -> m = g a) -> draw_all f l = Ok ms -> ms = flat_map g l.
Proof.
  revert ms. induction l as [|a l IH]; intros ms Hf H; cbn in *.
  - now injection H as <-.
  - destruct (f a) as [m|] eqn:E; cbn in H; [|discriminate].
    destruct (draw_all f l) as [more|] eqn:E2; cbn in H; [|discriminate].
    injection H as <-. rewrite (Hf a m (or_introl eq_refl) E), (IH more); auto.
Qed.

Lemma draw_all_succeeds {A} (f : A -> res (list mark)) l :
  (forall a, In a l -> exists m, f a = Ok m) -> exists ms, draw_all f l = Ok ms.
Proof.
  induction l as [|a l IH]; intro H; cbn; [eauto|].
  destruct (H a (or_introl eq_refl)) as [m ->]. cbn.
  destruct IH as [more ->]; [intros; apply H; now right|]. cbn. eauto.
Qed.

Lemma fetch_ok p k x : fetch p k = Ok x -> x = coord p k.
Proof.
  unfold fetch, coord. destruct (nth_error p k) eqn:E; intro H; [|discriminate].
  injection H as <-. symmetry. now apply nth_error_nth.
Qed.

Lemma fetch_some p k : k < length p -> exists x, fetch p k = Ok x.
Proof. intro H. unfold fetch. rewrite (nth_error_lt p k 0%Q H). eauto. Qed.

Lemma draw_item_ok d la r p ms :
  1 <= d <= 3 -> (forall q, r = Ok q -> q = p) -> draw_item (Some d) la r = Ok ms ->
  ms = [mark_of d (la_color la) (la_marker la) (la_size la) p].
Proof.
  intros Hd Hr H. destruct d as [|[|[|[|d]]]]; try lia; cbn [draw_item] in H;
  (destruct r as [q|]; cbn [bind] in H; [|discriminate]); rewrite <- (Hr q eq_refl).
  - destruct (fetch q 0) eqn:E0; cbn in H; [|discriminate]. injection H as <-. now rewrite (fetch_ok _ _ _ E0).
  - destruct (fetch q 0) eqn:E0; cbn [bind] in H; [|discriminate].
    destruct (fetch q 1) eqn:E1; cbn in H; [|discriminate].
    injection H as <-. now rewrite (fetch_ok _ _ _ E0), (fetch_ok _ _ _ E1).
  - destruct (fetch q 0) eqn:E0; cbn [bind] in H; [|discriminate].
    destruct (fetch q 1) eqn:E1; cbn [bind] in H; [|discriminate].
    destruct (fetch q 2) eqn:E2; cbn in H; [|discriminate].
    injection H as <-. now rewrite (fetch_ok _ _ _ E0), (fetch_ok _ _ _ E1), (fetch_ok _ _ _ E2).
Qed.

Lemma draw_item_succeeds d la p : 1 <= d <= 3 -> d <= length p -> exists ms, draw_item (Some d) la (Ok p) = Ok ms.
Proof.
  intros Hd Hp. destruct d as [|[|[|[|d]]]]; try lia; cbn [draw_item bind].
  - destruct (fetch_some p 0) as [x ->]; [lia|]. cbn. eauto.
  - destruct (fetch_some p 0) as [x ->]; [lia|]. destruct (fetch_some p 1) as [y ->]; [lia|]. cbn. eauto.
  - destruct (fetch_some p 0) as [x ->]; [lia|]. destruct (fetch_some p 1) as [y ->]; [lia|].
    destruct (fetch_some p 2) as [z ->]; [lia|]. cbn. eauto.
Qed.

Lemma flat_map_single {A B} (f : A -> B) l : flat_map (fun a => [f a]) l = map f l.
Proof. induction l; cbn; congruence. Qed.

Lemma draw_all_map {A B} (f : B -> res (list mark)) (g : A -> B) l : draw_all f (map g l) = draw_all (fun a => f (g a)) l.
Proof. induction l as [|a l IH]; cbn; [reflexivity|]. now rewrite IH. Qed.

Lemma draw_layer_ok d la ms :
  1 <= d <= 3 -> draw_layer (Some d) la = Ok ms ->
  ms = map (mark_of d (la_color la) (la_marker la) (la_size la)) (points_of (la_content la)).
Proof.
  intros Hd H. unfold draw_layer in H. destruct (la_content la) as [l|l data]; cbn [items points_of] in *.
  - rewrite draw_all_map in H. rewrite <- flat_map_single.
    refine (draw_all_ok _ _ _ _ _ H). intros p m _ Hm. eapply draw_item_ok; eauto. intros q Hq. now injection Hq.
  - rewrite draw_all_map in H. rewrite map_map, <- flat_map_single.
    refine (draw_all_ok _ _ _ _ _ H). intros i m _ Hm. eapply draw_item_ok; eauto.
    intros q Hq. destruct (nth_error data i) eqn:E; [|discriminate]. injection Hq as <-. symmetry. now apply nth_error_nth.
Qed.

Lemma draw_entry_ok d e ms :
  1 <= d <= 3 -> draw_entry (Some d) e = Ok ms ->
  ms = flat_map (fun la => map (mark_of d (la_color la) (la_marker la) (la_size la)) (points_of (la_content la)))
         (en_layer e :: en_attributes e).
Proof.
  intros Hd H. unfold draw_entry in H.
  destruct (draw_layer (Some d) (en_layer e)) as [m1|] eqn:E1; cbn [bind] in H; [|discriminate].
  destruct (draw_all (draw_layer (Some d)) (en_attributes e)) as [m2|] eqn:E2; cbn in H; [|discriminate].
  injection H as <-. cbn [flat_map]. rewrite <- (draw_layer_ok _ _ _ Hd E1). f_equal.
  refine (draw_all_ok _ _ _ _ _ E2). intros a m _ Hm. eapply draw_layer_ok; eauto.
Qed.

Lemma flat_map_map {A B C} (f : B -> list C) (g : A -> B) l : flat_map f (map g l) = flat_map (fun a => f (g a)) l.
Proof. induction l; cbn; congruence. Qed.

Lemma flat_map_ext' {A B} (f g : A -> list B) l : (forall a, In a l -> f a = g a) -> flat_map f l = flat_map g l.
Proof.
  induction l as [|a l IH]; intro H; cbn; [reflexivity|]. rewrite H by now left. rewrite IH; auto. intros; apply H; now right.
Qed.

Lemma list_of_nth {A} (l : list A) (d : A) : l = map (fun k => nth k l d) (seq 0 (length l)).
Proof.
  induction l as [|x l IH]; [reflexivity|]. cbn [length seq map nth]. f_equal.
  rewrite <- seq_shift, map_map. exact IH.
Qed.

Lemma draw_canvas_ok n row t v calls c d ms :
  inv n row t v calls -> c < n -> 1 <= d <= 3 -> nth c (vi_dims v) None = Some d ->
  draw_all (draw_entry (Some d)) (nth c (vi_clusters v) []) = Ok ms -> ms = expected calls c d.
Proof.
  intros I Hc Hd Hdim H. destruct (i_entries _ _ _ _ _ I c Hc) as [L1 L2].
  apply (draw_all_ok _ (fun e => flat_map (fun la => map (mark_of d (la_color la) (la_marker la) (la_size la)) (points_of (la_content la)))
         (en_layer e :: en_attributes e))) in H.
  2:{ intros a m _ Hm. now apply draw_entry_ok. }
  subst ms. unfold expected.
  rewrite (list_of_nth (nth c (vi_clusters v) []) (mkEntry (mkLayer (Points []) EmptyString None EmptyString) [])).
  rewrite flat_map_map, L1. apply flat_map_ext'. intros k Hk. apply in_seq in Hk.
  destruct (nth_error (appended calls c) k) as [[[[x m] s] col]|] eqn:E.
  2:{ apply nth_error_None in E. lia. }
  specialize (L2 d k _ Hdim E). apply nth_error_nth with (d := mkEntry (mkLayer (Points []) EmptyString None EmptyString) []) in L2.
  rewrite L2. cbn [en_layer en_attributes flat_map layer_of la_color la_marker la_size la_content]. f_equal.
  rewrite flat_map_map. apply flat_map_ext'. intros [[l m'] s'] _. reflexivity.
Qed.

Lemma show_canvases_ok n row t v calls shift ks axs :
  inv n row t v calls -> Forall (fun k => k < n) ks -> show_canvases v shift ks = Ok axs ->
  Forall2 (fun c a => exists d, 1 <= d <= 3 /\ Forall (fun r => dimension_of (content_of r) = Some d) (appended calls c) /\
             a = mkAxes (c + shift) (d =? 3) (expected calls c d) (title_of (length t) (nth c t None) calls c))
    (filter (fun c => negb (length (appended calls c) =? 0)) ks) axs.
Proof.
  intros I. revert axs. induction ks as [|k ks IH]; intros axs Hks H; cbn [show_canvases filter] in *.
  - injection H as <-. constructor.
  - inversion_clear Hks as [|? ? Hk Hks']. destruct (i_entries _ _ _ _ _ I k Hk) as [L1 _].
    destruct (nth k (vi_clusters v) []) as [|e es] eqn:En.
    + rewrite <- L1. cbn. auto.
    + rewrite <- L1. cbn [length Nat.eqb negb].
      assert (Hne : exists r, In r (appended calls k)).
      { destruct (appended calls k) as [|r ?]; [discriminate|]. exists r. now left. }
      destruct Hne as [r Hr]. destruct (i_dims _ _ _ _ _ I k r Hk Hr) as (d & H1 & Hd & H3). rewrite H3 in H.
      destruct (draw_all (draw_entry (Some d)) (e :: es)) as [ms|] eqn:Ed; cbn [bind] in H; [|discriminate].
      destruct (nth_error (vi_titles v) k) as [title|] eqn:Et; [|discriminate].
      destruct (show_canvases v shift ks) as [more|] eqn:Em; cbn [bind] in H; [|discriminate].
      injection H as <-. constructor; [|auto].
      exists d. split; [exact Hd|]. split.
      * apply Forall_forall. intros r' Hr'. destruct (i_dims _ _ _ _ _ I k r' Hk Hr') as (d' & G1 & _ & G3). congruence.
      * rewrite <- En in Ed. rewrite (draw_canvas_ok _ _ _ _ _ _ _ _ I Hk Hd H3 Ed).
        assert (Hkt : k < length t).
        { rewrite <- (i_tlen _ _ _ _ _ I). apply nth_error_Some. congruence. }
        rewrite <- (i_title _ _ _ _ _ I k Hkt). rewrite (nth_error_nth _ _ None Et). f_equal.
        destruct d as [|[|[|[|d]]]]; try lia; reflexivity.
Qed.
