(** Statistics of clustering features, and BIRCH: proofs. *)
From Verif Require Import Base Kmeans_Model Kmeans_Proofs Encoder_Model Encoder_Proofs Aggl_Model Aggl_Proofs Bsas_Proofs Cure_Model Cftree_Model Cftree_Proofs Birch_Model.

(** * Statistics *)
(** [e] is the feature of the points [ps] *)
Definition describes (D : nat) (e : entry) (ps : list point) : Prop :=
  num e = length ps /\ length (lsum e) = D /\
  (forall d, d < D -> (coord (lsum e) d == qsum (map (fun p => coord p d) ps))%Q) /\
  (ssum e == qsum (map (fun p => sqdist p (repeat 0%Q D)) ps))%Q.

(** sum of the squared distances between points of two groups *)
Definition cross (ps qs : list point) : Q := qsum (map (fun p => qsum (map (fun q => sqdist p q) qs)) ps).
(** sum of the squared distances to a point *)
Definition spread (ps : list point) (c : point) : Q := qsum (map (fun p => sqdist p c) ps).

Section Dot.
Lemma dot_comm a b : (dot a b == dot b a)%Q.
Proof. revert b. induction a as [|x a IH]; intros [|y b]; simpl; try reflexivity. rewrite IH. ring. Qed.
Lemma sqdist_dot a b : length a = length b -> (sqdist a b == dot a a - 2 * dot a b + dot b b)%Q.
Proof. revert b. induction a as [|x a IH]; intros [|y b] H; simpl in *; try lia; try reflexivity. rewrite IH by lia. ring. Qed.
Lemma dot_peq a b b' : peq b b' -> (dot a b == dot a b')%Q.
Proof. unfold peq. intros H. revert a. induction H as [|x y b b' Hx Hb IH]; intros [|z a]; simpl; try reflexivity. rewrite Hx, IH. reflexivity. Qed.
Lemma dot_zero a n : (dot a (repeat 0%Q n) == 0)%Q.
Proof. revert n. induction a as [|x a IH]; intros [|n]; simpl; try reflexivity. rewrite IH. ring. Qed.
Lemma dot_padd a b c : length b = length c -> (dot a (padd b c) == dot a b + dot a c)%Q.
Proof. revert b c. induction a as [|x a IH]; intros [|y b] [|z c] H; simpl in *; try lia; try reflexivity. rewrite IH by lia. ring. Qed.
Lemma dot_scale k a b : (dot a (map (fun x => x / k) b) == dot a b / k)%Q.
Proof. revert b. induction a as [|x a IH]; intros [|y b]; simpl; try (unfold Qdiv; ring). rewrite IH. unfold Qdiv. ring. Qed.
Lemma sqdist_origin D p : length p = D -> (sqdist p (repeat 0%Q D) == dot p p)%Q.
Proof. intros H. rewrite sqdist_dot by (rewrite repeat_length; auto). rewrite dot_zero. rewrite (dot_zero (repeat 0%Q D)). ring. Qed.
End Dot.

Section Stats.
Variable D : nat.
Notation has_dim ps := (forall p, In p ps -> length p = D).

Fixpoint psum (ps : list point) : point := match ps with [] => repeat 0%Q D | p :: t => padd p (psum t) end.
Lemma psum_length ps : has_dim ps -> length (psum ps) = D.
Proof. induction ps as [|p t IH]; intros H; simpl; [apply repeat_length|]. apply padd_length; [apply H; left; auto|apply IH; intros; apply H; right; auto]. Qed.
Lemma psum_coord ps d : has_dim ps -> d < D -> (coord (psum ps) d == qsum (map (fun p => coord p d) ps))%Q.
Proof.
  intros H Hd. induction ps as [|p t IH]; simpl.
  - unfold coord. destruct (nth_in_or_default d (repeat 0%Q D) 0%Q) as [Hin|E]; [apply repeat_spec in Hin; rewrite Hin|rewrite E]; reflexivity.
  - rewrite (padd_coord D); [|apply H; left; auto|apply psum_length; intros; apply H; right; auto]. rewrite IH by (intros; apply H; right; auto). reflexivity.
Qed.
Lemma dot_psum a ps : has_dim ps -> (dot a (psum ps) == qsum (map (dot a) ps))%Q.
Proof.
  induction ps as [|p t IH]; intros H; simpl; [apply dot_zero|]. rewrite dot_padd; [rewrite IH by (intros; apply H; right; auto); reflexivity|].
  rewrite psum_length by (intros; apply H; right; auto). apply H. left; auto.
Qed.

Lemma describes_psum e ps : describes D e ps -> has_dim ps -> peq (lsum e) (psum ps).
Proof.
  intros (H1 & H2 & H3 & H4) Hp. apply peq_of_coord; [rewrite psum_length by auto; auto|]. intros d Hd. rewrite H2 in Hd. rewrite H3, psum_coord by auto. reflexivity.
Qed.
Lemma describes_ss e ps : describes D e ps -> has_dim ps -> (ssum e == qsum (map (fun p => dot p p) ps))%Q.
Proof. intros (H1 & H2 & H3 & H4) Hp. rewrite H4. apply qsum_ext. intros p Hin. apply sqdist_origin. auto. Qed.
Lemma describes_num e ps : describes D e ps -> (numq e == inject_Z (Z.of_nat (length ps)))%Q.
Proof. intros (H1 & _). unfold numq. rewrite H1. reflexivity. Qed.

Lemma describes_dot e ps a : describes D e ps -> has_dim ps -> (dot a (lsum e) == qsum (map (dot a) ps))%Q.
Proof. intros H Hp. rewrite (dot_peq a _ _ (describes_psum _ _ H Hp)). apply dot_psum. auto. Qed.

(** distances between two groups *)
Lemma cross_eq a ps b qs : describes D a ps -> describes D b qs -> has_dim ps -> has_dim qs ->
  (cross ps qs == numq b * ssum a - 2 * dot (lsum a) (lsum b) + numq a * ssum b)%Q.
Proof.
  intros Ha Hb Hp Hq. unfold cross.
  transitivity (qsum (map (fun p => numq b * dot p p + (- (2)) * dot p (lsum b) + ssum b) ps))%Q.
  - apply qsum_ext. intros p Hin. transitivity (qsum (map (fun q => dot p p + ((- (2)) * dot p q + dot q q)) qs))%Q.
    + apply qsum_ext. intros q Hqn. rewrite sqdist_dot by (rewrite Hp, Hq; auto). ring.
    + rewrite (qsum_plus (fun _ => dot p p) (fun q => (- (2)) * dot p q + dot q q)%Q). rewrite (qsum_plus (fun q => (- (2)) * dot p q)%Q (fun q => dot q q)).
      rewrite qsum_const, qsum_scale, <- (describes_ss b qs), <- (describes_dot b qs p), <- (describes_num b qs) by auto. ring.
  - rewrite (qsum_plus (fun p => numq b * dot p p + (- (2)) * dot p (lsum b))%Q (fun _ => ssum b)). rewrite (qsum_plus (fun p => numq b * dot p p)%Q (fun p => (- (2)) * dot p (lsum b))%Q).
    rewrite (qsum_scale (fun p => dot p p)), (qsum_scale (fun p => dot p (lsum b))), qsum_const, <- (describes_num a ps), <- (describes_ss a ps) by auto.
    rewrite (qsum_ext (fun p => dot p (lsum b)) (fun p => dot (lsum b) p)) by (intros; apply dot_comm). rewrite <- (describes_dot a ps (lsum b)) by auto.
    rewrite (dot_comm (lsum b)). ring.
Qed.

Lemma numq_pos e ps : describes D e ps -> ps <> [] -> (0 < numq e)%Q.
Proof. intros (H & _) Hne. unfold numq. rewrite H. change 0%Q with (inject_Z 0). rewrite <- Zlt_Qlt. destruct ps; [congruence|simpl; lia]. Qed.

Lemma centroid_length e ps : describes D e ps -> length (centroid e) = D.
Proof. intros (_ & H & _). unfold centroid. rewrite map_length. auto. Qed.

(** spread around any point *)
Lemma spread_eq e ps c : describes D e ps -> has_dim ps -> length c = D -> (spread ps c == ssum e - 2 * dot (lsum e) c + numq e * dot c c)%Q.
Proof.
  intros He Hp Hc. unfold spread. transitivity (qsum (map (fun p => dot p p + ((- (2)) * dot c p + dot c c)) ps))%Q.
  - apply qsum_ext. intros p Hin. rewrite sqdist_dot by (rewrite Hp; auto). rewrite (dot_comm p c). ring.
  - rewrite (qsum_plus (fun p => dot p p) (fun p => (- (2)) * dot c p + dot c c)%Q). rewrite (qsum_plus (fun p => (- (2)) * dot c p)%Q (fun _ => dot c c)).
    rewrite qsum_scale, qsum_const, <- (describes_ss e ps), <- (describes_dot e ps c), <- (describes_num e ps) by auto. rewrite (dot_comm c). ring.
Qed.

Lemma radius_spec e ps : describes D e ps -> has_dim ps -> ps <> [] -> (numq e * radius_sq e == spread ps (centroid e))%Q.
Proof.
  intros He Hp Hne. pose proof (numq_pos _ _ He Hne). rewrite (spread_eq e ps) by (auto; eapply centroid_length; eauto). unfold radius_sq. field. lra.
Qed.

Lemma centroid_spec e ps : describes D e ps -> ps <> [] -> is_mean D ps (centroid e).
Proof.
  intros (H1 & H2 & H3 & H4) Hne. split; [unfold centroid; rewrite map_length; auto|]. intros d Hd. rewrite <- H3 by auto.
  unfold centroid, coord. assert (E : (nth d (map (fun x => x / numq e) (lsum e)) 0 == nth d (lsum e) 0 / numq e)%Q).
  { rewrite <- (map_nth (fun x => x / numq e)%Q (lsum e) 0%Q d). rewrite (nth_indep _ 0%Q (0 / numq e)%Q) by (rewrite map_length, H2; auto). reflexivity. }
  rewrite E. unfold numq. rewrite H1. assert (0 < inject_Z (Z.of_nat (length ps)))%Q by (change 0%Q with (inject_Z 0); rewrite <- Zlt_Qlt; destruct ps; [congruence|simpl; lia]). field. lra.
Qed.

Lemma diameter_spec e ps : describes D e ps -> has_dim ps -> (diameter_part e == cross ps ps)%Q.
Proof. intros He Hp. rewrite (cross_eq e ps e ps) by auto. unfold diameter_part. ring. Qed.

Lemma inter_spec a ps b qs : describes D a ps -> describes D b qs -> has_dim ps -> has_dim qs -> ps <> [] -> qs <> [] ->
  (numq a * numq b * inter_sq a b == cross ps qs)%Q.
Proof.
  intros Ha Hb Hp Hq N1 N2. pose proof (numq_pos _ _ Ha N1). pose proof (numq_pos _ _ Hb N2). rewrite (cross_eq a ps b qs) by auto. unfold inter_sq. field. split; lra.
Qed.

Lemma describes_fadd a ps b qs : describes D a ps -> describes D b qs -> describes D (fadd a b) (ps ++ qs).
Proof.
  intros (A1 & A2 & A3 & A4) (B1 & B2 & B3 & B4). unfold describes, fadd; cbn [num lsum ssum]. rewrite app_length. split; [lia|]. split; [apply padd_length; auto|]. split.
  - intros d Hd. rewrite (padd_coord D), map_app, qsum_app by auto. rewrite A3, B3 by auto. reflexivity.
  - rewrite map_app, qsum_app, A4, B4. reflexivity.
Qed.

Lemma numq_fadd a b : (numq (fadd a b) == numq a + numq b)%Q.
Proof. unfold numq, fadd; cbn [num]. rewrite Nat2Z.inj_add, inject_Z_plus. reflexivity. Qed.

Lemma intra_spec a ps b qs : describes D a ps -> describes D b qs -> has_dim ps -> has_dim qs -> ps <> [] -> qs <> [] ->
  ((numq a + numq b) * (numq a + numq b - 1) * intra_sq a b == cross (ps ++ qs) (ps ++ qs))%Q.
Proof.
  intros Ha Hb Hp Hq N1 N2. pose proof (numq_pos _ _ Ha N1) as P1. pose proof (numq_pos _ _ Hb N2) as P2.
  assert (Hpq : has_dim (ps ++ qs)) by (intros p Hin; apply in_app_iff in Hin as [Hin|Hin]; auto).
  pose proof (describes_fadd _ _ _ _ Ha Hb) as Hab. rewrite (cross_eq _ _ _ _ Hab Hab) by auto. rewrite !numq_fadd. cbn [fadd lsum ssum]. unfold intra_sq.
  assert (P3 : (1 <= numq a)%Q). { unfold numq in *. change 0%Q with (inject_Z 0) in P1. change 1%Q with (inject_Z 1). rewrite <- Zlt_Qlt in P1. rewrite <- Zle_Qle. lia. }
  assert (P4 : (1 <= numq b)%Q). { unfold numq in *. change 0%Q with (inject_Z 0) in P2. change 1%Q with (inject_Z 1). rewrite <- Zlt_Qlt in P2. rewrite <- Zle_Qle. lia. }
  field. split; lra.
Qed.

Lemma sse_eq e ps : describes D e ps -> has_dim ps -> ps <> [] -> (spread ps (centroid e) == ssum e - dot (lsum e) (lsum e) / numq e)%Q.
Proof.
  intros He Hp Hne. pose proof (numq_pos _ _ He Hne). rewrite (spread_eq e ps) by (auto; eapply centroid_length; eauto). unfold centroid. rewrite dot_scale.
  rewrite dot_scale. rewrite (dot_comm (map _ _)), dot_scale. field. lra.
Qed.

Lemma variance_spec a ps b qs : describes D a ps -> describes D b qs -> has_dim ps -> has_dim qs -> ps <> [] -> qs <> [] ->
  (variance_increase a b == spread (ps ++ qs) (centroid (fadd a b)) - spread ps (centroid a) - spread qs (centroid b))%Q.
Proof.
  intros Ha Hb Hp Hq N1 N2. pose proof (numq_pos _ _ Ha N1) as P1. pose proof (numq_pos _ _ Hb N2) as P2.
  assert (Hpq : has_dim (ps ++ qs)) by (intros p Hin; apply in_app_iff in Hin as [Hin|Hin]; auto).
  assert (N3 : ps ++ qs <> []) by (intros H; apply app_eq_nil in H; tauto).
  rewrite (sse_eq _ _ (describes_fadd _ _ _ _ Ha Hb) Hpq N3), (sse_eq a ps), (sse_eq b qs) by auto. rewrite numq_fadd. cbn [fadd lsum ssum]. unfold variance_increase. field. repeat split; lra.
Qed.

Lemma point_describes p : length p = D -> describes D (point_entry p) [p].
Proof.
  intros H. unfold describes, point_entry; cbn [num lsum ssum]. split; auto. split; [rewrite map_length; auto|]. split.
  - intros d Hd. simpl. unfold coord. rewrite (nth_indep _ 0%Q (0 + 0)%Q) by (rewrite map_length; lia). rewrite (map_nth (fun x => 0 + x)%Q). ring.
  - simpl. rewrite sqdist_origin by auto. ring.
Qed.

Lemma sums_describes e ps : has_dim ps -> sums D e (map point_entry ps) -> describes D e ps.
Proof.
  intros Hp (H1 & H2 & H3 & H4). assert (Hd : forall p, In p ps -> describes D (point_entry p) [p]) by (intros; apply point_describes; auto). split; [|split; auto; split].
  - rewrite H1, map_map. clear. induction ps; simpl; auto.
  - intros d Hdd. rewrite H3, map_map by auto. apply qsum_ext. intros p Hin. destruct (Hd p Hin) as (_ & _ & E & _). rewrite E by auto. simpl. ring.
  - rewrite H4, map_map. apply qsum_ext. intros p Hin. destruct (Hd p Hin) as (_ & _ & _ & E). rewrite E. simpl. ring.
Qed.
End Stats.

(** * Features of the tree *)
Lemma leaf_list_ids h : forall D b maxe t, good D b maxe h t -> map fst (leaf_list t) = leaf_ids t.
Proof.
  induction h as [|h IH]; intros D b maxe t G; inversion G; subst; cbn [leaf_list leaf_ids]; auto.
  rewrite <- !flat_map_concat_map || idtac. clear G H0 H2. induction kids as [|k ks IHk]; auto. inversion H1; subst. cbn [flat_map]. rewrite map_app, IHk by auto. f_equal. eapply IH; eauto.
Qed.
Lemma leaf_list_entries h : forall D b maxe t, good D b maxe h t -> flat_map snd (leaf_list t) = leaf_entries t.
Proof.
  induction h as [|h IH]; intros D b maxe t G; inversion G; subst; cbn [leaf_list leaf_entries]; [cbn; rewrite app_nil_r; auto|].
  clear G H0 H2. induction kids as [|k ks IHk]; auto. inversion H1; subst. cbn [flat_map]. rewrite flat_map_app, IHk by auto. f_equal. eapply IH; eauto.
Qed.
Lemma find_fst (ll : list (nat * list entry)) p : NoDup (map fst ll) -> In p ll -> find (fun q => fst q =? fst p) ll = Some p.
Proof.
  induction ll as [|q ll IH]; [simpl; tauto|]. intros Hn [->|Hin]; cbn [find]; [rewrite Nat.eqb_refl; auto|]. inversion Hn; subst.
  destruct (Nat.eqb_spec (fst q) (fst p)) as [E|_]; [|apply IH; auto]. exfalso. apply H1. rewrite E. apply in_map; auto.
Qed.
Lemma entries_of_ids t : NoDup (map fst (leaf_list t)) -> flat_map (entries_of t) (map fst (leaf_list t)) = flat_map snd (leaf_list t).
Proof.
  intros Hn. rewrite !flat_map_concat_map, map_map. f_equal. apply map_ext_in. intros p Hp. unfold entries_of. rewrite find_fst; auto.
Qed.

Lemma features_perm D b maxe h t r (Hr : root t = Some r) : good D b maxe h r -> Permutation (leafes (stats t)) (leaf_ids r) -> NoDup (leaf_ids r) ->
  Permutation (extract_features t) (leaf_entries r).
Proof.
  intros G P N. unfold extract_features. rewrite Hr. rewrite (Permutation_flat_map _ P).
  rewrite <- (leaf_list_ids _ _ _ _ _ G), entries_of_ids by (rewrite (leaf_list_ids _ _ _ _ _ G); auto). rewrite (leaf_list_entries _ _ _ _ _ G). auto.
Qed.

Lemma concat_eq_map {X Y} (f : X -> Y) gs : forall l, concat gs = map f l -> exists ls, gs = map (map f) ls /\ concat ls = l.
Proof.
  induction gs as [|g gs IH]; intros l H; simpl in H.
  - symmetry in H. apply map_eq_nil in H as ->. exists []. auto.
  - symmetry in H. apply map_eq_app in H as (l1 & l2 & -> & <- & H2). destruct (IH l2) as (ls & -> & <-); auto. exists (l1 :: ls). auto.
Qed.

(** every feature of the tree describes a group of the inserted points *)
Definition grouped (D : nat) (fs : list entry) (ps : list point) : Prop :=
  exists gs, Forall2 (describes D) fs gs /\ (forall g, In g gs -> g <> []) /\ Permutation (concat gs) ps.

Section BirchProofs.
Variable data : list point.
Variable D number : nat.
Variable m : measure.
Variable branch maxe limit : nat.
Variable mult : Q.
Hypothesis Hdim : uniform D data.
Hypothesis Hmax : 1 <= maxe.
Notation tok thr ps t := (tinv D branch maxe thr (map point_entry ps) t).

Lemma point_tags ps : flat_map tagl (map point_entry ps) = [].
Proof. induction ps; simpl; auto. Qed.

Lemma features_grouped thr ps t : uniform D ps -> ps <> [] -> tok thr ps t -> grouped D (extract_features t) ps.
Proof.
  intros Hu Hne I. destruct (root t) as [r|] eqn:Er.
  - destruct (t_tree _ _ _ _ _ _ I r Er) as (G & _ & _ & _ & Pl & Nl & _ & _ & (gs & Fg & Pg)).
    pose proof (features_perm _ _ _ _ t r Er G Pl Nl) as Pf. destruct (Forall2_perm (stands_for D thr) _ _ (Permutation_sym Pf) gs Fg) as (g' & P' & F').
    assert (Pc : Permutation (concat g') (map point_entry ps)) by (rewrite <- (concat_perm _ _ P'); auto).
    apply Permutation_map_inv in Pc as (l3 & E3 & P3). destruct (concat_eq_map _ _ _ E3) as (ls & -> & <-). exists ls. split; [|split; [|symmetry; auto]].
    + assert (Hu' : forall g, In g ls -> forall p, In p g -> length p = D).
      { intros g Hg p Hp. apply Hu. eapply Permutation_in; [symmetry; exact P3|]. apply in_concat. eauto. }
      clear - F' Hu'. revert F' Hu'. generalize (extract_features t). induction ls as [|g ls IH]; intros l F Hu'; inversion F as [|? ? ? ? Hs F']; subst; constructor.
      * apply sums_describes; [apply Hu'; left; auto|]. apply Hs.
      * apply IH; auto. intros; eapply Hu'; eauto. right; eauto.
    + clear - F'. intros g Hg. apply (in_map (map point_entry)) in Hg. revert F' Hg. generalize (extract_features t). generalize (map (map point_entry) ls). intros L. induction L as [|x L IH]; intros l F; [simpl; tauto|].
      inversion F as [|? ? ? ? Hs F']; subst. intros [->|H]; [destruct Hs as [Hs _]; intros ->; apply Hs; auto|eapply IH; eauto].
  - exfalso. apply (t_empty _ _ _ _ _ _ I) in Er. apply map_eq_nil in Er. auto.
Qed.

Lemma rebuild_spec index thr : match rebuild_tree data m branch maxe mult index thr with
  | Ok b => tok (fst b) (firstn (S index) data) (snd b) | Raise x => x = AttributeError end.
Proof.
  unfold rebuild_tree. set (inc := if Qeq_bool _ 0 then _ else _).
  pose proof (insert_all_spec D m branch maxe inc Hmax (map point_entry (firstn (S index) data)) empty_tree [] (tinv_empty _ _ _ _)) as H. cbn [app] in H.
  specialize (H ltac:(intros e He; apply in_map_iff in He as (p & <- & Hp); unfold point_entry; cbn [lsum]; rewrite map_length; apply Hdim; rewrite <- (firstn_skipn (S index) data); apply in_app_iff; auto)).
  rewrite point_tags in H. specialize (H ltac:(constructor)).
  destruct (insert_all _ _ _ _ _ _); cbn [bind]; auto.
Qed.

Lemma insert_data_spec rest : forall index b, skipn index data = rest -> tok (fst b) (firstn index data) (snd b) ->
  match insert_data data m branch maxe limit mult index rest b with
  | Ok b' => tok (fst b') data (snd b') | Raise x => x = AttributeError end.
Proof.
  induction rest as [|p rest IH]; intros index b E I; cbn [insert_data].
  - assert (firstn index data = data) as Ef by (rewrite <- (firstn_skipn index data) at 2; rewrite E, app_nil_r; auto). rewrite Ef in I. auto.
  - assert (Es : skipn (S index) data = rest) by (clear - E; revert E; generalize data; induction index; intros [|x l] E; simpl in *; try congruence; auto).
    assert (Ef : firstn (S index) data = firstn index data ++ [p]) by (clear - E; revert E; generalize data; induction index; intros [|x l] E; simpl in *; try congruence; f_equal; auto).
    assert (Hp : length p = D) by (apply Hdim; rewrite <- (firstn_skipn index data), E; apply in_app_iff; right; left; auto).
    pose proof (insert_spec D m branch maxe (fst b) Hmax (point_entry p) (snd b) _ I) as H.
    specialize (H ltac:(unfold point_entry; cbn [lsum]; rewrite map_length; auto)). change [point_entry p] with (map point_entry [p]) in H. rewrite <- map_app, <- Ef in H. rewrite point_tags in H. specialize (H ltac:(constructor)).
    unfold insert_point. destruct (insert _ _ _ _ _ _) as [t|x]; cbn [bind]; auto. destruct (limit <? _); [|apply IH; auto].
    pose proof (rebuild_spec index (fst b)) as R. destruct (rebuild_tree _ _ _ _ _ _ _) as [b'|x]; cbn [bind]; [apply IH; auto|auto].
Qed.

Lemma assign_spec cf labels K (lab : nat -> nat) : (forall k, k < length cf -> nth_error labels k = Some (Some (lab k)) /\ lab k < K) -> cf <> [] ->
  forall rest index cl, length cl = K -> skipn index data = rest ->
  assign cf labels index rest cl = Ok (fold_left (fun cl i => Kmeans_Model.push cl (lab (argmin (map (fun c => sqdist c (nth i data [])) cf))) i) (seq index (length rest)) cl).
Proof.
  intros Hl Hc. induction rest as [|p rest IH]; intros index cl Hk E; cbn [assign length seq fold_left]; auto.
  assert (Es : skipn (S index) data = rest) by (clear - E; revert E; generalize data; induction index; intros [|x l] E; simpl in *; try congruence; auto).
  assert (Ep : nth index data [] = p) by (clear - E; revert E; generalize data; induction index; intros [|x l] E; simpl in *; try congruence; auto).
  rewrite Ep. set (a := argmin _). assert (Ha : a < length cf).
  { unfold a. destruct (argmin_spec (map (fun c => sqdist c p) cf)) as [H _]; [destruct cf; [congruence|discriminate]|]. rewrite map_length in H. auto. }
  destruct (Hl a Ha) as [-> Hlt]. unfold Encoder_Model.push. rewrite <- Hk in Hlt. apply Nat.ltb_lt in Hlt. rewrite Hlt. cbn [bind].
  rewrite IH; [reflexivity| |exact Es]. rewrite upd_length. auto.
Qed.

Lemma sqdist_sym a : forall b, (sqdist a b == sqdist b a)%Q.
Proof. induction a as [|x a IH]; intros [|y b]; simpl; try reflexivity. rewrite IH. ring. Qed.

(** every point sits in the cluster of a nearest feature *)
Definition follows (cf : list point) (cf_cl cl : list (list nat)) : Prop :=
  forall i, i < length data -> exists k, nearest sqdist cf (nth i data []) k /\ forall c, In i (nth c cl []) <-> In k (nth c cf_cl []).

Theorem birch_spec diameter : data <> [] -> 1 <= number -> 1 <= limit ->
  match birch data number m branch maxe limit mult diameter with
  | Raise x => x = AttributeError /\ insert_data data m branch maxe limit mult 0 data (diameter, empty_tree) = Raise x
  | Ok b =>
      grouped D (features b) data /\
      partitions (length (features b)) (cf_clusters b) /\ no_empty (cf_clusters b) /\
      partitions (length data) (clusters b) /\
      length (clusters b) = Nat.min (length (features b)) number /\ length (cf_clusters b) = length (clusters b) /\
      follows (map centroid (features b)) (cf_clusters b) (clusters b)
  end.
Proof.
  intros Hne Hn Hlim. unfold birch. destruct data as [|p0 rest0] eqn:Ed; [congruence|]. rewrite <- Ed in *.
  destruct (Nat.eqb_spec number 0); [lia|]. destruct (Nat.eqb_spec limit 0); [lia|].
  pose proof (insert_data_spec data 0 (diameter, empty_tree) eq_refl (tinv_empty _ _ _ _)) as HI.
  destruct (insert_data data m branch maxe limit mult 0 data (diameter, empty_tree)) as [b|x]; cbn [bind]; auto.
  pose proof (features_grouped _ data (snd b) Hdim Hne HI) as HG. set (fs := extract_features (snd b)) in *. set (cf := map centroid fs).
  assert (Hfs : fs <> []).
  { destruct HG as (gs & F & _ & P). intros E. rewrite E in F. inversion F; subst. simpl in P. apply Permutation_nil in P. auto. }
  assert (Hcf : cf <> []) by (unfold cf; destruct fs; [congruence|discriminate]).
  assert (Hlcf : length cf = length fs) by apply map_length.
  assert (Hu : uniform D cf).
  { intros c Hc. apply in_map_iff in Hc as (f & <- & Hf). destruct HG as (gs & F & _ & _). clear - F Hf. induction F as [|a g fs gs Ha F IH]; [destruct Hf|]. destruct Hf as [->|Hf]; auto. unfold centroid. rewrite map_length. apply Ha. }
  assert (Hu' : uniform (dimension cf) cf).
  { intros c Hc. rewrite (Hu c Hc). unfold dimension. destruct cf as [|c0 t]; [congruence|]. simpl. symmetry. apply Hu. left. auto. }
  destruct (agglomerative_spec cf SingleLink number Hcf Hu' Hn) as (a & Ea & Pa & Na & La & _). rewrite Ea. cbn [bind].
  assert (Hcl : Encoder_Proofs.clustering (length cf) (Aggl_Model.clusters a)).
  { split; [eapply Permutation_NoDup; [symmetry; exact Pa|apply seq_NoDup]|]. apply Forall_forall. intros i Hi. eapply Permutation_in in Hi; [|exact Pa]. apply in_seq in Hi. lia. }
  destruct (index_to_label_spec cf _ Hcl) as (labels & El & Ll & Dl). rewrite El. cbn [bind].
  set (lab := fun k => match nth_error labels k with Some (Some c) => c | _ => 0 end).
  assert (Hlab : forall k, k < length cf -> nth_error labels k = Some (Some (lab k)) /\ lab k < length (Aggl_Model.clusters a)).
  { intros k Hk. assert (Hin : In k (concat (Aggl_Model.clusters a))) by (eapply Permutation_in; [symmetry; exact Pa|apply in_seq; lia]).
    apply in_concat in Hin as (g & Hg & Hin). apply In_nth_error in Hg as [c Hg]. assert (Ek : nth_error labels k = Some (Some c)) by (apply Dl; auto; eauto).
    unfold lab. rewrite Ek. split; auto. apply nth_error_Some. congruence. }
  rewrite (assign_spec cf labels (length (Aggl_Model.clusters a)) lab Hlab Hcf data 0 _ (repeat_length _ _) eq_refl). cbn [bind features cf_clusters clusters].
  set (lb := fun i => lab (argmin (map (fun c => sqdist c (nth i data [])) cf))).
  pose proof (push_groups lb (length data) (length (Aggl_Model.clusters a))) as EG. unfold lb in EG at 1. cbv beta in EG. rewrite EG. clear EG.
  assert (Har : forall i, argmin (map (fun c => sqdist c (nth i data [])) cf) < length cf).
  { intros i. destruct (argmin_spec (map (fun c => sqdist c (nth i data [])) cf)) as [H _]; [destruct cf; [congruence|discriminate]|]. rewrite map_length in H. auto. }
  split; [exact HG|]. rewrite <- Hlcf. split; [exact Pa|]. split; [exact Na|].
  split; [|split; [|split]].
  - unfold partitions, groups_of. apply filter_label_perm. intros i _. apply Hlab. apply Har.
  - unfold groups_of. rewrite map_length, seq_length. exact La.
  - unfold groups_of. rewrite map_length, seq_length. reflexivity.
  - intros i Hi. exists (argmin (map (fun c => sqdist c (nth i data [])) cf)). split.
    + split; [apply Har|]. intros j Hj. destruct (argmin_spec (map (fun c => sqdist c (nth i data [])) cf)) as [_ H]; [destruct cf; [congruence|discriminate]|].
      specialize (H j ltac:(rewrite map_length; auto)). rewrite (nth_indep _ 0%Q (sqdist [] (nth i data []))) in H by (rewrite map_length; apply Har).
      rewrite (nth_indep _ 0%Q (sqdist [] (nth i data [])) (n := j)) in H by (rewrite map_length; auto).
      rewrite !(map_nth (fun c => sqdist c (nth i data []))) in H. fold cf. rewrite (sqdist_sym (nth i data [])), (sqdist_sym (nth i data []) (nth j cf [])). exact H.
    + intros c. set (k := argmin _). pose proof (Har i) as Hk. fold k in Hk. destruct (Hlab k Hk) as [Ek Hlt]. destruct (Nat.lt_ge_cases c (length (Aggl_Model.clusters a))) as [Hc|Hc].
      * unfold groups_of. rewrite nth_map_seq0 by auto. rewrite filter_In, in_seq, Nat.eqb_eq. unfold lb. fold k. split.
        -- intros [_ E]. rewrite E in Ek. apply (Dl k c Hk) in Ek as (g & Eg & Hg). rewrite (nth_error_nth _ _ _ Eg). exact Hg.
        -- intros Hin. split; [lia|]. destruct (nth_error (Aggl_Model.clusters a) c) as [g|] eqn:Eg; [|apply nth_error_None in Eg; lia].
           rewrite (nth_error_nth _ _ _ Eg) in Hin. assert (Ek' : nth_error labels k = Some (Some c)) by (apply Dl; eauto). congruence.
      * rewrite !nth_overflow by (try (unfold groups_of; rewrite map_length, seq_length); lia). reflexivity.
Qed.
End BirchProofs.
