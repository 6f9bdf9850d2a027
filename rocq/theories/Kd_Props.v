(** C01-C04: kd-tree properties for every construction followed by every call history. *)
From Verif Require Import Base Search_Model Kd_Model Kd_Proofs.

(** C01: lookups are exact after every history. *)
Theorem C01_kdtree_lookup_exact :
  forall (P : Type) (pleq : P -> P -> bool) (D : nat), 0 < D ->
  forall (init : option (list (item P))) (ops : list (op P)),
    init_ok D init -> Forall (op_dim D) ops ->
  exists (k : kdt P) (l : list (item P)),
    (do k <- start init; run pleq k ops) = Ok k /\ mrun pleq (init_items init) ops l /\
    (forall p, match find_node k p with
               | Some x => In x l /\ peq (pt x) p
               | None => forall x, In x l -> ~ peq (pt x) p
               end) /\
    (forall p q, match find_node_with_payload pleq k p q with
               | Some x => In x l /\ peq (pt x) p /\ pleq (pl x) q = true
               | None => forall x, In x l -> ~ (peq (pt x) p /\ pleq (pl x) q = true)
               end).
Proof.
  exact (fun P pleq D HD init ops Hi Ho =>
    match history_good pleq D HD init ops Hi Ho with
    | ex_intro _ k (ex_intro _ l (conj E (conj M G))) =>
      ex_intro _ k (ex_intro _ l (conj E (conj M
        (conj (fun p => good_find D k l p G) (fun p q => good_find_payload pleq D k l p q G)))))
    end).
Qed.
Print Assumptions C01_kdtree_lookup_exact.

(** C02: the range query returns exactly the stored elements of the closed ball, each once, with
    its squared distance. *)
Theorem C02_kdtree_range_exact :
  forall (P : Type) (pleq : P -> P -> bool) (D : nat), 0 < D ->
  forall (init : option (list (item P))) (ops : list (op P)),
    init_ok D init -> Forall (op_dim D) ops ->
  exists (k : kdt P) (l : list (item P)),
    (do k <- start init; run pleq k ops) = Ok k /\ mrun pleq (init_items init) ops l /\
    forall p distance, length p = D -> (0 <= distance)%Q ->
      Permutation (find_nearest_dist_nodes k p distance)
        (map (fun x => (sqdist p (pt x), x))
             (filter (fun x => Qle_bool (sqdist p (pt x)) (distance * distance)) l)).
Proof.
  exact (fun P pleq D HD init ops Hi Ho =>
    match history_good pleq D HD init ops Hi Ho with
    | ex_intro _ k (ex_intro _ l (conj E (conj M G))) =>
      ex_intro _ k (ex_intro _ l (conj E (conj M
        (fun p dist Hp Hd => good_range D HD k l p dist G Hp Hd))))
    end).
Qed.
Print Assumptions C02_kdtree_range_exact.

(** C03: nearest stored element within a distance. *)
Theorem C03_kdtree_nearest_exact :
  forall (P : Type) (pleq : P -> P -> bool) (D : nat), 0 < D ->
  forall (init : option (list (item P))) (ops : list (op P)),
    init_ok D init -> Forall (op_dim D) ops ->
  exists (k : kdt P) (l : list (item P)),
    (do k <- start init; run pleq k ops) = Ok k /\ mrun pleq (init_items init) ops l /\
    forall p distance, length p = D -> (0 <= distance)%Q ->
      match find_nearest_dist_node k p distance with
      | Some (c, x) => c = sqdist p (pt x) /\ In x l /\ (c <= distance * distance)%Q /\
                       (forall y, In y l -> c <= sqdist p (pt y))%Q
      | None => forall y, In y l -> (distance * distance < sqdist p (pt y))%Q
      end.
Proof.
  exact (fun P pleq D HD init ops Hi Ho =>
    match history_good pleq D HD init ops Hi Ho with
    | ex_intro _ k (ex_intro _ l (conj E (conj M G))) =>
      ex_intro _ k (ex_intro _ l (conj E (conj M
        (fun p dist Hp Hd => good_nearest D HD k l p dist G Hp Hd))))
    end).
Qed.
Print Assumptions C03_kdtree_nearest_exact.

(** C04: insert / remove have the multiset effect and the length is right. *)
Theorem C04_kdtree_multiset :
  forall (P : Type) (pleq : P -> P -> bool) (D : nat), 0 < D ->
  forall (init : option (list (item P))) (ops : list (op P)),
    init_ok D init -> Forall (op_dim D) ops ->
  exists (k : kdt P) (l : list (item P)),
    (do k <- start init; run pleq k ops) = Ok k /\ mrun pleq (init_items init) ops l /\
    Permutation (elements (root k)) l /\ len k = Z.of_nat (length l).
Proof.
  exact (fun P pleq D HD init ops Hi Ho =>
    match history_good pleq D HD init ops Hi Ho with
    | ex_intro _ k (ex_intro _ l (conj E (conj M (conj _ (conj _ (conj Hp Hl)))))) =>
      ex_intro _ k (ex_intro _ l (conj E (conj M (conj Hp Hl))))
    end).
Qed.
Print Assumptions C04_kdtree_multiset.

(** A concrete history with duplicates and ties meeting the hypotheses. *)
Definition ex_it (x y : Z) (n : nat) : item nat := mkItem [inject_Z x; inject_Z y] n.
Definition ex_init : option (list (item nat)) :=
  Some [ex_it 1 2 0; ex_it 1 2 1; ex_it 1 5 2; ex_it 4 2 3; ex_it 0 0 4; ex_it 1 7 5].
Definition ex_ops : list (op nat) :=
  [OInsert (ex_it 1 2 6); ORemove [1%Q; 2%Q]; ORemovePayload [1%Q; 2%Q] 6; ORemove [9%Q; 9%Q];
   OInsert (ex_it 0 3 7)].

Example C01_C04_nonvacuous :
  init_ok 2 ex_init /\ Forall (op_dim 2) ex_ops /\
  match (do k <- start ex_init; run Nat.eqb k ex_ops) with
  | Ok k => len k = 6%Z /\ option_map pl (find_node k [1%Q; 7%Q]) = Some 5 /\
            find_node_with_payload Nat.eqb k [1%Q; 2%Q] 6 = None /\
            length (find_nearest_dist_nodes k [0%Q; 3%Q] 2) = 2 /\
            option_map (fun c => pl (snd c)) (find_nearest_dist_node k [0%Q; 3%Q] 2) = Some 7
  | Raise _ => False
  end.
Proof.
  split; [|split].
  - split; [congruence|]. repeat constructor.
  - repeat constructor.
  - vm_compute. repeat split; reflexivity.
Qed.
