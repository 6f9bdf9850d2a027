(** C223: where the objects and the neurons are drawn. *)
From Verif Require Import Base Som_Model Som_Props Sompic_Model Sompic_Props.
Open Scope nat_scope.

(** a point of a line at height 0, any other point where it is *)
Definition seen_at (p : point) : point := match p with [x] => [x; 0%Q] | _ => p end.
Lemma place_seen d p : 1 <= d <= 3 -> length p = d -> place d p = seen_at p.
Proof. intros Hd L. destruct d as [|[|[|[|d]]]]; try lia; destruct p as [|x [|y [|z [|? ?]]]]; try discriminate L; reflexivity. Qed.
Theorem C223_places : forall awards belongs coupling dimension o points,
  shown_in dimension o -> o_data o = Set_ (Some points) -> (forall x, In x points -> length x = dimension) ->
  exists picture, show_network awards belongs coupling true o = Ok picture /\
    filter is_mark picture =
    map (fun x => Mark (seen_at x) Blue) points ++
    map (fun i => Mark (seen_at (nth i (s_weights (o_state o)) [])) (if nth i (s_award (o_state o)) 0 =? 0 then Yellow else Green)) (seq 0 (o_rows o * o_cols o)).
Proof.
  intros awards belongs coupling dimension o points Hs Hd Hp. destruct (C223_marks awards belongs coupling dimension o points Hs Hd) as (picture & E & F). exists picture. split; [exact E|]. rewrite F.
  destruct Hs as (D & _ & L & W). f_equal; apply map_ext_in.
  - intros x Hx. rewrite (place_seen dimension x D (Hp x Hx)). reflexivity.
  - intros i Hi. apply in_seq in Hi. rewrite place_seen with (d := dimension); [reflexivity|exact D|]. apply W, nth_In. lia.
Qed.
Print Assumptions C223_places.
Example C223_places_case : shown_in 2 trained /\ o_data trained = Set_ (Some case_data) /\ (forall x, In x case_data -> length x = 2).
Proof. split; [exact trained_shown|]. split; [vm_compute; reflexivity|]. intros x H. cbn in H. repeat (destruct H as [<-|H]; [reflexivity|]). contradiction. Qed.
