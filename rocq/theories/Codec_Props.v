(** C45 *)
From Verif Require Import Base Codec_Model Codec_Proofs.

(** whatever is packed without an error comes back equal, for every requested C type *)
Theorem C45_codec_round_trip cd v p :
  create_package cd v = Ok p -> in_range (pack_type cd) v ->
  exists v', extract p = Ok v' /\ veq v v'.
Proof. intros H1 H2. exact (codec_sound cd v p H1 H2). Qed.
Print Assumptions C45_codec_round_trip.

(** and every uniform nested list can be packed *)
Theorem C45_codec_total v : uniform v -> exists p, create_package None v = Ok p.
Proof. exact (codec_total v). Qed.
Print Assumptions C45_codec_total.

(** numbers outside of the C type are silently changed *)
Theorem C45_codec_overflow_refuted :
  exists v p v', uniform v /\ create_package None v = Ok p /\ extract p = Ok v' /\ ~ veq v v'.
Proof.
  exists (VList [VInt (2 ^ 63)]), (Package 1 TLong [CellInt (- 2 ^ 63)] []), (VList [VInt (- 2 ^ 63)]).
  split; [exact (un_ints [(2 ^ 63)%Z])|]. split; [reflexivity|]. split; [reflexivity|].
  intros H. inversion H as [| | |l l' H1]; subst. inversion H1 as [|? ? ? ? H2]; subst. inversion H2.
Qed.
Print Assumptions C45_codec_overflow_refuted.

(** a list that mixes an int first with floats is refused, not truncated *)
Theorem C45_mixed_refused z q t : create_package None (VList (VInt z :: VFloat q :: t)) = Raise TypeError.
Proof. reflexivity. Qed.
Print Assumptions C45_mixed_refused.

Example C45_case :
  let v := VList [VList []; VList [VInt 1; VInt (-5)]; VList [VFloat (1#2); VInt 3]; VList [VList [VInt 7]]] in
  exists p, create_package None v = Ok p /\ in_range (pack_type None) v /\
    extract p = Ok (VList [VList []; VList [VInt 1; VInt (-5)]; VList [VFloat (1#2); VFloat 3]; VList [VList [VInt 7]]]).
Proof.
  eexists. split; [reflexivity|]. split; [|reflexivity].
  repeat (constructor || (unfold fits, pack_type; lia)).
Qed.
