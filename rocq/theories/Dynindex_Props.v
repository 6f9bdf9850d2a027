(** C271: indexing of output dynamics. *)
From Coq Require Import String.
From Verif Require Import Base Dynindex_Model.

(** index 0 is the time, index 1 the output, every other index is refused *)
Theorem C271_value {T} (time output : T) i : match i with IInt 0 => getitem time output i = Ok time | IInt 1 => getitem time output i = Ok output | _ => exists e, getitem time output i = Raise e end.
Proof. destruct i as [[|[p|p|]|p]|s]; cbn; eauto. Qed.
Print Assumptions C271_value.
(** the refusal is the announced exception for a string only *)
Theorem C271_string {T} (time output : T) s : getitem time output (IStr s) = Raise NameError.
Proof. reflexivity. Qed.
Print Assumptions C271_string.
Theorem C271_integer {T} (time output : T) z : (z <> 0)%Z -> (z <> 1)%Z -> getitem time output (IInt z) = Raise TypeError.
Proof. intros H0 H1. destruct z as [|[p|p|]|p]; cbn; try reflexivity; congruence. Qed.
Print Assumptions C271_integer.
Theorem C271_kind_refuted : exists z, (z <> 0)%Z /\ (z <> 1)%Z /\ forall (T : Type) (time output : T), getitem time output (IInt z) <> Raise NameError.
Proof. exists 2%Z. split; [lia|]. split; [lia|]. intros T time output. rewrite C271_integer by lia. discriminate. Qed.
Print Assumptions C271_kind_refuted.

(** a dynamic cannot be unpacked, whatever the number of targets *)
Theorem C271_unpack {T} (time output : T) n : exists e, unpack (getitem time output) n = Raise e.
Proof. destruct n as [|[|[|n]]]; cbn; eauto. Qed.
Print Assumptions C271_unpack.
(** in particular not into time and output, which its two indexes suggest *)
Theorem C271_pair_refuted : exists (T : Type) (time output : T), unpack (getitem time output) 2 = Raise TypeError /\ unpack (getitem time output) 2 <> Ok [time; output].
Proof. exists nat, 3%nat, 4%nat. split; [reflexivity|discriminate]. Qed.
Print Assumptions C271_pair_refuted.
(** the exception is the only obstacle: with IndexError, which python's protocol expects, it would unpack into the two *)
Theorem C271_protocol {T} (time output : T) (get : index -> res T) : get (IInt 0) = Ok time -> get (IInt 1) = Ok output -> get (IInt 2) = Raise IndexError -> unpack get 2 = Ok [time; output].
Proof. intros H0 H1 H2. unfold unpack. cbn [unpack_from next_value]. unfold next_value. cbn. now rewrite H0, H1, H2. Qed.
Print Assumptions C271_protocol.

Example C271_example : getitem [0; 1] [5; 6] (IInt 0) = Ok [0; 1] /\ getitem [0; 1] [5; 6] (IInt 1) = Ok [5; 6] /\ getitem [0; 1] [5; 6] (IInt (-1)) = Raise TypeError.
Proof. repeat split. Qed.
