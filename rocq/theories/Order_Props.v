(** C62: order parameters *)
From Verif Require Import Base Order_Model Order_Proofs.
From Coq Require Import Reals Lra.
Open Scope R_scope.

Theorem C62_sync_order_in_unit phases : phases <> [] -> (exists p, In p phases /\ p <> 0) ->
  exists r, calculate_sync_order phases = Ok r /\ 0 <= r <= 1.
Proof. exact (sync_order_range phases). Qed.
Print Assumptions C62_sync_order_in_unit.

Theorem C62_sync_order_one phases c : phases <> [] -> c <> 0 -> (forall p, In p phases -> p = c) ->
  calculate_sync_order phases = Ok 1.
Proof. exact (sync_order_equal phases c). Qed.
Print Assumptions C62_sync_order_one.

(** the order of a network synchronised in phase 0 is not 1: the computation fails *)
Theorem C62_sync_order_zero n :
  calculate_sync_order (repeat 0 n) = Raise ZeroDivisionError.
Proof. apply sync_order_zero. intros p Hp. apply repeat_spec in Hp. auto. Qed.
Print Assumptions C62_sync_order_zero.
Theorem C62_sync_order_zero_refuted : exists phases, (2 <= length phases)%nat /\ calculate_sync_order phases = Raise ZeroDivisionError.
Proof. exists (repeat 0 2). split; [cbn; lia|apply C62_sync_order_zero]. Qed.
Print Assumptions C62_sync_order_zero_refuted.


Theorem C62_local_order_in_unit phases n conn : (exists i j, (i < n)%nat /\ (j < n)%nat /\ conn i j = true) ->
  0 < calculate_local_sync_order phases n conn <= 1 /\
  (calculate_local_sync_order phases n conn = 1 <->
   forall i j, (i < n)%nat -> (j < n)%nat -> conn i j = true -> nth i phases 0 = nth j phases 0).
Proof. exact (local_order_range phases n conn). Qed.
Print Assumptions C62_local_order_in_unit.

Theorem C62_correlation_matrix state i j : (i < length state)%nat -> (j < length state)%nat ->
  let c := fun a b => nth b (nth a (correlation_matrix state) []) 0 in
  c i j = c j i /\ c i i = 0 /\ 0 <= c i j <= 1.
Proof. exact (correlation_spec state i j). Qed.
Print Assumptions C62_correlation_matrix.

Example C62_case : exists r, calculate_sync_order [0; 1; 2] = Ok r /\ 0 <= r <= 1.
Proof. apply C62_sync_order_in_unit; [discriminate|]. exists 1. split; [simpl; auto|lra]. Qed.
