(** C53: the property theorems about linear sequences. *)
From Coq Require Import ZArith Lia.
From Verif.Base Require Import Outcome.
From Verif.Linear Require Import Model Proofs.
Local Open Scope Z_scope.

(** C53.  Element [i] is start + i * step whenever that is a value of [T] and, if the product is
    computed in a signed type, the product does not overflow it.  In particular a negative step works
    with an unsigned index type. *)
Theorem linear_sequence_element_partial :
  forall (t ix : ity) (start step i : Z),
    valid t -> valid ix ->
    fits t start = true -> fits t step = true -> fits ix i = true ->
    fits t (start + i * step) = true ->
    (signed (common ix t) = true -> fits (common ix t) (i * step) = true) ->
    linear_at t ix start step i = Ok (start + i * step).
Proof. exact linear_at_exact. Qed.
Print Assumptions linear_sequence_element_partial.

(** Without the condition on the product the property is false: start + i * step may be a value of
    [T] although i * step overflows. *)
Theorem linear_sequence_element_refuted :
  exists (t ix : ity) (start step i : Z),
    valid t /\ valid ix /\ fits t start = true /\ fits t step = true /\ fits ix i = true /\
    fits t (start + i * step) = true /\ linear_at t ix start step i = UB.
Proof.
  exists (Ity true 32), (Ity true 32), 2147483647, (-2), 2147483647.
  unfold valid. cbn [width]. repeat split; auto.
Qed.
Print Assumptions linear_sequence_element_refuted.

Example linear_example :
  linear_at (Ity true 32) (Ity false 64) 5 (-3) 4 = Ok (-7) /\
  linear_at (Ity false 8) (Ity true 16) 250 (1) (-3) = Ok 247.
Proof. split; reflexivity. Qed.
