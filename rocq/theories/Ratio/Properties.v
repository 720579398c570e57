(** C32: ratio arithmetic. *)
From Coq Require Import ZArith Lia.
From Verif.Linear Require Import Model.
From Verif.Ratio Require Import Model Spec Proofs.
Local Open Scope Z_scope.

(** [ratio<Num, Den>] has the value of Num / Den and is in lowest terms. *)
Theorem ratio_in_lowest_terms t n d :
  plain t -> small t n -> small t d -> d <> 0 ->
  exists n' d', ratio (TV t n) (TV t d) = Some (TV t n', TV t d') /\ n' * d = d' * n /\ lowest_terms n' d'.
Proof. exact (ratio_lowest t n d). Qed.
Print Assumptions ratio_in_lowest_terms.

Example ratio_in_lowest_terms_ex :
  ratio (TV (Ity true 32) (-6)) (TV (Ity true 32) 4) = Some (TV (Ity true 32) (-3), TV (Ity true 32) 2).
Proof. reflexivity. Qed.

(** Without conversion to floating point the product is exact and in lowest terms, and it is refused
    precisely if the exact numerator or denominator is not representable. *)
Theorem ratio_multiply_exact_or_refused t n1 d1 n2 d2 :
  plain t -> small t n1 -> small t d1 -> small t n2 -> small t d2 -> d1 <> 0 -> d2 <> 0 -> n1 <> 0 ->
  match ratio_multiply false (TV t n1) (TV t d1) (TV t n2) (TV t d2) with
  | Some (n, d) => exists n' d', n = RInt (TV t n') /\ d = RInt (TV t d') /\
      small t n' /\ small t d' /\ exact_product n1 d1 n2 d2 n' d' /\ lowest_terms n' d'
  | None => forall n' d', exact_product n1 d1 n2 d2 n' d' -> lowest_terms n' d' ->
      hi t < Z.abs n' \/ hi t < Z.abs d'
  end.
Proof. exact (multiply_strict t n1 d1 n2 d2). Qed.
Print Assumptions ratio_multiply_exact_or_refused.

(** The intermediate products would overflow here; the result is -10^9 / 3. *)
Example ratio_multiply_ex :
  let t := Ity true 32 in
  ratio_multiply false (TV t 2000000000) (TV t 9) (TV t (-6)) (TV t 4) =
    Some (RInt (TV t (-1000000000)), RInt (TV t 3)) /\
  ratio_multiply false (TV t 2000000000) (TV t 9) (TV t 6) (TV t 1) = None.
Proof. vm_compute. split; reflexivity. Qed.

Theorem ratio_divide_exact_or_refused t n1 d1 n2 d2 :
  plain t -> small t n1 -> small t d1 -> small t n2 -> small t d2 ->
  d1 <> 0 -> d2 <> 0 -> n1 <> 0 -> n2 <> 0 ->
  match ratio_divide false (TV t n1) (TV t d1) (TV t n2) (TV t d2) with
  | Some (n, d) => exists n' d', n = RInt (TV t n') /\ d = RInt (TV t d') /\
      small t n' /\ small t d' /\ exact_quotient n1 d1 n2 d2 n' d' /\ lowest_terms n' d'
  | None => forall n' d', exact_quotient n1 d1 n2 d2 n' d' -> lowest_terms n' d' ->
      hi t < Z.abs n' \/ hi t < Z.abs d'
  end.
Proof. exact (divide_strict t n1 d1 n2 d2). Qed.
Print Assumptions ratio_divide_exact_or_refused.

Example ratio_divide_ex :
  let t := Ity true 32 in
  ratio_divide false (TV t 3) (TV t 4) (TV t 9) (TV t 8) = Some (RInt (TV t 2), RInt (TV t 3)).
Proof. vm_compute. reflexivity. Qed.

(** With conversion to floating point allowed and positive arguments the product is always accepted:
    in the type of the arguments if the exact result fits, in an integral type if it fits in
    [std::intmax_t], and [long double] only for a part that does not. *)
Theorem ratio_multiply_relaxed t n1 d1 n2 d2 :
  plain t -> 0 < n1 <= hi t -> 0 < d1 <= hi t -> 0 < n2 <= hi t -> 0 < d2 <= hi t ->
  exists n d, exact_product n1 d1 n2 d2 n d /\ lowest_terms n d /\ 0 < n /\ 0 < d /\
    exists n' d', ratio_multiply true (TV t n1) (TV t d1) (TV t n2) (TV t d2) = Some (n', d') /\
      (n <= hi t -> d <= hi t -> n' = RInt (TV t n) /\ d' = RInt (TV t d)) /\
      (n <= hi intmax -> d <= hi intmax -> exists u, plain u /\ n' = RInt (TV u n) /\ d' = RInt (TV u d)) /\
      (hi intmax < n -> n' = RFloat) /\ (hi intmax < d -> d' = RFloat).
Proof. exact (multiply_relaxed t n1 d1 n2 d2). Qed.
Print Assumptions ratio_multiply_relaxed.

Example ratio_multiply_relaxed_ex :
  let t := Ity true 32 in
  ratio_multiply true (TV t 2000000000) (TV t 9) (TV t 6) (TV t 1) =
  Some (RInt (TV intmax 4000000000), RInt (TV intmax 3)).
Proof. vm_compute. reflexivity. Qed.

(** ** Where the claim fails *)

(** A zero numerator on the left is refused although the product 0 is representable, unless the other
    numerator happens to reduce to 1: the overflow test divides by it. *)
Theorem ratio_multiply_zero_refuted :
  exists t n1 d1 n2 d2, plain t /\ small t n1 /\ small t d1 /\ small t n2 /\ small t d2 /\ d1 <> 0 /\ d2 <> 0 /\
    exact_product n1 d1 n2 d2 0 1 /\
    ratio_multiply false (TV t n1) (TV t d1) (TV t n2) (TV t d2) = None.
Proof.
  exists (Ity true 32), 0, 1, 2, 3. repeat split; try (vm_compute; reflexivity || discriminate || (left; reflexivity)).
Qed.
Print Assumptions ratio_multiply_zero_refuted.

(** A representable negative product becomes floating point when conversion is merely allowed. *)
Theorem ratio_multiply_relaxed_negative_refuted :
  exists t n1 d1 n2 d2 n, plain t /\ small t n1 /\ small t d1 /\ small t n2 /\ small t d2 /\ d1 <> 0 /\ d2 <> 0 /\
    small t n /\ exact_product n1 d1 n2 d2 n 1 /\
    ratio_multiply true (TV t n1) (TV t d1) (TV t n2) (TV t d2) = Some (RFloat, RInt (TV t 1)).
Proof.
  exists (Ity true 32), (-2), 1, 3, 1, (-6).
  repeat split; try (vm_compute; reflexivity || discriminate || (left; reflexivity)).
Qed.
Print Assumptions ratio_multiply_relaxed_negative_refuted.

(** An overflowing negative product is not noticed, so it is refused although conversion is allowed. *)
Theorem ratio_multiply_relaxed_total_refuted :
  exists t n1 d1 n2 d2, plain t /\ small t n1 /\ small t d1 /\ small t n2 /\ small t d2 /\
    n1 <> 0 /\ d1 <> 0 /\ n2 <> 0 /\ d2 <> 0 /\
    ratio_multiply true (TV t n1) (TV t d1) (TV t n2) (TV t d2) = None.
Proof.
  exists (Ity true 32), 3, 1, (-2000000000), 1.
  repeat split; try (vm_compute; reflexivity || discriminate || (left; reflexivity)).
Qed.
Print Assumptions ratio_multiply_relaxed_total_refuted.

(** Unsigned products wrap silently: 2^16 * 2^16 = 0. *)
Theorem ratio_multiply_unsigned_refuted :
  exists t n1 d1 n2 d2 n d, signed t = false /\ width t = 32 /\
    fits t n1 = true /\ fits t d1 = true /\ fits t n2 = true /\ fits t d2 = true /\ d1 <> 0 /\ d2 <> 0 /\
    ratio_multiply false (TV t n1) (TV t d1) (TV t n2) (TV t d2) = Some (RInt (TV t n), RInt (TV t d)) /\
    ~ exact_product n1 d1 n2 d2 n d.
Proof.
  exists (Ity false 32), 65536, 1, 65536, 1, 0, 1.
  repeat split; try (vm_compute; reflexivity || discriminate || (left; reflexivity)).
Qed.
Print Assumptions ratio_multiply_unsigned_refuted.

(** A negative numerator over an unsigned denominator loses its value: ratio<-2, 4u>. *)
Theorem ratio_mixed_signedness_refuted :
  exists n d n' d', fits (Ity true 32) n = true /\ fits (Ity false 32) d = true /\ d <> 0 /\
    ratio (TV (Ity true 32) n) (TV (Ity false 32) d) = Some (n', d') /\ val n' * d <> val d' * n.
Proof.
  exists (-2), 4, (TV (Ity false 32) 2147483647), (TV (Ity false 32) 2).
  repeat split; try (vm_compute; reflexivity || discriminate).
Qed.
Print Assumptions ratio_mixed_signedness_refuted.

(** Division by zero is accepted. *)
Theorem ratio_divide_by_zero_refuted :
  exists t n1 d1 d2 n, plain t /\ d1 <> 0 /\ d2 <> 0 /\
    ratio_divide false (TV t n1) (TV t d1) (TV t 0) (TV t d2) = Some (RInt (TV t n), RInt (TV t 0)).
Proof.
  exists (Ity true 32), 5, 1, 1, 1. repeat split; try (vm_compute; reflexivity || discriminate || (left; reflexivity)).
Qed.
Print Assumptions ratio_divide_by_zero_refuted.
