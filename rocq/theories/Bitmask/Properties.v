(** C51: bitmasks. *)
From Coq Require Import ZArith.
From Verif.Linear Require Import Model.
From Verif.Bitmask Require Import Model Spec Proofs.
Local Open Scope Z_scope.

(** The operators are union, intersection, symmetric difference and complement of sets of flags. *)
Theorem bitmask_operators_on_flags t a b : cpp_type t -> is_value t a -> is_value t b ->
  (is_value t (bm_or t a b) /\ forall i, is_flag t i -> has_flag (bm_or t a b) i <-> has_flag a i \/ has_flag b i) /\
  (is_value t (bm_and t a b) /\ forall i, is_flag t i -> has_flag (bm_and t a b) i <-> has_flag a i /\ has_flag b i) /\
  (is_value t (bm_xor t a b) /\ forall i, is_flag t i ->
     has_flag (bm_xor t a b) i <-> (has_flag a i /\ ~ has_flag b i) \/ (~ has_flag a i /\ has_flag b i)) /\
  (is_value t (bm_not t a) /\ forall i, is_flag t i -> has_flag (bm_not t a) i <-> ~ has_flag a i).
Proof. exact (op_flags t a b). Qed.
Print Assumptions bitmask_operators_on_flags.

(** Hence the laws of boolean algebra hold. *)
Theorem bitmask_boolean_algebra t a b c : cpp_type t -> is_value t a -> is_value t b -> is_value t c ->
  let none := 0 in let all := bm_not t 0 in
  (bm_or t a b = bm_or t b a /\ bm_and t a b = bm_and t b a) /\
  (bm_or t a (bm_or t b c) = bm_or t (bm_or t a b) c /\ bm_and t a (bm_and t b c) = bm_and t (bm_and t a b) c) /\
  (bm_or t a (bm_and t a b) = a /\ bm_and t a (bm_or t a b) = a) /\
  (bm_and t a (bm_or t b c) = bm_or t (bm_and t a b) (bm_and t a c) /\
   bm_or t a (bm_and t b c) = bm_and t (bm_or t a b) (bm_or t a c)) /\
  (bm_or t a (bm_not t a) = all /\ bm_and t a (bm_not t a) = none) /\
  (bm_or t a none = a /\ bm_and t a all = a) /\
  bm_not t (bm_not t a) = a /\
  bm_xor t a b = bm_or t (bm_and t a (bm_not t b)) (bm_and t (bm_not t a) b) /\
  bm_xor t (bm_xor t a b) b = a.
Proof. exact (boolean_algebra t a b c). Qed.
Print Assumptions bitmask_boolean_algebra.

(** The assignment forms leave the result of the operator in the left operand. *)
Theorem bitmask_assignments t a b :
  bm_or_assign t a b = bm_or t a b /\ bm_and_assign t a b = bm_and t a b /\ bm_xor_assign t a b = bm_xor t a b.
Proof. exact (assign_forms t a b). Qed.
Print Assumptions bitmask_assignments.

(** [(a & m) == m] tests whether all flags of [m] are present. *)
Theorem bitmask_flag_test t a m : cpp_type t -> is_value t a -> is_value t m ->
  (bm_and t a m = m <-> forall i, is_flag t i -> has_flag m i -> has_flag a i).
Proof. exact (fun Ht => flag_test t Ht a m). Qed.
Print Assumptions bitmask_flag_test.

(** Two values with the same flags are the same. *)
Theorem bitmask_extensional t a b : cpp_type t -> is_value t a -> is_value t b ->
  (forall i, is_flag t i -> Z.testbit a i = Z.testbit b i) -> a = b.
Proof. exact (flags_ext t a b). Qed.
Print Assumptions bitmask_extensional.

Example bitmask_ex :
  let t := Ity true 8 in
  cpp_type t /\ is_value t 5 /\ is_value t (-128) /\ bm_or t 5 (-128) = -123 /\ bm_not t 5 = -6 /\
  bm_and t (-123) 4 = 4 /\ bm_not (Ity false 8) 5 = 250 /\ bm_xor (Ity false 8) 255 5 = 250.
Proof. vm_compute. repeat split; auto; discriminate. Qed.
