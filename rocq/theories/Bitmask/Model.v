(** Model of Source/sequoia/Core/Logic/Bitmask.hpp: an enumeration with a fixed underlying type is a
    value of that type (integer types as in Linear/Model.v). *)
From Coq Require Import ZArith.
From Verif.Linear Require Import Model.

(** L66-73: the operands are promoted, and the result is converted to the enumeration. *)
Definition bm_or (t : ity) (a b : Z) : Z := conv t (Z.lor (conv (common t t) a) (conv (common t t) b)).
(** L83-90. *)
Definition bm_and (t : ity) (a b : Z) : Z := conv t (Z.land (conv (common t t) a) (conv (common t t) b)).
(** L100-107. *)
Definition bm_xor (t : ity) (a b : Z) : Z := conv t (Z.lxor (conv (common t t) a) (conv (common t t) b)).
(** L117-124: [~] of the promoted operand; for an unsigned type the complement is reduced modulo 2^w. *)
Definition bm_not (t : ity) (a : Z) : Z := conv t (conv (promote t) (Z.lnot (conv (promote t) a))).

(** L75-81, L92-98, L109-115: [|=], [&=], [^=] assign the result to the left operand. *)
Definition bm_or_assign (t : ity) (a b : Z) : Z := bm_or t a b.
Definition bm_and_assign (t : ity) (a b : Z) : Z := bm_and t a b.
Definition bm_xor_assign (t : ity) (a b : Z) : Z := bm_xor t a b.
