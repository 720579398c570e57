(** What C32 asks of products and quotients of ratios. *)
From Coq Require Import ZArith.
From Verif.Linear Require Import Model.
Local Open Scope Z_scope.

(** [n / d] is the product of [n1 / d1] and [n2 / d2]. *)
Definition exact_product (n1 d1 n2 d2 n d : Z) : Prop := n * (d1 * d2) = d * (n1 * n2).
(** [n / d] is the quotient of [n1 / d1] by [n2 / d2]. *)
Definition exact_quotient (n1 d1 n2 d2 n d : Z) : Prop := n * (d1 * n2) = d * (n1 * d2).
Definition lowest_terms (n d : Z) : Prop := d <> 0 /\ Z.gcd n d = 1.

(** A signed type not subject to promotion. *)
Definition plain (t : ity) : Prop := signed t = true /\ (width t = 32 \/ width t = 64).
(** Values whose negation is a value too. *)
Definition small (t : ity) (z : Z) : Prop := Z.abs z <= hi t.
