(** The numbers that floating point numbers stand for. *)
From Coq Require Import ZArith List Bool Reals SpecFloat.

(** A floating point number of a format: its mantissa and exponent are in range, and the mantissa is normalized. *)
Definition number (prec emax : Z) (x : spec_float) : Prop := valid_binary prec emax x = true.

Definition finite (x : spec_float) : Prop :=
  match x with S754_zero _ | S754_finite _ _ _ => True | _ => False end.

(** Its value, if it is finite. *)
Definition value (x : spec_float) : R :=
  match x with
  | S754_finite s m e => (IZR (if s then Zneg m else Zpos m) * powerRZ 2 e)%R
  | _ => 0%R
  end.

(** The same number, or two zeroes, the signs of which may be different. *)
Definition same_but_zero (x y : spec_float) : Prop :=
  x = y \/ exists s t, x = S754_zero s /\ y = S754_zero t.

(** Not below zero, and not the negative zero either. *)
Definition non_negative (x : spec_float) : Prop :=
  match x with S754_zero s | S754_infinity s | S754_finite s _ _ => s = false | S754_nan => False end.

(** The inner product of vectors of real numbers. *)
Fixpoint product_sum (v w : list R) : R :=
  match v, w with
  | x :: v, y :: w => (x * y + product_sum v w)%R
  | _, _ => 0%R
  end.
