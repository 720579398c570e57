(** The sum and the mean of real numbers. *)
From Coq Require Import List Reals.
Import ListNotations.

Fixpoint real_sum (l : list R) : R := match l with [] => 0%R | x :: l => (x + real_sum l)%R end.
Definition real_mean (l : list R) : R := (real_sum l / INR (length l))%R.

(** The sum of the squares of the differences from a number. *)
Definition real_squares (c : R) (l : list R) : R := real_sum (map (fun x => (x - c) * (x - c))%R l).
