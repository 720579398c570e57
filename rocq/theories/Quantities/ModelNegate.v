(** Model of the unary operator- of physical values, L552-L556 of Source/sequoia/Physics/PhysicalValues.hpp.  As in ModelDifference.v,
    spaces are neither composite nor duals; the numbers are signed. *)
From stdpp Require Import list.
From Coq Require Import ZArith QArith Qcanon.
From Verif.Base Require Import Outcome.
From Verif.Products Require Import Model.
From Verif.Quantities Require Import Model ModelSum ModelDifference.

Section negation.
  Context (ev eh : nat) (vec half origin : nat -> bool) (dims : nat -> nat) (other : list Qc -> res (list Qc)).
  (** [intrinsic_validator_type], L483 *)
  Context (intrinsic : validator).

  (** L492-L494; [affine_space] as in Model.v *)
  Definition intrinsically_absolute (a : place) : bool :=
    Nat.eqb (extent dims (within a)) 1 && negb (free ev vec (within a) || negb (half_line eh half (within a))) && bool_decide (intrinsic = HalfLine).
  (** L496 *)
  Definition effectively_absolute (a : place) : bool := intrinsically_absolute a && bool_decide (vetted a = intrinsic).

  (** L552-L556, with the constructor of L526-L528, which validates; that of Spaces.hpp L1328-L1337 is hidden. *)
  Definition negate (a : place) (xs : list Qc) : answer :=
    if origin_of ev eh vec half origin (within a) && negb (effectively_absolute a) then Yields a (validate other (vetted a) (Qcopp <$> xs)) else Absent.
End negation.
