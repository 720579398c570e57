(** Model of the sums of physical values: L560-L579 of Source/sequoia/Physics/PhysicalValues.hpp, and operator+ of
    Maths/Geometry/Spaces.hpp, which they inherit.

    Sums of a value and a displacement are in Coordinates/Model.v.  Bases are not modelled, as in Model.v. *)
From stdpp Require Import list.
From Coq Require Import ZArith QArith Qcanon.
From Verif.Base Require Import Outcome.
From Verif.Products Require Import Model.
From Verif.Quantities Require Import Model.

Global Instance validator_eq_dec : EqDecision validator. Proof. solve_decision. Defined.
Global Instance kind_eq_dec : EqDecision kind. Proof. solve_decision. Defined.

Section sums.
  Context (no_unit : nat) (validator_of : nat -> validator).
  Context (ev eh : nat) (vec half : nat -> bool).
  Context (dims : nat -> nat) (other : list Qc -> res (list Qc)).
  (** The spaces, other than half lines and vector spaces, with a distinguished origin; the member [base_space] *)
  Context (origin : nat -> bool) (base_of : nat -> option nat).

  (** Spaces.hpp L1069-L1112, and L144 for a composite space *)
  Fixpoint origin_of (t : ty) : bool :=
    match t with Base n => Nat.eqb n ev || Nat.eqb n eh || vec n || half n || origin n | Ads _ => true | Dual u => origin_of u end.
  Definition has_origin (k : kind) : bool := vector ev vec k || forallb origin_of (parts (space k)).

  (** [std::common_type_t] of the base spaces, L322-L327: duals and composite spaces have no member [base_space]; base spaces which
      are different are taken to have no common type. *)
  Definition common_base (a b : product_ty) : option nat :=
    match a, b with
    | Single (Base n), Single (Base m) =>
      match base_of n, base_of m with
      | Some i, Some j => if Nat.eqb i j && Nat.eqb (dims n) (dims m) then Some i else None
      | _, _ => None
      end
    | _, _ => None
    end.

  (** Spaces.hpp L1367-L1375 (and L1351-L1357 for vectors), for operands of the same type; L568-L579 for those in different spaces *)
  Definition plus (k : kind) (xs : list Qc) (l : kind) (ys : list Qc) : outcome :=
    if decide (k = l) then
      if has_origin k then Gives k (validate other (checked k) (zip_with Qcplus xs ys)) else NotOffered
    else if decide (space k = space l) then NotOffered
    else if decide (unit_of k = unit_of l /\ checked k = checked l) then
      match common_base (space k) (space l) with
      | Some b =>
        if absolute validator_of ev eh vec half dims k then
          let m := Kind (Single (Base b)) (unit_of k) (checked k) in
          if consistent ev eh vec half m then Gives m (validate other (checked m) (zip_with Qcplus xs ys)) else IllFormed
        else NotOffered
      | None => NotOffered
      end
    else NotOffered.

  (** *** Expressions with sums *)
  Inductive term := Of (i : nat) | Product (a b : term) | Quotient (a b : term) | Sum (a b : term).
  Fixpoint value_of (env : list (kind * list Qc)) (e : term) : outcome :=
    match e with
    | Of i => match env !! i with Some (k, xs) => Gives k (Ok xs) | None => NotOffered end
    | Product a b => apply (times no_unit validator_of ev eh vec half dims other) (value_of env a) (value_of env b)
    | Quotient a b => apply (over no_unit validator_of ev eh vec half dims other) (value_of env a) (value_of env b)
    | Sum a b => apply plus (value_of env a) (value_of env b)
    end.
End sums.
