(** Model of the differences of physical values, L582-L597 of Source/sequoia/Physics/PhysicalValues.hpp and L1339-L1349, L1377-L1383 of
    Maths/Geometry/Spaces.hpp, and of adding displacements, L1351-L1357 there.

    All operands have the same unit, and the canonical basis.  Their spaces are neither composite nor duals.  Base spaces which are
    different are taken to have no common type.  Values are rational numbers. *)
From stdpp Require Import list.
From Coq Require Import ZArith QArith Qcanon.
From Verif.Base Require Import Outcome.
From Verif.Products Require Import Model.
From Verif.Quantities Require Import Model ModelSum.

(** The type of a physical value, L464-L498: the value space and the validator *)
Record place := Place { within : ty; vetted : validator }.
Global Instance place_eq_dec : EqDecision place. Proof. solve_decision. Defined.

(** What an expression is: no operator is offered; or it is of some type, with an outcome when it is evaluated. *)
Inductive answer := Absent | Yields (a : place) (r : res (list Qc)).

Section differences.
  (** Whether the unit is [no_unit_t], or derives from it *)
  Context (plain : bool) (ev : nat) (vec : nat -> bool).
  (** The members [base_space] and [free_module_type] of the spaces with a name, and their dimensions *)
  Context (base : nat -> option ty) (module : nat -> ty) (dims : nat -> nat).
  Context (other : list Qc -> res (list Qc)).

  (** L281-L284; L788-L800 for the spaces of displacements *)
  Fixpoint base_space (t : ty) : option ty :=
    match t with Base n => base n | Ads u => Ads <$> base_space u | Dual _ => None end.
  (** [to_base_space], L286-L301 *)
  Definition to_base (t : ty) : ty := default t (base_space t).
  (** [free_module_type_of], Spaces.hpp L543-L568 *)
  Definition free_module (t : ty) : ty :=
    if free ev vec t then t else match t with Base n => module n | _ => Ads t end.
  (** Spaces.hpp L981-L1012, L782 *)
  Fixpoint extent (t : ty) : nat := match t with Base n => dims n | Ads u | Dual u => extent u end.
  (** [have_compatible_base_spaces_v], L322-L327, with the common type *)
  Definition common (t u : ty) : option ty :=
    match base_space t, base_space u with
    | Some b, Some c => if decide (b = c /\ extent t = extent u) then Some b else None
    | _, _ => None
    end.

  (** [displacement_coordinates_type], L273-L279 *)
  Definition displacement (a : place) : place := Place (free_module (within a)) Identity.

  (** The conversion, L647-L668.  What is returned at L658 and L663 is a value in the base space of the target; where this is not the
      target, it is converted, by the same function, which never returns.  See [lower] in Products/Model.v. *)
  Definition converts (b a : place) : bool := bool_decide (vetted b = vetted a /\ to_base (within b) = to_base (within a)).
  Definition converted (b a : place) (ys : list Qc) : res (list Qc) :=
    if decide (b = a) then Ok ys
    else if decide (to_base (within a) = within a) then validate other (vetted a) ys
    else NoFuel.

  (** L582-L586; the candidate of which the parameter is a displacement is left out by L583 *)
  Definition own_offered (a b : place) : bool :=
    bool_decide (within b <> free_module (within a) /\ vetted a = vetted b) &&
    if decide (within a = within b) then negb plain else match common (within a) (within b) with Some _ => true | None => false end.
  (** [to_displacement_space], L329-L346; L592-L593 *)
  Definition own_place (a b : place) : place :=
    Place (if decide (within a = within b) then free_module (within a)
           else match common (within a) (within b) with Some c => free_module (free_module c) | None => free_module (within a) end) Identity.
  (** Spaces.hpp L1339-L1342; [plain]: L541-L544 *)
  Definition same_offered (a b : place) : bool := bool_decide (a = b /\ a <> displacement a) && plain.

  (** operator-: candidates without a conversion are better than Spaces.hpp L1377-L1383 with one. *)
  Definition minus (a : place) (xs : list Qc) (b : place) (ys : list Qc) : answer :=
    if own_offered a b then Yields (own_place a b) (Ok (zip_with Qcminus xs ys))
    else if same_offered a b then Yields (displacement a) (Ok (zip_with Qcminus xs ys))
    else if converts b (displacement a) then
      Yields a (match converted b (displacement a) ys with Ok zs => validate other (vetted a) (zip_with Qcminus xs zs) | r => r end)
    else Absent.

  (** operator+ where the operand on the right is in a free module: Spaces.hpp L1351-L1357.  Of the others, that of L1359-L1365 is for
      points on the right, as is L1367-L1375; that of PhysicalValues.hpp L568-L579 needs a half line on the left, the base space of
      which has no common type with a space of displacements. *)
  Definition shift (a : place) (xs : list Qc) (b : place) (ys : list Qc) : answer :=
    if converts b (displacement a) then
      Yields a (match converted b (displacement a) ys with Ok zs => validate other (vetted a) (zip_with Qcplus xs zs) | r => r end)
    else Absent.

  (** An operand on the right which has been calculated *)
  Definition onto (f : place -> list Qc -> place -> list Qc -> answer) (a : place) (xs : list Qc) (o : answer) : answer :=
    match o with
    | Absent => Absent
    | Yields b (Ok ys) => f a xs b ys
    | Yields b r => match f a [] b [] with Yields c _ => Yields c r | Absent => Absent end
    end.
End differences.
