(** Vocabulary for C118. *)
From stdpp Require Import list.
From Coq Require Import ZArith QArith Qcanon.
From Verif.Base Require Import Outcome.
From Verif.Products Require Import Model.
From Verif.Quantities Require Import Model ModelSum ModelDifference.

Section differences.
  Context (ev : nat) (vec : nat -> bool) (base : nat -> option ty) (module : nat -> ty).

  (** A space with points, rather than displacements *)
  Definition pointed (a : place) : Prop := exists n, within a = Base n /\ free ev vec (Base n) = false.
  (** The spaces are made properly: those of displacements are free modules; base spaces are their own base spaces; the base of a space
      with points has points; and the displacements of a base space are the base of the displacements. *)
  Record proper_spaces : Prop := {
    module_free : forall n, free ev vec (Base n) = false -> free ev vec (module n) = true;
    base_base : forall n b, base n = Some b -> base_space base b = Some b;
    base_pointed : forall n b, base n = Some b -> free ev vec b = free ev vec (Base n);
    base_named : forall n b, base n = Some b -> free ev vec (Base n) = false -> exists m, b = Base m;
    base_module : forall n b, base n = Some b -> free ev vec (Base n) = false ->
      base_space base (module n) = Some (free_module ev vec module b)
  }.
End differences.

(** Numbers which a validator lets through as they are *)
Definition accepted (other : list Qc -> res (list Qc)) (v : validator) (xs : list Qc) : Prop := validate other v xs = Ok xs.
Definition subtract (xs ys : list Qc) : list Qc := zip_with Qcminus xs ys.
