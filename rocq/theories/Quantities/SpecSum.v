(** Vocabulary for C103. *)
From stdpp Require Import list.
From Coq Require Import ZArith QArith Qcanon.
From Verif.Base Require Import Outcome.
From Verif.Products Require Import Model Spec.
From Verif.Quantities Require Import Model ModelSum Spec.

Section sums.
  Context (no_unit : nat).

  (** The numbers alone *)
  Fixpoint number (env : list (kind * list Qc)) (e : term) : Qc :=
    match e with
    | Of i => match env !! i with Some (_, [x]) => x | _ => 0%Qc end
    | Product a b => (number env a * number env b)%Qc
    | Quotient a b => (number env a / number env b)%Qc
    | Sum a b => (number env a + number env b)%Qc
    end.
  (** The dimensions alone, taking those of the left of two summands *)
  Fixpoint dimensions (env : list (kind * list Qc)) (e : term) (n : nat) : Z :=
    match e with
    | Of i => match env !! i with Some (k, _) => dimension no_unit (unit_of k) n | None => 0 end
    | Product a b => dimensions env a n + dimensions env b n
    | Quotient a b => dimensions env a n - dimensions env b n
    | Sum a b => dimensions env a n
    end.
  (** No apples and oranges *)
  Fixpoint homogeneous (env : list (kind * list Qc)) (e : term) : Prop :=
    match e with
    | Of i => True
    | Product a b | Quotient a b => homogeneous env a /\ homogeneous env b
    | Sum a b => homogeneous env a /\ homogeneous env b /\ forall n, dimensions env a n = dimensions env b n
    end.
  Fixpoint in_scope (m : nat) (e : term) : Prop :=
    match e with Of i => (i < m)%nat | Product a b | Quotient a b | Sum a b => in_scope m a /\ in_scope m b end.
End sums.

(** The base space of a half line is a half line of the same dimension, and its own base space. *)
Definition bases (half : nat -> bool) (dims : nat -> nat) (base_of : nat -> option nat) : Prop :=
  forall n b, half n = true -> base_of n = Some b -> half b = true /\ dims b = dims n /\ base_of b = Some b.
