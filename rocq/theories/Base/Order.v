(** Order and sequence vocabulary used in the property statements.

    Specification only: no source file is modelled here. *)
From stdpp Require Import list.

(** A strict weak order given by a boolean comparison: what the C++ standard requires of the
    comparator of a sorting algorithm. *)
Record strict_weak {A} (lt : A -> A -> bool) : Prop := {
  sw_irrefl : forall x, lt x x = false;
  sw_trans : forall x y z, lt x y = true -> lt y z = true -> lt x z = true;
  sw_incomp : forall x y z,
    lt x y = false -> lt y x = false -> lt y z = false -> lt z y = false ->
    lt x z = false /\ lt z x = false
}.

(** An equivalence relation given by a boolean. *)
Record equivalence {A} (eqv : A -> A -> bool) : Prop := {
  eqv_refl : forall x, eqv x x = true;
  eqv_sym : forall x y, eqv x y = true -> eqv y x = true;
  eqv_trans : forall x y z, eqv x y = true -> eqv y z = true -> eqv x z = true
}.

(** No later element is ordered before an earlier one. *)
Definition sorted_by {A} (lt : A -> A -> bool) (l : list A) : Prop :=
  forall i j x y, i < j -> l !! i = Some x -> l !! j = Some y -> lt y x = false.

(** Two elements not ordered either way. *)
Definition tied {A} (lt : A -> A -> bool) (x y : A) : bool := negb (lt x y) && negb (lt y x).

Lemma sw_asym {A} (lt : A -> A -> bool) :
  strict_weak lt -> forall x y, lt x y = true -> lt y x = false.
Proof.
  intros H x y Hxy. destruct (lt y x) eqn:E; [|done].
  pose proof (sw_trans lt H _ _ _ Hxy E) as Hc. rewrite (sw_irrefl lt H) in Hc. done.
Qed.

(** Negative transitivity: [lt y x = false] reads "x <= y", a total preorder. *)
Lemma sw_neg_trans {A} (lt : A -> A -> bool) :
  strict_weak lt -> forall x y z, lt y x = false -> lt z y = false -> lt z x = false.
Proof.
  intros H x y z Hyx Hzy. destruct (lt z x) eqn:E; [|done]. exfalso.
  destruct (lt x y) eqn:Exy.
  - pose proof (sw_trans lt H _ _ _ E Exy). congruence.
  - destruct (lt y z) eqn:Eyz.
    + pose proof (sw_trans lt H _ _ _ Eyz E). congruence.
    + destruct (sw_incomp lt H x y z Exy Hyx Eyz Hzy). congruence.
Qed.

Lemma sw_lt_le_trans {A} (lt : A -> A -> bool) :
  strict_weak lt -> forall x y z, lt x y = true -> lt z y = false -> lt x z = true.
Proof.
  intros H x y z Hxy Hzy. destruct (lt x z) eqn:E; [done|]. exfalso.
  pose proof (sw_neg_trans lt H z x y) as Hn.
  destruct (lt y z) eqn:Eyz.
  - pose proof (sw_trans lt H _ _ _ Hxy Eyz). congruence.
  - assert (lt y x = false) by (by apply sw_asym).
    destruct (lt z x) eqn:Ezx.
    + pose proof (sw_trans lt H _ _ _ Ezx Hxy). congruence.
    + destruct (sw_incomp lt H x z y E Ezx Hzy Eyz). congruence.
Qed.
