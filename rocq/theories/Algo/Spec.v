(** Vocabulary for the properties of the algorithms (C01-C04). *)
From stdpp Require Import list.
From Verif.Base Require Import Order.

(** The first [n] elements of [l] form a binary max-heap: no element is ordered after its
    parent; the children of position i are 2i+1 and 2i+2. *)
Definition is_heap {A} (lt : A -> A -> bool) (n : nat) (l : list A) : Prop :=
  forall i j x y, j < n -> j = 2 * i + 1 \/ j = 2 * i + 2 ->
    l !! i = Some x -> l !! j = Some y -> lt x y = false.

(** Stability: for every element, the sublist of elements tied with it is left in order. *)
Definition stable {A} (lt : A -> A -> bool) (before after : list A) : Prop :=
  forall x, filter (fun y => tied lt x y = true) after = filter (fun y => tied lt x y = true) before.

(** Equal elements are contiguous. *)
Definition contiguous {A} (eqv : A -> A -> bool) (l : list A) : Prop :=
  forall i j k x y z, i < j -> j < k ->
    l !! i = Some x -> l !! j = Some y -> l !! k = Some z ->
    eqv x z = true -> eqv x y = true.
