(** What is claimed of sort_nodes (C57). *)
From stdpp Require Import list.
From Verif.Base Require Import Outcome Order.
From Verif.Graph Require Import Model ModelWeighted Spec.

Section spec.
  Context {W V : Type}.
  Implicit Types g : wgraph W V.

  (** [g'] is [g] with its nodes renumbered: node [a] becomes node [f a], together with its weight and its edges, whose
      order stays. *)
  Definition renumbered (f : nat -> nat) g g' : Prop :=
    Inj (=) (=) f /\ (forall a, f a < order (edges g) <-> a < order (edges g)) /\
    order (edges g') = order (edges g) /\
    (forall a, row (edges g') (f a) = map (fun e => Edge (f (tgt e)) (comp e) (wt e)) (row (edges g) a)) /\
    (forall a, weights g' !! f a = weights g !! a).

  (** Nodes outside of [first], ..., [last - 1] keep their numbers. *)
  Definition stays_outside (first last : nat) (f : nat -> nat) : Prop :=
    forall a, a < first \/ last <= a -> f a = a.

  (** The weights at the positions [first], ..., [last - 1] are sorted. *)
  Definition sorted_between (lt : V -> V -> bool) (first last : nat) (ws : list V) : Prop :=
    forall i j x y, first <= i -> i < j -> j < last -> ws !! i = Some x -> ws !! j = Some y -> lt y x = false.

  (** The comparator answers when called with nodes of the graph; it orders nodes as [lt] orders their weights, and may
      say anything of those which are tied. *)
  Definition compares (lt : V -> V -> bool) (less : wgraph W V -> nat -> nat -> res bool) : Prop :=
    forall g i j x y, weights g !! i = Some x -> weights g !! j = Some y ->
      exists b, less g i j = Ok b /\ (lt x y = true -> b = true) /\ (lt y x = true -> b = false).
End spec.
