(** What is claimed of construction from nested lists (C17). *)
From stdpp Require Import list.
From Verif.Base Require Import Outcome Order.
From Verif.Graph Require Import Model Spec ModelShared ModelInit.

(** What C++ requires of weights: a totally ordered type has a total order, an empty type one value. *)
Definition mode_ok {W} (m : wmode W) : Prop :=
  match m with
  | Ordered lt => strict_weak lt /\ forall x y, lt x y = false -> lt y x = false -> x = y
  | Unordered => True
  | NoWeight => forall x y : W, x = y
  end.

(** Node by node the same edges, perhaps in another order. *)
Definition same_edges {W} (g g' : graph W) : Prop :=
  length g = length g' /\ forall i, row g i ≡ₚ row g' i.

(** The graphs with shared weights to start from: the empty one, and undirected ones made from
    nested lists.  (Embedded ones made from nested lists do not share their weights.) *)
Definition sstart {V} `{!EqDecision V} (fl : flavour) (g : sgraph V) : Prop :=
  g = SGraph [] []
  \/ fl = Undirected /\ exists m rows, mode_ok m /\ construct_shared true Undirected m rows = Ok g.

(** The shared graph [st] has the edges of [g], in order, and shows their weights. *)
Definition shows {V} (fl : flavour) (st : sgraph V) (g : graph V) : Prop :=
  length (sedges st) = length g
  /\ (forall i, length (row (sedges st) i) = length (row g i))
  /\ forall i k e, row g i !! k = Some e ->
       sweight st i k = Ok (wt e)
       /\ exists e', row (sedges st) i !! k = Some e' /\ tgt e' = tgt e /\ (fl = Embedded -> comp e' = comp e).
