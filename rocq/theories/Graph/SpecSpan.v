(** What is claimed of the depth first traversal of trees (C21). *)
From stdpp Require Import list.
From Verif.Base Require Import Outcome.
From Verif.Graph Require Import Model Spec SpecTraverse.

(** The branches of each node of the tree are all its edges, in their order. *)
Inductive spans {W} (g : graph W) : tree -> Prop :=
  | spans_node n bs :
      map fst bs = seq 0 (length (row g n)) ->
      Forall (fun b => tgt <$> row g n !! b.1 = Some (root b.2) /\ spans g b.2) bs ->
      spans g (Node n bs).

(** The nodes of a tree, in pre-order. *)
Fixpoint nodes_of (t : tree) : list nat :=
  match t with Node n bs => n :: concat (map (fun b => nodes_of b.2) bs) end.
