(** What is claimed of traversals (C19-C21). *)
From Coq Require Import Sorted.
From stdpp Require Import list.
From Verif.Base Require Import Outcome.
From Verif.Graph Require Import Model Spec ModelTraverse.

(** [v] is [d] edges away from [u] along some path. *)
Inductive path {W} (g : graph W) (u : nat) : nat -> nat -> Prop :=
  | path_here : path g u u 0
  | path_step v e d : path g u v d -> e ∈ row g v -> path g u (tgt e) (S d).

Definition reaches {W} (g : graph W) (u v : nat) : Prop := exists d, path g u v d.

(** The length of a shortest path. *)
Definition distance {W} (g : graph W) (u v d : nat) : Prop :=
  path g u v d /\ forall d', path g u v d' -> d <= d'.

(** The nodes which the node functors are called with, and the edges which the edge functors are called with. *)
Definition befores (l : list event) : list nat :=
  omap (fun x => match x with Before n => Some n | _ => None end) l.
Definition afters (l : list event) : list nat :=
  omap (fun x => match x with After n => Some n | _ => None end) l.
Definition edges_met (l : list event) : list (nat * nat) :=
  omap (fun x => match x with First n k | Second n k => Some (n, k) | _ => None end) l.

(** One call is made before another. *)
Definition precedes (l : list event) (x y : event) : Prop :=
  exists l1 l2 l3, l = l1 ++ x :: l2 ++ y :: l3.

(** A priority queue gives out an element that it has. *)
Definition search_ok (sr : search) : Prop :=
  match sr with
  | PriorityFirst choose => forall k l, l <> [] -> choose k l < length l
  | _ => True
  end.

(** The containers of a static graph have room for its nodes. *)
Definition roomy (cap : option nat) (n : nat) : Prop :=
  match cap with Some c => n <= c | None => True end.

(** The nodes to be visited. *)
Definition wanted {W} (g : graph W) (find_all : bool) (start n : nat) : Prop :=
  if find_all then n < length g else reaches g start n.

(** The calls made for node [n]: before its edges, for each edge in the order of the iterator, after them. *)
Definition visit_of {W} (g : graph W) (sr : search) (n : nat) (l : list event) : Prop :=
  exists m, l = Before n :: m ++ [After n]
    /\ Forall2 (fun x k => x = First n k \/ x = Second n k) m (positions sr (row g n)).

(** The positions of the loops of node [n], in the order of the iterator. *)
Definition loops {W} (g : graph W) (sr : search) (n : nat) : list nat :=
  filter (fun k => tgt <$> row g n !! k = Some n) (positions sr (row g n)).

(** A tree of nodes, with the positions of the edges leading to its branches. *)
Inductive tree := Node (n : nat) (branches : list (nat * tree)).

(** The calls made when such a tree is traversed. *)
Fixpoint tree_events (t : tree) : list event :=
  match t with
  | Node n bs => Before n :: concat (map (fun b => First n b.1 :: tree_events b.2) bs) ++ [After n]
  end.

Definition root (t : tree) : nat := match t with Node n _ => n end.

(** The branches of the tree are edges of the graph, in the order in which the nodes have them. *)
Inductive tree_of {W} (g : graph W) : tree -> Prop :=
  | tree_node n bs :
      Forall (fun b => tgt <$> row g n !! b.1 = Some (root b.2) /\ tree_of g b.2) bs ->
      StronglySorted lt (map fst bs) ->
      tree_of g (Node n bs).
