(** What is claimed of trees and of sub_graph (C25-C27). *)
From Coq Require Import Sorted.
From stdpp Require Import list.
From Verif.Base Require Import Outcome.
From Verif.Graph Require Import Model ModelWeighted Spec SpecWeighted ModelTree.

Section spec.
  Context {W V : Type}.
  Implicit Types g : graph W.
  Implicit Types e x : edge W.

  (** [g'] is the graph induced by [g] on the nodes [K]; its node [i] is node [n] of [g] when [K !! i = Some n].
      The edges keep their order. *)
  Definition induced (fl : flavour) (K : list nat) g g' : Prop :=
    length g' = length K /\
    forall i n, K !! i = Some n ->
      Forall2 (fun e (y : edge W) =>
          K !! tgt y = Some (tgt e) /\ wt y = wt e
          /\ (fl = Embedded -> comp y = length (filter (fun x => tgt x ∈ K) (take (comp e) (row g (tgt e))))))
        (filter (fun e => tgt e ∈ K) (row g n)) (row g' i).

  Definition w_induced (fl : flavour) (K : list nat) (g g' : wgraph W V) : Prop :=
    induced fl K (edges g) (edges g') /\ map Some (weights g') = map (fun n => weights g !! n) K.

  (** The nodes whose weights satisfy a predicate, in order. *)
  Definition satisfying (pred : V -> bool) (ws : list V) : list nat :=
    filter (fun n => pred <$> ws !! n = Some true) (seq 0 (length ws)).

  (** *** Trees *)

  (** A tree is given by the parents of its nodes; [anc ps n a]: node [a] is node [n] or one of its ancestors. *)
  Inductive anc (ps : list (option nat)) : nat -> nat -> Prop :=
    | anc_refl n : n < length ps -> anc ps n n
    | anc_up n p a : ps !! n = Some (Some p) -> anc ps p a -> anc ps n a.

  (** There is a root, which is an ancestor of every node, unless there is no node at all. *)
  Definition tree_shaped (ps : list (option nat)) : Prop :=
    ps = [] \/ exists r, ps !! r = Some None /\ forall n, n < length ps -> anc ps n r.

  Definition parent_of (ps : list (option nat)) (n : nat) : list nat :=
    match ps !! n with Some (Some p) => [p] | _ => [] end.

  Definition children_of (ps : list (option nat)) (n : nat) : list nat :=
    filter (fun c => ps !! c = Some (Some n)) (seq 0 (length ps)).

  (** The edges of the graph are those of the tree. *)
  Definition tree_rep (d : direction) g (ps : list (option nat)) : Prop :=
    length g = length ps /\
    forall n, n < length ps ->
      map tgt (row g n) ≡ₚ
        match d with
        | Forward => children_of ps n
        | Backward => parent_of ps n
        | Symmetric => parent_of ps n ++ children_of ps n
        end.

  (** Parents come before their children, and of a symmetric tree's edges the one to the parent comes first. *)
  Definition ordered (ps : list (option nat)) : Prop := forall n p, ps !! n = Some (Some p) -> p < n.
  Definition parent_first g (ps : list (option nat)) : Prop :=
    forall n p, ps !! n = Some (Some p) -> head (map tgt (row g n)) = Some p.

  (** [ps'] is the tree left when of the tree [ps] only the nodes [K] are kept: their parents are the ones they had. *)
  Definition kept (K : list nat) (ps ps' : list (option nat)) : Prop :=
    length ps' = length K /\
    forall (i n : nat), K !! i = Some n ->
      exists o : option nat, ps' !! i = Some o /\
        match o with
        | None => ps !! n = Some None
        | Some j => exists p, K !! j = Some p /\ ps !! n = Some (Some p)
        end.

  (** The nodes which neither are [n] nor below it, in order. *)
  Definition outside (ps : list (option nat)) (n : nat) (K : list nat) : Prop :=
    StronglySorted lt K /\ forall x : nat, x ∈ K <-> x < length ps /\ ~ anc ps x n.

  (** The tree with a new node [n] put in; the nodes from [n] on are moved up. *)
  Definition grow (ps : list (option nat)) (n : nat) (par : option nat) : list (option nat) :=
    map (option_map (up n)) (take n ps) ++ par :: map (option_map (up n)) (drop n ps).

  Definition requested (ps : list (option nat)) (parent : nat) : option nat :=
    match ps with [] => None | _ => Some parent end.

  (** Forward and backward trees are directed; undirected trees are symmetric. *)
  Definition tree_flavour (fl : flavour) (d : direction) : Prop := d = Symmetric \/ fl = Directed.

  (** The trees made by add_node, insert_node and prune, and the parents asked for. *)
  Inductive tree_history `{!EqDecision W} (fl : flavour) (d : direction) (w : W) : wgraph W V -> list (option nat) -> Prop :=
    | th_empty : tree_history fl d w (WGraph [] []) []
    | th_insert (g : wgraph W V) ps pos parent v n (g' : wgraph W V) :
        tree_history fl d w g ps -> (ps = [] \/ parent < Nat.min pos (length ps)) ->
        insert_node_to_tree fl d w pos parent v g = (n, Ok (Done g')) ->
        tree_history fl d w g' (grow ps n (requested ps parent))
    | th_prune (g : wgraph W V) ps n (g' : wgraph W V) K ps' :
        tree_history fl d w g ps -> prune fl d n g = Ok (Done g') ->
        outside ps n K -> kept K ps ps' -> tree_history fl d w g' ps'.

  (** Trees made from initializers: nodes are numbered in pre-order. *)
  Fixpoint preorder (t : itree V) : list V :=
    match t with INode v cs => v :: concat (map preorder cs) end.

  Fixpoint tree_parents (par : option nat) (base : nat) (t : itree V) : list (option nat) :=
    match t with
    | INode _ cs =>
        par :: (fix go b l :=
                  match l with
                  | [] => []
                  | c :: l => let q := tree_parents (Some base) b c in q ++ go (b + length q) l
                  end) (S base) cs
    end.

  Fixpoint forest_parents (base : nat) (ts : list (itree V)) : list (option nat) :=
    match ts with
    | [] => []
    | t :: ts => let q := tree_parents None base t in q ++ forest_parents (base + length q) ts
    end.

  Definition edge_count g : nat := list_sum (map length g).
End spec.
