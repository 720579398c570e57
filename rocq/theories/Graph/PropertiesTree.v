(** C25-C27, C55: trees and sub_graph. *)
From Coq Require Import Sorted.
From stdpp Require Import list list_numbers.
From Verif.Base Require Import Outcome.
From Verif.Graph Require Import Model ModelWeighted Spec SpecWeighted ModelTree SpecTree ProofsInduced ProofsPrune ProofsPruneBack ProofsTree
  ProofsGrow ProofsForest ProofsTreeFaults.

(** *** C25: trees stay trees *)

(** A node put in below a node in front of it. *)
Theorem C25_insert_node : forall (W V : Type) (Weq : EqDecision W) fl d w (g : wgraph W V) ps pos parent v,
  tree_flavour fl d -> consistent fl g -> tree_rep d (edges g) ps ->
  (ps = [] \/ (parent <= length ps /\ parent <> Nat.min pos (length ps))) ->
  exists g', let n := Nat.min pos (length ps) in
    insert_node_to_tree fl d w pos parent v g = (n, Ok (Done g'))
    /\ consistent fl g'
    /\ tree_rep d (edges g') (grow ps n (requested ps parent))
    /\ (d = Symmetric -> parent_first (edges g) ps -> parent_first (edges g') (grow ps n (requested ps parent)))
    /\ weights g' = take n (weights g) ++ v :: drop n (weights g).
Proof. exact @insert_tree. Qed.
Print Assumptions C25_insert_node.

(** What [grow] is: the parent of the new node is the one asked for, and those of the others are the ones they had. *)
Theorem C25_grow : forall ps n par, n <= length ps ->
  length (grow ps n par) = S (length ps) /\ grow ps n par !! n = Some par
  /\ forall i, grow ps n par !! up n i = option_map (up n) <$> ps !! i.
Proof. intros ps n par H. exact (conj (grow_length ps n par H) (conj (grow_new ps n par H) (grow_old ps n par H))). Qed.
Print Assumptions C25_grow.

Theorem C25_grow_tree : forall ps n parent,
  tree_shaped ps -> n <= length ps -> (ps = [] \/ (parent <= length ps /\ parent <> n)) ->
  tree_shaped (grow ps n (requested ps parent)).
Proof. exact grow_tree. Qed.
Print Assumptions C25_grow_tree.

(** Any sequence of calls. *)
Theorem C25_history : forall (W V : Type) (Weq : EqDecision W) fl d w (g : wgraph W V) ps,
  tree_flavour fl d -> tree_history fl d w g ps ->
  consistent fl g /\ tree_rep d (edges g) ps /\ tree_shaped ps /\ ordered ps /\ (d = Symmetric -> parent_first (edges g) ps).
Proof. exact @history_tree. Qed.
Print Assumptions C25_history.

Theorem C25_history_insert : forall (W V : Type) (Weq : EqDecision W) fl d w (g : wgraph W V) ps pos parent v,
  tree_flavour fl d -> tree_history fl d w g ps -> (ps = [] \/ parent < Nat.min pos (length ps)) ->
  exists n g', insert_node_to_tree fl d w pos parent v g = (n, Ok (Done g')) /\ n = Nat.min pos (length ps).
Proof. exact @history_insert. Qed.
Print Assumptions C25_history_insert.

Theorem C25_history_prune : forall (W V : Type) (Weq : EqDecision W) fl d w (g : wgraph W V) ps n,
  tree_flavour fl d -> tree_history fl d w g ps -> n < length ps ->
  exists g' K ps', prune fl d n g = Ok (Done g') /\ outside ps n K /\ kept K ps ps' /\ w_induced fl K g g'.
Proof. exact @history_prune. Qed.
Print Assumptions C25_history_prune.

(** There is an edge for every node except the root, kept twice in a symmetric tree. *)
Theorem C25_edge_count : forall (W : Type) d (h : graph W) ps,
  tree_rep d h ps -> tree_shaped ps -> edge_count h = match d with Symmetric => 2 | _ => 1 end * (length ps - 1).
Proof. exact @tree_edges. Qed.
Print Assumptions C25_edge_count.

(** The parent is looked up once the new node is there and those behind it have moved: it may be the new node itself ... *)
Theorem C25_insert_own_parent_refuted :
  tree_history Directed Forward 0 fwd2 two_nodes /\
  exists g', insert_node_to_tree Directed Forward 0 1 1 19 fwd2 = (1, Ok (Done g')) /\ row (edges g') 1 = [Edge 1 0 0]
    /\ forall ps, tree_rep Forward (edges g') ps -> ~ tree_shaped ps.
Proof. exact (conj fwd2_made insert_own_parent). Qed.
Print Assumptions C25_insert_own_parent_refuted.

(** ... or another node than the one which had that number (weight 12 here; the new parent has weight 11). *)
Theorem C25_insert_other_parent_refuted :
  tree_history Directed Forward 0 fwd3 three_nodes /\ weights fwd3 !! 2 = Some 12 /\
  exists g' ps', insert_node_to_tree Directed Forward 0 1 2 19 fwd3 = (1, Ok (Done g'))
    /\ weights g' = [10; 19; 11; 12] /\ tree_rep Forward (edges g') ps' /\ ps' !! 1 = Some (Some 2).
Proof. exact (conj fwd3_made (conj eq_refl insert_other_parent)). Qed.
Print Assumptions C25_insert_other_parent_refuted.

(** A parent which is no node: the exception leaves the new node behind, unconnected. *)
Theorem C25_unknown_parent_refuted :
  exists g', add_node_to_tree Directed Forward 0 5 19 fwd2 = (2, Ok (Failed OutOfRange g'))
    /\ forall ps, tree_rep Forward (edges g') ps -> ~ tree_shaped ps.
Proof. exact add_unknown_parent. Qed.
Print Assumptions C25_unknown_parent_refuted.

(** The number the new node is about to get is accepted as that of its parent. *)
Theorem C25_own_parent_refuted :
  exists g', add_node_to_tree Directed Forward 0 2 19 fwd2 = (2, Ok (Done g')) /\ row (edges g') 2 = [Edge 2 0 0].
Proof. exact add_own_parent. Qed.
Print Assumptions C25_own_parent_refuted.

(** *** C26: prune *)

Theorem C26_prune : forall (W V : Type) (Weq : EqDecision W) fl d (g : wgraph W V) ps n,
  consistent fl g -> tree_rep d (edges g) ps -> tree_shaped ps -> n < order (edges g) ->
  (d <> Backward -> ordered ps) -> (d = Symmetric -> parent_first (edges g) ps) ->
  exists g' K, prune fl d n g = Ok (Done g') /\ consistent fl g' /\ outside ps n K /\ w_induced fl K g g'.
Proof. exact @prune_exact. Qed.
Print Assumptions C26_prune.

Theorem C26_prune_nowhere : forall (W V : Type) fl d (g : wgraph W V) n,
  order (edges g) <= n -> prune fl d n g = Ok match d with Backward => Done g | _ => Failed OutOfRange g end.
Proof. exact @prune_out_of_range. Qed.
Print Assumptions C26_prune_nowhere.

(** What is left is the tree left. *)
Theorem C26_left_tree : forall (W : Type) ps n K ps' fl d (g g' : graph W),
  tree_shaped ps -> outside ps n K -> kept K ps ps' -> tree_rep d g ps -> induced fl K g g' ->
  tree_rep d g' ps' /\ tree_shaped ps'.
Proof. exact @outside_tree. Qed.
Print Assumptions C26_left_tree.

Theorem C26_forward_numbering_refuted :
  swap_nodes_w Directed 0 1 fwd2 = Done fwd2_swapped
  /\ tree_rep Forward (edges fwd2_swapped) [Some 1; None] /\ tree_shaped [Some 1; None] /\ 1 < order (edges fwd2_swapped)
  /\ exists g', prune Directed Forward 1 fwd2_swapped = Ok (Failed OutOfRange g') /\ weights g' = [10].
Proof. exact prune_forward_throws. Qed.
Print Assumptions C26_forward_numbering_refuted.

Theorem C26_symmetric_numbering_refuted :
  swap_nodes_w Undirected 0 1 sym2 = Done sym2_swapped
  /\ tree_rep Symmetric (edges sym2_swapped) [Some 1; None] /\ parent_first (edges sym2_swapped) [Some 1; None]
  /\ prune Undirected Symmetric 0 sym2_swapped = Ok (Done (WGraph [] []))
  /\ ~ anc [Some 1; None] 1 0.
Proof. exact prune_symmetric_leaf. Qed.
Print Assumptions C26_symmetric_numbering_refuted.

(** The recursion does not end, however much fuel there is. *)
Theorem C26_symmetric_edge_order_refuted :
  edges_w (swap_edges 1 0 1) sym3 = Done sym3_swapped
  /\ tree_rep Symmetric (edges sym3_swapped) three_nodes /\ ordered three_nodes
  /\ forall fuel, prune_down fuel Undirected Symmetric 1 sym3_swapped = NoFuel.
Proof. exact prune_symmetric_diverges. Qed.
Print Assumptions C26_symmetric_edge_order_refuted.

(** *** C27: sub_graph *)

Theorem C27_sub_graph : forall (W V : Type) (Weq : EqDecision W) fl pred (g : wgraph W V),
  consistent fl g ->
  exists g', sub_graph fl pred g = Ok (Done g') /\ consistent fl g' /\ w_induced fl (satisfying pred (weights g)) g g'.
Proof. exact @sub_graph_ok. Qed.
Print Assumptions C27_sub_graph.

(** *** C55: trees and forests from initializers *)

Theorem C55_make_tree : forall (W V : Type) (Weq : EqDecision W) fl d (w : W), tree_flavour fl d -> forall t : itree V,
  exists g', make_tree fl d w t = Ok (Done g')
    /\ consistent fl g' /\ tree_rep d (edges g') (tree_parents None 0 t) /\ tree_shaped (tree_parents None 0 t)
    /\ ordered (tree_parents None 0 t) /\ (d = Symmetric -> parent_first (edges g') (tree_parents None 0 t))
    /\ weights g' = preorder t.
Proof. exact @make_tree_all. Qed.
Print Assumptions C55_make_tree.

Theorem C55_forest : forall (W V : Type) (Weq : EqDecision W) fl d (w : W), tree_flavour fl d -> forall ts : list (itree V),
  exists g', build_forest fl d w ts (WGraph [] []) = Ok (Done g')
    /\ consistent fl g' /\ tree_rep d (edges g') (forest_parents 0 ts) /\ ordered (forest_parents 0 ts)
    /\ (d = Symmetric -> parent_first (edges g') (forest_parents 0 ts))
    /\ weights g' = concat (map preorder ts).
Proof. exact @forest_ok. Qed.
Print Assumptions C55_forest.

(** *** Examples *)

Example C25_example : tree_history Directed Forward 0 fwd3 three_nodes /\ tree_flavour Directed Forward
  /\ 1 < Nat.min 2 (length three_nodes)
  /\ tree_history Undirected Symmetric 0 sym3 three_nodes /\ tree_flavour Undirected Symmetric.
Proof. split; [exact fwd3_made|]. split; [by right|]. split; [cbn; auto|]. split; [exact sym3_made|by left]. Qed.

Example C26_example : forall fl d, tree_flavour fl d ->
  consistent fl (ex_made fl d) /\ tree_rep d (edges (ex_made fl d)) ex_parents /\ tree_shaped ex_parents
  /\ ordered ex_parents /\ (d = Symmetric -> parent_first (edges (ex_made fl d)) ex_parents)
  /\ anc ex_parents 3 1 /\ outside ex_parents 1 [0; 4] /\ kept [0; 4] ex_parents [None; Some 0].
Proof. exact ex_prune. Qed.

Example C26_example_prune : forall fl d, tree_flavour fl d ->
  exists g', prune fl d 1 (ex_made fl d) = Ok (Done g') /\ weights g' = [10; 14].
Proof. exact ex_pruned. Qed.

Example C27_example : forall fl d, tree_flavour fl d ->
  consistent fl (ex_made fl d) /\ satisfying Nat.even (weights (ex_made fl d)) = [0; 2; 4].
Proof. exact ex_satisfying. Qed.

Example C55_example : tree_parents None 0 ex_tree = ex_parents /\ preorder ex_tree = [10; 11; 12; 13; 14]
  /\ forest_parents 0 [ex_tree; INode 7 [INode 8 []]] = ex_parents ++ [None; Some 5].
Proof. done. Qed.
