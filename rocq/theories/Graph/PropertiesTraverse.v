(** C19-C21: the traversals. *)
From stdpp Require Import list.
From Verif.Base Require Import Outcome.
From Verif.Graph Require Import Model Spec ModelTraverse SpecTraverse ProofsTraverseTop ProofsTraversePost.

(** *** C19 *)

Theorem C19_every_wanted_node_once : forall (W : Type) fl sr cap find_all start (g : graph W),
  in_range g -> roomy cap (order g) -> search_ok sr -> start < order g ->
  exists es, traverse fl sr cap find_all start g = Ok es
    /\ NoDup (befores es) /\ afters es = befores es /\ head (befores es) = Some start
    /\ forall n, n ∈ befores es <-> wanted g find_all start n.
Proof. exact traverse_nodes. Qed.
Print Assumptions C19_every_wanted_node_once.

Theorem C19_depth_first_every_wanted_node_once : forall (W : Type) find_all start (g : graph W),
  in_range g -> start < order g ->
  exists es, traverse_dfs find_all start g = Ok es
    /\ NoDup (befores es) /\ afters es ≡ₚ befores es
    /\ forall n, n ∈ befores es <-> wanted g find_all start n.
Proof. exact traverse_dfs_nodes. Qed.
Print Assumptions C19_depth_first_every_wanted_node_once.

Theorem C19_no_start_node : forall (W : Type) fl sr cap find_all start (g : graph W),
  order g <= start ->
  traverse fl sr cap find_all start g = Ok [] /\ traverse_dfs find_all start g = Ok [].
Proof. exact traverse_nowhere. Qed.
Print Assumptions C19_no_start_node.

Theorem C19_calls_grouped_by_node : forall (W : Type) fl sr cap find_all start (g : graph W) es,
  in_range g -> roomy cap (order g) -> search_ok sr -> start < order g ->
  traverse fl sr cap find_all start g = Ok es ->
  exists bs, es = concat bs /\ Forall2 (visit_of g sr) (befores es) bs.
Proof. exact traverse_visits. Qed.
Print Assumptions C19_calls_grouped_by_node.

(** *** C20 *)

Theorem C20_every_edge_once : forall (W : Type) fl sr cap find_all start (g : graph W) es,
  in_range g -> roomy cap (order g) -> search_ok sr -> start < order g ->
  traverse fl sr cap find_all start g = Ok es ->
  NoDup (edges_met es) /\ forall n k, (n, k) ∈ edges_met es <-> wanted g find_all start n /\ is_Some (row g n !! k).
Proof. exact traverse_edges_once. Qed.
Print Assumptions C20_every_edge_once.

Theorem C20_directed_first_only : forall (W : Type) sr cap find_all start (g : graph W) es n k,
  in_range g -> roomy cap (order g) -> search_ok sr -> start < order g ->
  traverse Directed sr cap find_all start g = Ok es -> Second n k ∉ es.
Proof. exact traverse_directed. Qed.
Print Assumptions C20_directed_first_only.

Theorem C20_links_first_then_second : forall (W : Type) fl sr cap find_all start (g : graph W) es i j,
  fl <> Directed -> in_range g -> roomy cap (order g) -> search_ok sr -> start < order g ->
  traverse fl sr cap find_all start g = Ok es ->
  wanted g find_all start i -> wanted g find_all start j -> i <> j ->
  (forall k k' e e', row g i !! k = Some e -> tgt e = j -> row g j !! k' = Some e' -> tgt e' = i ->
    precedes es (First i k) (Second j k'))
  \/ (forall k k' e e', row g j !! k = Some e -> tgt e = i -> row g i !! k' = Some e' -> tgt e' = j ->
    precedes es (First j k) (Second i k')).
Proof. exact traverse_links. Qed.
Print Assumptions C20_links_first_then_second.

Theorem C20_undirected_loops_first_then_second : forall (W : Type) (Weq : EqDecision W) sr cap find_all start (g : graph W) es n,
  reciprocal g -> roomy cap (order g) -> search_ok sr -> start < order g ->
  traverse Undirected sr cap find_all start g = Ok es -> wanted g find_all start n ->
  Nat.Even (length (loops g sr n))
  /\ forall a k k', loops g sr n !! (2 * a) = Some k -> loops g sr n !! (2 * a + 1) = Some k' ->
       precedes es (First n k) (Second n k').
Proof. exact traverse_loops. Qed.
Print Assumptions C20_undirected_loops_first_then_second.

Theorem C20_embedded_first_then_second_partial : forall (W : Type) sr cap find_all start (g : graph W) es n k e,
  comp_ok g -> roomy cap (order g) -> search_ok sr -> sr <> PseudoDepthFirst -> start < order g ->
  traverse Embedded sr cap find_all start g = Ok es -> wanted g find_all start n -> row g n !! k = Some e ->
  precedes es (First n k) (Second (tgt e) (comp e)) \/ precedes es (First (tgt e) (comp e)) (Second n k).
Proof. exact traverse_embedded. Qed.
Print Assumptions C20_embedded_first_then_second_partial.

(** The embedded pseudo-depth-first case is missing from the last: there it is false, since the
    position of a loop is taken to be its distance along a reversed iterator. *)
Theorem C20_pseudo_depth_first_loop_refuted : exists (g : graph nat) es n k e,
  reachable Embedded [] g /\ traverse Embedded PseudoDepthFirst None true 0 g = Ok es
  /\ row g n !! k = Some e
  /\ First n k ∈ es /\ First (tgt e) (comp e) ∈ es /\ Second n k ∉ es /\ Second (tgt e) (comp e) ∉ es.
Proof. exact pdfs_embedded_loop. Qed.
Print Assumptions C20_pseudo_depth_first_loop_refuted.

Theorem C20_pseudo_depth_first_loop_second_refuted : exists (g : graph nat) es n k e,
  reachable Embedded [] g /\ traverse Embedded PseudoDepthFirst None true 0 g = Ok es
  /\ row g n !! k = Some e
  /\ Second n k ∈ es /\ Second (tgt e) (comp e) ∈ es /\ First n k ∉ es /\ First (tgt e) (comp e) ∉ es.
Proof. exact pdfs_embedded_loop_second. Qed.
Print Assumptions C20_pseudo_depth_first_loop_second_refuted.

(** Loops of an undirected graph are told apart by their order only: of two loops, one may be
    given to the first functor twice and the other to the second functor twice. *)
Theorem C20_undirected_loop_weights_refuted : exists (g : graph nat) es,
  reachable Undirected [] g /\ traverse Undirected BreadthFirst None true 0 g = Ok es
  /\ count g 0 0 5 = 2 /\ count g 0 0 7 = 2
  /\ (forall k e, row g 0 !! k = Some e -> wt e = 5 -> First 0 k ∈ es /\ Second 0 k ∉ es)
  /\ (forall k e, row g 0 !! k = Some e -> wt e = 7 -> Second 0 k ∈ es /\ First 0 k ∉ es).
Proof. exact undirected_loop_weights. Qed.
Print Assumptions C20_undirected_loop_weights_refuted.

(** Recursive depth first search gives the functor the edges of its tree only. *)
Theorem C20_depth_first_every_edge_refuted : exists (g : graph nat) es n k,
  reachable Directed [] g /\ traverse_dfs true 0 g = Ok es /\ is_Some (row g n !! k) /\ (n, k) ∉ edges_met es.
Proof. exact dfs_skips_edges. Qed.
Print Assumptions C20_depth_first_every_edge_refuted.

(** *** C21 *)

Theorem C21_breadth_first_by_distance : forall (W : Type) fl cap find_all start (g : graph W) es i j u v a b,
  in_range g -> roomy cap (order g) -> start < order g ->
  traverse fl BreadthFirst cap find_all start g = Ok es ->
  befores es !! i = Some u -> befores es !! j = Some v -> i <= j ->
  distance g start u a -> distance g start v b -> a <= b.
Proof. exact traverse_bfs_distance. Qed.
Print Assumptions C21_breadth_first_by_distance.

Theorem C21_breadth_first_reachable_first : forall (W : Type) fl cap find_all start (g : graph W) es i j u v,
  in_range g -> roomy cap (order g) -> start < order g ->
  traverse fl BreadthFirst cap find_all start g = Ok es ->
  befores es !! i = Some u -> befores es !! j = Some v -> i <= j ->
  reaches g start v -> reaches g start u.
Proof. exact traverse_bfs_unreachable. Qed.
Print Assumptions C21_breadth_first_reachable_first.

Theorem C21_depth_first_tree : forall (W : Type) find_all start (g : graph W),
  in_range g -> start < order g ->
  exists es ts, traverse_dfs find_all start g = Ok es
    /\ es = concat (map tree_events ts) /\ Forall (tree_of g) ts /\ root <$> head ts = Some start
    /\ (find_all = false -> length ts = 1)
    /\ NoDup (befores es) /\ (forall n, n ∈ befores es <-> wanted g find_all start n)
    /\ afters es ≡ₚ befores es
    /\ (forall u e, u ∈ befores es -> e ∈ row g u -> precedes es (Before (tgt e)) (After u)).
Proof. exact traverse_depth_first. Qed.
Print Assumptions C21_depth_first_tree.

(** A node is left after those to which it has edges, except those from which it can be reached. *)
Theorem C21_depth_first_post_order : forall (W : Type) find_all start (g : graph W) es,
  in_range g -> start < order g -> traverse_dfs find_all start g = Ok es ->
  NoDup (afters es) /\ (forall n, n ∈ afters es <-> wanted g find_all start n) /\
  forall u e, u ∈ afters es -> e ∈ row g u -> precedes es (After (tgt e)) (After u) \/ reaches g (tgt e) u.
Proof. exact @dfs_post. Qed.
Print Assumptions C21_depth_first_post_order.

(** *** Examples *)

Example C19_example : in_range ex_traverse /\ roomy (Some 4) (order ex_traverse) /\ search_ok BreadthFirst /\ 1 < order ex_traverse.
Proof. split; [apply ex_traverse_ok|]. cbn. auto with arith. Qed.

(** A priority queue which gives out the newest element. *)
Example C19_example_priority : search_ok (PriorityFirst (fun _ l => length l - 1)).
Proof. intros k [|x l] H; [done|]. cbn. rewrite Nat.sub_0_r. auto. Qed.

Example C19_example_nowhere : order ex_traverse <= 4.
Proof. cbn. auto. Qed.

Example C20_example : comp_ok ex_traverse /\ reciprocal ex_traverse
  /\ traverse Embedded BreadthFirst (Some 4) false 1 ex_traverse = Ok ex_calls
  /\ traverse Undirected BreadthFirst None true 1 ex_traverse = Ok (ex_calls ++ [Before 3; After 3])
  /\ loops ex_traverse BreadthFirst 2 = [2; 3].
Proof. split; [apply ex_traverse_ok|]. split; [apply ex_traverse_ok|apply ex_traverse_calls]. Qed.

Example C20_example_nodes : wanted ex_traverse true 1 0 /\ wanted ex_traverse true 1 2 /\ row ex_traverse 2 !! 2 = Some (Edge 2 3 6).
Proof. cbn. auto with arith. Qed.

Example C21_example : befores ex_calls !! 0 = Some 1 /\ befores ex_calls !! 2 = Some 2
  /\ distance ex_traverse 1 1 0 /\ distance ex_traverse 1 2 1.
Proof. split; [done|]. split; [done|]. apply ex_distances. Qed.

Example C21_example_tree :
  traverse_dfs false 1 ex_traverse = Ok (tree_events (Node 1 [(0, Node 0 [(1, Node 2 [])])])).
Proof. exact ex_traverse_dfs. Qed.
