(** C58: the order of traversals. *)
From stdpp Require Import list.
From Verif.Base Require Import Outcome.
From Verif.Graph Require Import Model Spec ModelTraverse SpecTraverse SpecOrder ProofsTraverseOrder.

Theorem C58_node_visited_next : forall (W : Type) fl sr cap find_all start (g : graph W) es i v,
  in_range g -> roomy cap (order g) -> search_ok sr -> start < order g ->
  traverse fl sr cap find_all start g = Ok es -> befores es !! i = Some v ->
  comes_next sr g start (take i (befores es)) v.
Proof. intros. by eapply (traverse_order g fl sr cap). Qed.
Print Assumptions C58_node_visited_next.

Theorem C58_highest_priority_next : forall (W : Type) fl cap find_all start (g : graph W) priority choose es i v u,
  in_range g -> roomy cap (order g) -> by_priority priority choose -> start < order g ->
  traverse fl (PriorityFirst choose) cap find_all start g = Ok es -> befores es !! i = Some v ->
  u ∉ take i (befores es) -> (exists w e, w ∈ take i (befores es) /\ e ∈ row g w /\ tgt e = u) -> priority u <= priority v.
Proof. exact @traverse_priority. Qed.
Print Assumptions C58_highest_priority_next.

Theorem C58_depth_first_next : forall (W : Type) find_all start (g : graph W) es i v,
  in_range g -> start < order g ->
  traverse_dfs find_all start g = Ok es -> befores es !! i = Some v ->
  comes_next_deep g start (take i (befores es)) v.
Proof. intros. by eapply traverse_dfs_order. Qed.
Print Assumptions C58_depth_first_next.

(** *** Examples *)

Example C58_example : in_range ex_order /\ roomy None (order ex_order) /\ 3 < order ex_order
  /\ nodes_of (traverse Directed BreadthFirst None true 3 ex_order) = [3; 0; 2; 1; 4; 5]
  /\ nodes_of (traverse Directed PseudoDepthFirst None true 3 ex_order) = [3; 0; 2; 4; 1; 5]
  /\ nodes_of (traverse_dfs true 3 ex_order) = [3; 0; 2; 4; 1; 5]
  /\ nodes_of (traverse Directed (PriorityFirst (fun _ => highest)) None false 0 ex_order) = [0; 2; 4; 3; 1].
Proof. split; [apply ex_order_ok|]. split; [done|]. split; [cbn; auto with arith|apply ex_order_nodes]. Qed.

Example C58_example_next : comes_next PseudoDepthFirst ex_order 3 [3; 0] 2 /\ comes_next BreadthFirst ex_order 3 [3; 0; 2; 1; 4] 5.
Proof. exact ex_order_next. Qed.

Example C58_example_priority : by_priority id (fun _ => highest).
Proof. exact highest_ok. Qed.
