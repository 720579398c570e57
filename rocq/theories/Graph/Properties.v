(** C13-C18, C22-C24: the graph operations. *)
From stdpp Require Import list.
From Verif.Base Require Import Outcome.
From Verif.Graph Require Import Model Spec ModelWeighted SpecWeighted ModelFaults ModelShared SpecShared ModelInit SpecInit.
From Verif.Graph Require Import ProofsTop.

(** *** C13, C14 *)

Theorem C13_undirected_reciprocal : forall (W : Type) (Weq : EqDecision W) (g0 g : graph W),
  reciprocal g0 -> reachable Undirected g0 g -> reciprocal g.
Proof. exact reachable_undirected. Qed.
Print Assumptions C13_undirected_reciprocal.

Theorem C13_no_undefined_behaviour : forall (W : Type) (Weq : EqDecision W) fl (g0 g : graph W) o,
  graph_ok fl g0 -> reachable fl g0 g -> allowed fl g o ->
  (exists g', step fl o g = Ok g') \/ (exists e, step fl o g = Throw e).
Proof. exact reachable_safe. Qed.
Print Assumptions C13_no_undefined_behaviour.

Theorem C13_join_adds_exactly_one_edge : forall (W : Type) (Weq : EqDecision W) (g : graph W) n1 n2 w,
  reciprocal g -> n1 < order g -> n2 < order g ->
  exists g', join Undirected n1 n2 w g = Ok g' /\ reciprocal g' /\ order g' = order g
    /\ forall i j w', count g' i j w' = count g i j w'
         + (if decide ((i, j, w') = (n1, n2, w)) then 1 else 0)
         + (if decide ((i, j, w') = (n2, n1, w)) then 1 else 0).
Proof. exact join_counts. Qed.
Print Assumptions C13_join_adds_exactly_one_edge.

Theorem C13_erase_edge_removes_exactly_one_edge : forall (W : Type) (Weq : EqDecision W) (g : graph W) s k e,
  reciprocal g -> row g s !! k = Some e ->
  exists g', erase_edge Undirected s k g = Ok g' /\ reciprocal g' /\ order g' = order g
    /\ forall i j w', count g i j w' = count g' i j w'
         + (if decide ((i, j, w') = (s, tgt e, wt e)) then 1 else 0)
         + (if decide ((i, j, w') = (tgt e, s, wt e)) then 1 else 0).
Proof. exact erase_edge_counts. Qed.
Print Assumptions C13_erase_edge_removes_exactly_one_edge.

Theorem C14_embedded_comp_indices : forall (W : Type) (Weq : EqDecision W) (g0 g : graph W),
  comp_ok g0 -> reachable Embedded g0 g -> comp_ok g.
Proof. exact reachable_embedded. Qed.
Print Assumptions C14_embedded_comp_indices.

Theorem C14_embedded_is_undirected : forall (W : Type) (Weq : EqDecision W) (g : graph W),
  comp_ok g -> reciprocal g.
Proof. exact embedded_reciprocal. Qed.
Print Assumptions C14_embedded_is_undirected.

Theorem C14_insert_join_position : forall (W : Type) (g : graph W) i1 k1 i2 k2 w,
  comp_ok g -> i1 <> i2 -> iter_ok g i1 k1 -> iter_ok g i2 k2 ->
  exists g', insert_join i1 k1 i2 k2 w g = Ok g' /\ comp_ok g'
    /\ row g' i1 !! k1 = Some (Edge i2 k2 w) /\ row g' i2 !! k2 = Some (Edge i1 k1 w)
    /\ forall i, map (fun e => (tgt e, wt e)) (row g' i) =
         let b := map (fun e => (tgt e, wt e)) (row g i) in
         if decide (i = i1) then take k1 b ++ (i2, w) :: drop k1 b
         else if decide (i = i2) then take k2 b ++ (i1, w) :: drop k2 b else b.
Proof. exact insert_join_positions. Qed.
Print Assumptions C14_insert_join_position.

Theorem C13_C14_empty_graph : forall (W : Type) (Weq : EqDecision W) fl, graph_ok fl ([] : graph W).
Proof. exact empty_ok. Qed.
Print Assumptions C13_C14_empty_graph.

Example C13_example :
  reachable Undirected [] ex_undirected
  /\ count ex_undirected 0 1 7 = 2 /\ count ex_undirected 1 0 7 = 2 /\ count ex_undirected 0 0 5 = 2.
Proof. exact ex_undirected_ok. Qed.

Example C14_example :
  reachable Embedded [] ex_embedded
  /\ row ex_embedded 0 !! 1 = Some (Edge 1 0 8) /\ row ex_embedded 1 !! 0 = Some (Edge 0 1 8)
  /\ row ex_embedded 0 !! 2 = Some (Edge 1 1 7) /\ row ex_embedded 1 !! 1 = Some (Edge 0 2 7).
Proof. exact ex_embedded_ok. Qed.

(** *** C15, C16 *)

Theorem C15_erase_node : forall (W : Type) (Weq : EqDecision W) fl (g : graph W) n,
  graph_ok fl g -> n < order g ->
  exists g', erase_node fl n g = Ok g' /\ is_erased fl n g g' /\ graph_ok fl g'.
Proof. exact erase_node_all. Qed.
Print Assumptions C15_erase_node.

Theorem C15_erase_node_out_of_range : forall (W : Type) fl (g : graph W) n,
  order g <= n -> erase_node fl n g = Throw OutOfRange.
Proof. exact erase_node_range. Qed.
Print Assumptions C15_erase_node_out_of_range.

Theorem C15_insert_node : forall (W : Type) (Weq : EqDecision W) fl (g : graph W) pos,
  graph_ok fl g ->
  is_inserted (Nat.min pos (order g)) g (insert_node pos g) /\ graph_ok fl (insert_node pos g).
Proof. exact insert_node_all. Qed.
Print Assumptions C15_insert_node.

Theorem C15_erase_undoes_insert : forall (W : Type) (Weq : EqDecision W) fl (g : graph W) pos,
  graph_ok fl g -> pos <= order g -> erase_node fl pos (insert_node pos g) = Ok g.
Proof. exact erase_insert_node. Qed.
Print Assumptions C15_erase_undoes_insert.

Example C15_example :
  erase_node Embedded 1 ex_embedded = Ok [[Edge 0 1 5; Edge 0 0 5]]
  /\ insert_node 1 ex_undirected = [[Edge 2 0 7; Edge 2 0 7; Edge 0 0 5; Edge 0 0 5]; []; [Edge 0 0 7; Edge 0 0 7]].
Proof. vm_compute. done. Qed.

Theorem C16_swap_nodes : forall (W : Type) (Weq : EqDecision W) fl (g : graph W) i j,
  graph_ok fl g -> i < order g -> j < order g ->
  exists g', swap_nodes fl i j g = Ok g' /\ is_swapped i j g g' /\ graph_ok fl g'.
Proof. exact swap_nodes_all. Qed.
Print Assumptions C16_swap_nodes.

Theorem C16_swap_nodes_twice : forall (W : Type) (Weq : EqDecision W) fl (g g' : graph W) i j,
  graph_ok fl g -> swap_nodes fl i j g = Ok g' -> swap_nodes fl i j g' = Ok g.
Proof. exact swap_nodes_twice. Qed.
Print Assumptions C16_swap_nodes_twice.

Theorem C16_swap_nodes_out_of_range : forall (W : Type) fl (g : graph W) i j,
  order g <= i \/ order g <= j -> swap_nodes fl i j g = Throw OutOfRange.
Proof. exact swap_nodes_range. Qed.
Print Assumptions C16_swap_nodes_out_of_range.

Example C16_example :
  swap_nodes Undirected 0 1 ex_undirected
  = Ok [[Edge 1 0 7; Edge 1 0 7]; [Edge 0 0 7; Edge 0 0 7; Edge 1 0 5; Edge 1 0 5]].
Proof. vm_compute. done. Qed.

(** *** C18 *)

Theorem C18_even : forall (W : Type) (Weq : EqDecision W) fl (g : graph W),
  fl <> Directed -> graph_ok fl g -> Nat.Even (num_partial_edges g).
Proof. exact partial_edges_even. Qed.
Print Assumptions C18_even.

Theorem C18_size_halves : forall (W : Type) (Weq : EqDecision W) fl (g0 g : graph W),
  graph_ok fl g0 -> reachable fl g0 g ->
  order g = length g
  /\ (match fl with Directed => 1 | _ => 2 end) * size fl g = list_sum (map length g).
Proof. exact size_halves_all. Qed.
Print Assumptions C18_size_halves.

Theorem C18_counts_after_each_operation : forall (W : Type) (Weq : EqDecision W) fl (g0 g g' : graph W) o,
  graph_ok fl g0 -> reachable fl g0 g -> allowed fl g o -> step fl o g = Ok g' ->
  match o with
  | AddNode | InsertNode _ => order g' = order g + 1 /\ size fl g' = size fl g
  | EraseNode n => order g' + 1 = order g /\ size fl g' + incident_edges fl g n = size fl g
  | Join _ _ _ | InsertJoin _ _ _ _ _ | InsertLoop _ _ _ _ =>
      order g' = order g /\ size fl g' = size fl g + 1
  | EraseEdge i k => order g' = order g /\ size fl g' + (if decide (k < length (row g i)) then 1 else 0) = size fl g
  | _ => order g' = order g /\ size fl g' = size fl g
  end.
Proof. exact counts_all. Qed.
Print Assumptions C18_counts_after_each_operation.

Example C18_example : size Undirected ex_undirected = 3 /\ num_partial_edges ex_undirected = 6
  /\ incident_edges Undirected ex_undirected 0 = 3 /\ incident_edges Undirected ex_undirected 1 = 2.
Proof. vm_compute. done. Qed.

(** *** C22 *)

Theorem C22_weights_follow_nodes : forall (W V : Type) (Weq : EqDecision W) fl (g : wgraph W V) names given,
  history fl g names given ->
  consistent fl g /\ NoDup names /\ weights g = map given names.
Proof. exact history_all. Qed.
Print Assumptions C22_weights_follow_nodes.

Theorem C22_library_exceptions_change_nothing : forall (W V : Type) (Weq : EqDecision W) fl (g : wgraph W V) o,
  consistent fl g -> wallowed fl g o ->
  (exists g', wstep fl o g = Done g' /\ consistent fl g') \/ exists e, wstep fl o g = Failed e g.
Proof. exact wstep_all. Qed.
Print Assumptions C22_library_exceptions_change_nothing.

Theorem C22_insertion_failure_changes_nothing_partial :
  forall (W V : Type) (Weq : EqDecision W) fl f1 f2 pos v (g : wgraph W V),
  consistent fl g -> pos <= order (edges g) -> (f1 || f2) = true ->
  insert_node_w f1 f2 pos v g = Failed UserError g.
Proof. exact insertion_failure. Qed.
Print Assumptions C22_insertion_failure_changes_nothing_partial.

Theorem C22_insertion_failure_terminates_refuted : exists (g : wgraph nat nat) pos v,
  consistent Directed g
  /\ (exists g', insert_node_w false false pos v g = Done g')
  /\ insert_node_w false true pos v g = Terminated.
Proof. exact insertion_terminates. Qed.
Print Assumptions C22_insertion_failure_terminates_refuted.

Theorem C22_insertion_failure_undefined_refuted : exists (g : wgraph nat nat) pos v,
  consistent Directed g
  /\ (exists g', insert_node_w false false pos v g = Done g')
  /\ insert_node_w false true pos v g = Undefined.
Proof. exact insertion_undefined. Qed.
Print Assumptions C22_insertion_failure_undefined_refuted.

Example C22_example :
  history Undirected (WGraph [[]; []; []] [11; 30; 12] : wgraph nat nat) [1; 3; 2]
    (fun x => if decide (x = 3) then 30 else if decide (x = 1) then 11 else 12).
Proof. exact ex_history. Qed.

(** *** C23 *)

Theorem C23_join_strong : forall (W : Type) f1 f2 fl n1 n2 w (g g' : graph W),
  join_f f1 f2 fl n1 n2 w g = Ok (Threw g') -> g' = g.
Proof. exact join_strong. Qed.
Print Assumptions C23_join_strong.

Theorem C23_insert_join_strong_partial : forall (W : Type) f1 f2 i1 k1 i2 k2 w (g g' : graph W),
  i1 < order g -> k1 = length (row g i1) \/ f1 = true ->
  insert_join_f f1 f2 i1 k1 i2 k2 w g = Ok (Threw g') -> g' = g.
Proof. exact insert_join_strong. Qed.
Print Assumptions C23_insert_join_strong_partial.

Theorem C23_insert_join_strong_refuted : exists (g g' : graph nat) i1 k1 i2 k2 w,
  reachable Embedded [] g /\ iter_ok g i1 k1 /\ iter_ok g i2 k2
  /\ insert_join_f false true i1 k1 i2 k2 w g = Ok (Threw g') /\ g' <> g /\ ~ comp_ok g'.
Proof. exact insert_join_weak. Qed.
Print Assumptions C23_insert_join_strong_refuted.

Theorem C23_set_edge_weight_strong_partial : forall (W : Type) (Weq : EqDecision W) f1 f2 fl s k w (g g' : graph W),
  fl = Directed \/ f1 = true ->
  set_edge_weight_f f1 f2 fl s k w g = Ok (Threw g') -> g' = g.
Proof. exact set_edge_weight_strong. Qed.
Print Assumptions C23_set_edge_weight_strong_partial.

Theorem C23_set_edge_weight_second_failure_is_not_undone : forall (W : Type) (Weq : EqDecision W) fl s k w e (g : graph W),
  fl <> Directed -> graph_ok fl g -> row g s !! k = Some e -> w <> wt e ->
  exists g', set_edge_weight_f false true fl s k w g = Ok (Threw g') /\ g' <> g.
Proof. exact set_edge_weight_weak. Qed.
Print Assumptions C23_set_edge_weight_second_failure_is_not_undone.

Theorem C23_set_edge_weight_strong_refuted : exists (g g' : graph nat) s k w,
  reachable Undirected [] g /\ is_Some (row g s !! k)
  /\ set_edge_weight_f false true Undirected s k w g = Ok (Threw g') /\ g' <> g /\ ~ reciprocal g'.
Proof. exact set_edge_weight_witness. Qed.
Print Assumptions C23_set_edge_weight_strong_refuted.

Theorem C23_mutate_edge_weight_strong_refuted : exists (f : nat -> nat -> option (nat * nat)) (g g' : graph nat) s k,
  reachable Undirected [] g /\ is_Some (row g s !! k)
  /\ mutate_edge_weight_f Undirected s k f 0 g = Ok (Threw g') /\ g' <> g /\ ~ reciprocal g'.
Proof. exact mutate_edge_weight_weak. Qed.
Print Assumptions C23_mutate_edge_weight_strong_refuted.

Example C23_example : exists g', join_f false true Undirected 0 1 9 ex_undirected = Ok (Threw g').
Proof. eexists. vm_compute. reflexivity. Qed.

(** *** C24 *)

Theorem C24_set_edge_weight : forall (W : Type) (Weq : EqDecision W) fl (g : graph W) s k w e,
  fl <> Directed -> graph_ok fl g -> row g s !! k = Some e ->
  exists g' t q e', set_edge_weight fl s k w g = Ok g'
    /\ (t, q) <> (s, k) /\ row g t !! q = Some e' /\ tgt e = t /\ tgt e' = s /\ wt e' = wt e
    /\ length g' = length g
    /\ row g' s !! k = Some (Edge (tgt e) (comp e) w)
    /\ row g' t !! q = Some (Edge (tgt e') (comp e') w)
    /\ forall i m, (i, m) <> (s, k) -> (i, m) <> (t, q) -> row g' i !! m = row g i !! m.
Proof. exact set_edge_weight_all. Qed.
Print Assumptions C24_set_edge_weight.

Theorem C24_mutate_edge_weight : forall (W : Type) (Weq : EqDecision W) fl (g : graph W) s k (f : W -> W) e,
  fl <> Directed -> graph_ok fl g -> row g s !! k = Some e ->
  exists g' t q e', mutate_edge_weight fl s k f g = Ok g'
    /\ (t, q) <> (s, k) /\ row g t !! q = Some e' /\ tgt e = t /\ tgt e' = s /\ wt e' = wt e
    /\ length g' = length g
    /\ row g' s !! k = Some (Edge (tgt e) (comp e) (f (wt e)))
    /\ row g' t !! q = Some (Edge (tgt e') (comp e') (f (wt e)))
    /\ forall i m, (i, m) <> (s, k) -> (i, m) <> (t, q) -> row g' i !! m = row g i !! m.
Proof. exact mutate_edge_weight_all. Qed.
Print Assumptions C24_mutate_edge_weight.

Theorem C24_mutate_with_state_refuted : exists (f : nat -> nat -> option (nat * nat)) (g g' : graph nat) s k,
  reachable Undirected [] g /\ is_Some (row g s !! k)
  /\ mutate_edge_weight_f Undirected s k f 0 g = Ok (Finished g') /\ ~ reciprocal g'.
Proof. exact mutate_with_state. Qed.
Print Assumptions C24_mutate_with_state_refuted.

Theorem C24_shared_set : forall (V : Type) (Veq : EqDecision V) fl (g0 g : sgraph V) s k v,
  fl <> Directed -> sstart fl g0 -> sreachable fl g0 g -> is_Some (row (sedges g) s !! k) ->
  exists g' t q, sstep fl (SSet s k v) g = Ok g' /\ sedges g' = sedges g /\ two_halves g s k t q
    /\ sweight g' s k = Ok v /\ sweight g' t q = Ok v
    /\ forall i m, (i, m) <> (s, k) -> (i, m) <> (t, q) -> sweight g' i m = sweight g i m.
Proof. exact shared_set. Qed.
Print Assumptions C24_shared_set.

Theorem C24_shared_mutate : forall (V : Type) (Veq : EqDecision V) fl (g0 g : sgraph V) s k (f : V -> V),
  fl <> Directed -> sstart fl g0 -> sreachable fl g0 g -> is_Some (row (sedges g) s !! k) ->
  exists g' v t q, sstep fl (SMutate s k f) g = Ok g' /\ sedges g' = sedges g /\ two_halves g s k t q
    /\ sweight g s k = Ok v /\ sweight g t q = Ok v
    /\ sweight g' s k = Ok (f v) /\ sweight g' t q = Ok (f v)
    /\ forall i m, (i, m) <> (s, k) -> (i, m) <> (t, q) -> sweight g' i m = sweight g i m.
Proof. exact shared_mutate. Qed.
Print Assumptions C24_shared_mutate.

Example C24_example :
  set_edge_weight Undirected 0 0 9 ex_undirected
  = Ok [[Edge 1 0 9; Edge 1 0 7; Edge 0 0 5; Edge 0 0 5]; [Edge 0 0 9; Edge 0 0 7]]
  /\ set_edge_weight Embedded 0 3 9 ex_embedded
  = Ok [[Edge 0 3 9; Edge 1 0 8; Edge 1 1 7; Edge 0 0 9]; [Edge 0 1 8; Edge 0 2 7]].
Proof. vm_compute. done. Qed.

Example C24_shared_example : sreachable Undirected (SGraph [] []) ex_shared /\ is_Some (row (sedges ex_shared) 0 !! 1).
Proof. exact ex_shared_ok. Qed.

Theorem C24_built_embedded_refuted : exists (rows : graph nat) st st' v,
  comp_ok rows /\ construct_shared true Embedded Unordered rows = Ok st
  /\ row rows 0 !! 0 = Some (Edge 1 0 7) /\ row rows 1 !! 0 = Some (Edge 0 0 7)
  /\ sstep Embedded (SSet 0 0 v) st = Ok st'
  /\ sweight st' 0 0 = Ok v /\ sweight st' 1 0 = Ok 7 /\ v <> 7.
Proof. exact embedded_not_shared. Qed.
Print Assumptions C24_built_embedded_refuted.

(** *** C17 *)

Theorem C17_valid_lists_accepted : forall (W : Type) (Weq : EqDecision W) fl m (rows : graph W),
  mode_ok m -> graph_ok fl rows ->
  exists g, construct fl m rows = Ok g /\ graph_ok fl g /\ same_edges g rows
    /\ (fl <> Undirected -> g = rows)
    /\ (fl = Undirected -> forall i a b x y, a < b -> row g i !! a = Some x -> row g i !! b = Some y -> tgt x <= tgt y).
Proof. exact construct_accepts. Qed.
Print Assumptions C17_valid_lists_accepted.

Theorem C17_invalid_lists_refused : forall (W : Type) (Weq : EqDecision W) fl m (rows : graph W),
  mode_ok m -> ~ graph_ok fl rows -> exists z, construct fl m rows = Throw z.
Proof. exact construct_refuses. Qed.
Print Assumptions C17_invalid_lists_refused.

(** With shared weights; [true] says that the compiler makes the result in place. *)
Theorem C17_shared_accepted_partial : forall (W : Type) (Weq : EqDecision W) fl m (rows : graph W),
  fl <> Directed -> mode_ok m -> graph_ok fl rows ->
  exists g st, construct fl m rows = Ok g /\ construct_shared true fl m rows = Ok st /\ shows fl st g.
Proof. exact construct_shared_accepts. Qed.
Print Assumptions C17_shared_accepted_partial.

Theorem C17_shared_refused : forall (W : Type) (Weq : EqDecision W) nrvo fl m (rows : graph W),
  fl <> Directed -> mode_ok m -> ~ graph_ok fl rows -> exists z, construct_shared nrvo fl m rows = Throw z.
Proof. exact construct_shared_refuses. Qed.
Print Assumptions C17_shared_refused.

Theorem C17_shared_accepted_without_elision_refuted : exists m (rows : graph nat),
  mode_ok m /\ reciprocal rows /\ construct_shared false Undirected m rows = UB.
Proof. exact shared_needs_nrvo. Qed.
Print Assumptions C17_shared_accepted_without_elision_refuted.

Example C17_example_hypotheses : mode_ok (Ordered Nat.ltb) /\ reciprocal ex_rows.
Proof. exact (conj natlt_ok ex_rows_ok). Qed.

Example C17_example :
  construct Undirected (Ordered Nat.ltb) ex_rows
  = Ok [[Edge 0 0 5; Edge 0 0 5; Edge 1 0 6; Edge 1 0 7]; [Edge 0 0 6; Edge 0 0 7]]
  /\ construct_shared true Undirected (Ordered Nat.ltb) ex_rows
  = Ok (SGraph [[Edge 0 0 0; Edge 0 0 0; Edge 1 0 1; Edge 1 0 2]; [Edge 0 0 1; Edge 0 0 2]] [5; 6; 7])
  /\ construct Undirected Unordered [[Edge 1 0 7]; [Edge 0 0 8]] = Throw LogicError
  /\ construct Embedded Unordered [[Edge 1 1 7]; [Edge 0 0 7]] = Throw OutOfRange
  /\ construct Directed Unordered [[Edge 1 0 7]; [Edge 2 0 8]] = Throw OutOfRange.
Proof. vm_compute. done. Qed.
