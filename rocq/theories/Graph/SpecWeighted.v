(** What is claimed of node weights (C22). *)
From stdpp Require Import list.
From Verif.Base Require Import Outcome.
From Verif.Graph Require Import Model ModelWeighted Spec.

Section spec.
  Context {W V : Type} `{!EqDecision W}.
  Implicit Types g : wgraph W V.

  (** The number of weights is the number of nodes, and the edges make up a graph of that kind. *)
  Definition consistent (fl : flavour) g : Prop :=
    graph_ok fl (edges g) /\ length (weights g) = order (edges g).

  Inductive wop :=
    | WAdd (v : V)
    | WInsert (pos : nat) (v : V)
    | WErase (n : nat)
    | WSwap (i j : nat)
    | WSet (n : nat) (v : V)
    | WMutate (n : nat) (f : V -> V)
    | WEdges (o : op W).

  Definition is_edge_op (o : op W) : Prop :=
    match o with AddNode | InsertNode _ | EraseNode _ | SwapNodes _ _ => False | _ => True end.

  Definition wallowed (fl : flavour) g (o : wop) : Prop :=
    match o with
    | WSet n _ | WMutate n _ => n <= length (weights g)
    | WEdges o => is_edge_op o /\ allowed fl (edges g) o
    | _ => True
    end.

  Definition wstep (fl : flavour) (o : wop) g : outcome W V :=
    match o with
    | WAdd v => add_node_w false false v g
    | WInsert pos v => insert_node_w false false pos v g
    | WErase n => erase_node_w fl n g
    | WSwap i j => swap_nodes_w fl i j g
    | WSet n v => set_node_weight_w n v g
    | WMutate n f => mutate_node_weight_w n f g
    | WEdges o => edges_w (step fl o) g
    end.

  (** Each node is given a name when it is created; [names] lists the names in the order of the
      nodes, and [given] is the weight last given to each name. *)
  Inductive history (fl : flavour) : wgraph W V -> list nat -> (nat -> V) -> Prop :=
    | hist_start g names given :
        consistent fl g -> NoDup names -> weights g = map given names -> history fl g names given
    | hist_add g names given v c g' :
        history fl g names given -> c ∉ names -> wstep fl (WAdd v) g = Done g' ->
        history fl g' (names ++ [c]) (fun x => if decide (x = c) then v else given x)
    | hist_insert g names given pos v c g' :
        history fl g names given -> c ∉ names -> wstep fl (WInsert pos v) g = Done g' ->
        history fl g' (take pos names ++ c :: drop pos names) (fun x => if decide (x = c) then v else given x)
    | hist_erase g names given n g' :
        history fl g names given -> wstep fl (WErase n) g = Done g' ->
        history fl g' (take n names ++ drop (S n) names) given
    | hist_swap g names given i j c d g' :
        history fl g names given -> wstep fl (WSwap i j) g = Done g' ->
        names !! i = Some c -> names !! j = Some d ->
        history fl g' (<[i := d]> (<[j := c]> names)) given
    | hist_set g names given n v c g' :
        history fl g names given -> wstep fl (WSet n v) g = Done g' -> names !! n = Some c ->
        history fl g' names (fun x => if decide (x = c) then v else given x)
    | hist_mutate g names given n f c g' :
        history fl g names given -> wstep fl (WMutate n f) g = Done g' -> names !! n = Some c ->
        history fl g' names (fun x => if decide (x = c) then f (given x) else given x)
    | hist_edges g names given o g' :
        history fl g names given -> wallowed fl g (WEdges o) -> wstep fl (WEdges o) g = Done g' ->
        history fl g' names given.
End spec.
Arguments wop : clear implicits.
