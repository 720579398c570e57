(** C21: depth first search of trees. *)
From stdpp Require Import list.
From Verif.Base Require Import Outcome.
From Verif.Graph Require Import Model ModelTree ModelTraverse Spec SpecTree SpecTraverse SpecSpan ProofsSort ProofsSpan.

(** A tree with forward links, traversed from its root: the calls are those of a tree whose branches are all edges, in
    their order, and which has every node exactly once. *)
Theorem C21_depth_first_of_a_tree : forall (W : Type) find_all (g : graph W) ps r,
  in_range g -> tree_rep Forward g ps -> ps !! r = Some None -> (forall n, n < length ps -> anc ps n r) ->
  exists t, traverse_dfs find_all r g = Ok (tree_events t) /\ root t = r /\ spans g t /\ NoDup (nodes_of t)
    /\ forall n, n ∈ nodes_of t <-> n < length ps.
Proof. exact @dfs_tree_all. Qed.
Print Assumptions C21_depth_first_of_a_tree.

(** The children of the root are met in the order of its edges, not in that of their numbers. *)
Definition ex_tree : graph nat := [[Edge 3 0 7; Edge 1 0 8]; [Edge 2 0 9]; []; []].

Example C21_tree_example : in_range ex_tree /\ tree_rep Forward ex_tree [None; Some 0; Some 1; Some 0]
  /\ (forall n, n < 4 -> anc [None; Some 0; Some 1; Some 0] n 0)
  /\ traverse_dfs false 0 ex_tree = Ok (tree_events (Node 0 [(0, Node 3 []); (1, Node 1 [(0, Node 2 [])])])).
Proof.
  split; [apply in_range_all; by vm_compute|]. split.
  { split; [done|]. intros n Hn. do 4 (destruct n as [|n]; [vm_compute; try apply Permutation_refl; apply perm_swap|]).
    exfalso. cbn in Hn. lia. }
  split; [|by vm_compute].
  assert (anc [None; Some 0; Some 1; Some 0] 0 0) by (apply anc_refl; vm_compute; lia).
  assert (anc [None; Some 0; Some 1; Some 0] 1 0) by by eapply anc_up.
  intros n Hn. repeat (destruct n as [|n]; [first [done | by eapply anc_up]|]). exfalso. lia.
Qed.
