(** Where trees go wrong: witnesses. *)
From Coq Require Import Sorted.
From stdpp Require Import list list_numbers.
From Verif.Base Require Import Outcome ListLemmas.
From Verif.Graph Require Import Model ModelWeighted Spec SpecWeighted ModelTree SpecTree ProofsBase ProofsTop ProofsPrune ProofsPruneBack
  ProofsTree ProofsGrow ProofsForest.
Local Open Scope res_scope.

(** A root with a child, which has a child itself in the second one. *)
Definition two_nodes : list (option nat) := [None; Some 0].
Definition three_nodes : list (option nat) := [None; Some 0; Some 1].

Definition fwd2 : wgraph nat nat := WGraph [[Edge 1 0 0]; []] [10; 11].
Definition fwd3 : wgraph nat nat := WGraph [[Edge 1 0 0]; [Edge 2 0 0]; []] [10; 11; 12].
Definition sym2 : wgraph nat nat := WGraph [[Edge 1 0 0]; [Edge 0 0 0]] [10; 11].
Definition sym3 : wgraph nat nat := WGraph [[Edge 1 0 0]; [Edge 0 0 0; Edge 2 0 0]; [Edge 1 0 0]] [10; 11; 12].

Lemma fwd2_made : tree_history Directed Forward 0 fwd2 two_nodes.
Proof.
  eapply (th_insert Directed Forward 0 (WGraph [[]] [10]) [None] 1 0 11 1 fwd2); [|right; cbn; lia|done].
  eapply (th_insert Directed Forward 0 (WGraph [] []) [] 0 0 10 0); [constructor|by left|done].
Qed.

Lemma fwd3_made : tree_history Directed Forward 0 fwd3 three_nodes.
Proof. eapply (th_insert Directed Forward 0 fwd2 two_nodes 2 1 12 2 fwd3); [apply fwd2_made|right; cbn; lia|done]. Qed.

Lemma sym2_made : tree_history Undirected Symmetric 0 sym2 two_nodes.
Proof.
  eapply (th_insert Undirected Symmetric 0 (WGraph [[]] [10]) [None] 1 0 11 1 sym2); [|right; cbn; lia|done].
  eapply (th_insert Undirected Symmetric 0 (WGraph [] []) [] 0 0 10 0); [constructor|by left|done].
Qed.

Lemma sym3_made : tree_history Undirected Symmetric 0 sym3 three_nodes.
Proof. eapply (th_insert Undirected Symmetric 0 sym2 two_nodes 2 1 12 2 sym3); [apply sym2_made|right; cbn; lia|done]. Qed.

(** insert_node with a parent at or above the position: the parent is looked up once the nodes have moved. *)
Lemma insert_own_parent :
  exists g', insert_node_to_tree Directed Forward 0 1 1 19 fwd2 = (1, Ok (Done g')) /\ row (edges g') 1 = [Edge 1 0 0]
    /\ forall ps, tree_rep Forward (edges g') ps -> ~ tree_shaped ps.
Proof.
  eexists. split; [vm_compute; reflexivity|]. split; [done|]. intros ps [Hl Hr] Hsh. cbn [edges length] in Hl.
  assert (H1 : 1 ∈ children_of ps 1).
  { pose proof (Hr 1 ltac:(lia)) as H1. cbn in H1.
   rewrite <- H1. left. } apply children_elem in H1.
  destruct (tree_depth ps 1 Hsh ltac:(lia)) as [k Hk]. inversion Hk as [? Hn|? p k' Hn Hk']; [congruence|].
  assert (p = 1) as -> by congruence. assert (k = k') by (eapply depth_fun; [exact Hk|exact Hk']). lia.
Qed.

Lemma insert_other_parent :
  exists g' ps', insert_node_to_tree Directed Forward 0 1 2 19 fwd3 = (1, Ok (Done g'))
    /\ weights g' = [10; 19; 11; 12] /\ tree_rep Forward (edges g') ps' /\ ps' !! 1 = Some (Some 2).
Proof.
  eexists _, [None; Some 2; Some 0; Some 2]. split; [vm_compute; reflexivity|]. split; [done|]. split; [|done].
  split; [done|]. intros n Hn. cbn in Hn. destruct n as [|[|[|[|n]]]]; cbn; try done; try lia. apply perm_swap.
Qed.

(** add_node with a parent which is no node leaves the new node behind, and with the order as the parent gives a loop. *)
Lemma add_unknown_parent :
  exists g', add_node_to_tree Directed Forward 0 5 19 fwd2 = (2, Ok (Failed OutOfRange g'))
    /\ forall ps, tree_rep Forward (edges g') ps -> ~ tree_shaped ps.
Proof.
  eexists. split; [vm_compute; reflexivity|]. intros ps Hrep Hsh. pose proof (tree_edges _ _ _ Hrep Hsh) as Hc.
  destruct Hrep as [Hl _]. rewrite <- Hl in Hc. by vm_compute in Hc.
Qed.

Lemma add_own_parent :
  exists g', add_node_to_tree Directed Forward 0 2 19 fwd2 = (2, Ok (Done g')) /\ row (edges g') 2 = [Edge 2 0 0].
Proof. eexists. split; [vm_compute; reflexivity|done]. Qed.

(** prune with a child numbered below its parent.  swap_nodes is public: DynamicTree.hpp L87. *)
Definition fwd2_swapped : wgraph nat nat := WGraph [[]; [Edge 0 0 0]] [11; 10].

Lemma prune_forward_throws :
  swap_nodes_w Directed 0 1 fwd2 = Done fwd2_swapped
  /\ tree_rep Forward (edges fwd2_swapped) [Some 1; None] /\ tree_shaped [Some 1; None] /\ 1 < order (edges fwd2_swapped)
  /\ exists g', prune Directed Forward 1 fwd2_swapped = Ok (Failed OutOfRange g') /\ weights g' = [10].
Proof.
  split; [vm_compute; reflexivity|]. split.
  { split; [done|]. intros n Hn. cbn in Hn. destruct n as [|[|n]]; [done|done|lia]. }
  split. { right. exists 1. split; [done|]. intros n Hn. cbn in Hn. destruct n as [|[|n]]; [|apply anc_refl; cbn; lia|lia].
    eapply anc_up; [done|]. apply anc_refl. cbn; lia. }
  split; [cbn; lia|]. eexists. split; [vm_compute; reflexivity|done].
Qed.

Definition sym2_swapped : wgraph nat nat := WGraph [[Edge 1 0 0]; [Edge 0 0 0]] [11; 10].

(** Node 0 is the leaf of weight 11 now. *)
Lemma prune_symmetric_leaf :
  swap_nodes_w Undirected 0 1 sym2 = Done sym2_swapped
  /\ tree_rep Symmetric (edges sym2_swapped) [Some 1; None] /\ parent_first (edges sym2_swapped) [Some 1; None]
  /\ prune Undirected Symmetric 0 sym2_swapped = Ok (Done (WGraph [] []))
  /\ ~ anc [Some 1; None] 1 0.
Proof.
  split; [vm_compute; reflexivity|]. split.
  { split; [done|]. intros n Hn. cbn in Hn. destruct n as [|[|n]]; [done|done|lia]. }
  split. { intros n p Hp. destruct n as [|[|n]]; [|done..]. cbn in Hp. by injection Hp as <-. }
  split; [vm_compute; reflexivity|]. intros Ha. apply anc_inv in Ha as [?|(p & Hp & _)]; [done|done].
Qed.

(** The edges of a symmetric tree may be swapped, DynamicTree.hpp L84: prune then calls itself for ever. *)
Definition sym3_swapped : wgraph nat nat := WGraph [[Edge 1 0 0]; [Edge 2 0 0; Edge 0 0 0]; [Edge 1 0 0]] [10; 11; 12].

Lemma prune_symmetric_diverges :
  edges_w (swap_edges 1 0 1) sym3 = Done sym3_swapped
  /\ tree_rep Symmetric (edges sym3_swapped) three_nodes /\ ordered three_nodes
  /\ forall fuel, prune_down fuel Undirected Symmetric 1 sym3_swapped = NoFuel.
Proof.
  split; [vm_compute; reflexivity|]. split.
  { split; [done|]. intros n Hn. cbn in Hn. destruct n as [|[|[|n]]]; cbn; try done; try lia. apply perm_swap. }
  split. { intros n p Hp. destruct n as [|[|[|n]]]; cbn in Hp; try done; injection Hp as <-; lia. }
  assert (H : forall fuel, prune_down fuel Undirected Symmetric 1 sym3_swapped = NoFuel /\ prune_down fuel Undirected Symmetric 0 sym3_swapped = NoFuel).
  { induction fuel as [|fuel [IH1 IH2]]; [done|]. split; cbn; [by rewrite IH2|by rewrite IH1]. }
  intros fuel. apply H.
Qed.

(** *** A tree with some branching *)

Definition ex_tree : itree nat := INode 10 [INode 11 [INode 12 []; INode 13 []]; INode 14 []].
Definition ex_parents : list (option nat) := [None; Some 0; Some 1; Some 1; Some 0].

Definition ex_made (fl : flavour) (d : direction) : wgraph nat nat :=
  match make_tree fl d 0 ex_tree with Ok (Done g) => g | _ => WGraph [] [] end.

Lemma ex_made_ok fl d : tree_flavour fl d -> good fl d (ex_made fl d) ex_parents /\ tree_shaped ex_parents.
Proof.
  intros Hfl. destruct (make_tree_ok fl d 0 Hfl ex_tree) as (g & H1 & H2 & H3 & H4). unfold ex_made. rewrite H1. done.
Qed.

Lemma ex_outside : outside ex_parents 1 [0; 4] /\ kept [0; 4] ex_parents [None; Some 0].
Proof.
  assert (H1 : forall n, anc ex_parents n 1 <-> n = 1 \/ n = 2 \/ n = 3).
  { intros n. split.
    - intros Ha. pose proof (anc_lt _ _ _ Ha) as Hlt. cbn in Hlt. destruct n as [|[|[|[|[|n]]]]]; [|auto|auto|auto| |lia].
      + apply anc_inv in Ha as [?|(p & Hp & _)]; done.
      + apply anc_inv in Ha as [?|(p & Hp & Ha)]; [done|]. cbn in Hp. injection Hp as <-. apply anc_inv in Ha as [?|(p & Hp & _)]; done.
    - intros [-> | [-> | ->]]; [apply anc_refl; cbn; lia| |]; (eapply anc_up; [done|]; apply anc_refl; cbn; lia). }
  split; [split|split].
  - repeat constructor.
  - intros x. rewrite H1, !elem_of_cons, elem_of_nil. cbn. lia.
  - done.
  - intros i n Hi. destruct i as [|[|i]]; [| |done]; injection Hi as <-; (eexists; split; [done|]); [done|]. by exists 0.
Qed.

Lemma ex_prune fl d : tree_flavour fl d ->
  consistent fl (ex_made fl d) /\ tree_rep d (edges (ex_made fl d)) ex_parents /\ tree_shaped ex_parents
  /\ ordered ex_parents /\ (d = Symmetric -> parent_first (edges (ex_made fl d)) ex_parents)
  /\ anc ex_parents 3 1 /\ outside ex_parents 1 [0; 4] /\ kept [0; 4] ex_parents [None; Some 0].
Proof.
  intros Hfl. destruct (ex_made_ok fl d Hfl) as [[H1 H2 H3 H4] H5]. repeat (split; [done|]). split; [|apply ex_outside].
  eapply anc_up; [done|]. apply anc_refl. cbn. lia.
Qed.

Lemma ex_pruned fl d : tree_flavour fl d ->
  exists g', prune fl d 1 (ex_made fl d) = Ok (Done g') /\ weights g' = [10; 14].
Proof.
  intros Hfl. assert (Hcases : d = Symmetric \/ (d <> Symmetric /\ fl = Directed)) by (destruct Hfl; destruct d; auto).
  destruct Hcases as [->|[Hd ->]]; [destruct fl|destruct d; [| |done]]; eexists; (split; [vm_compute; reflexivity|done]).
Qed.

Lemma ex_satisfying fl d : tree_flavour fl d ->
  consistent fl (ex_made fl d) /\ satisfying Nat.even (weights (ex_made fl d)) = [0; 2; 4].
Proof.
  intros Hfl. split; [apply ex_made_ok, Hfl|].
  assert (Hcases : d = Symmetric \/ (d <> Symmetric /\ fl = Directed)) by (destruct Hfl; destruct d; auto).
  destruct Hcases as [->|[Hd ->]]; [destruct fl|destruct d; [| |done]]; vm_compute; reflexivity.
Qed.
