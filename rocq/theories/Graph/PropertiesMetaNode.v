(** Properties of the meta data of edges when nodes are inserted, erased or swapped (C117). *)
From stdpp Require Import list.
From Verif.Base Require Import Outcome.
From Verif.Graph Require Import Model Spec ModelMeta SpecMeta ProofsMetaNode.

Theorem C117_nodes_plain : forall (W M : Type) (Weq : EqDecision W) (g : graph (W * M)),
  (forall pos, plain (insert_node pos g) = insert_node pos (plain g)) /\
  (forall fl n, plainly (erase_node fl n g) = erase_node fl n (plain g)) /\
  (forall fl i j, plainly (swap_nodes fl i j g) = swap_nodes fl i j (plain g)).
Proof.
  exact (fun W M Weq g => conj (fun pos => insert_node_plain pos g) (conj (fun fl n => erase_node_plain fl n g) (fun fl i j => swap_nodes_plain fl i j g))).
Qed.
Print Assumptions C117_nodes_plain.

Theorem C117_insert_node : forall (W M : Type) (Weq : EqDecision W) pos (g : graph (W * M)) j,
  let n := Nat.min pos (length g) in metas (insert_node pos g) n = [] /\ metas (insert_node pos g) (up n j) = metas g j.
Proof. exact (fun W M Weq => insert_node_metas). Qed.
Print Assumptions C117_insert_node.

(** The halves of edges which remain keep their meta data. *)
Theorem C117_erase_node : forall (W M : Type) (Weq : EqDecision W) fl n (g : graph (W * M)),
  graph_ok fl (plain g) -> n < length g ->
  exists g', erase_node fl n g = Ok g' /\ graph_ok fl (plain g') /\ length g' = length g - 1 /\
    forall j, j <> n -> metas g' (down n j) = map meta (filter (fun e => tgt e <> n) (row g j)).
Proof. exact (fun W M Weq => erase_node_metas). Qed.
Print Assumptions C117_erase_node.

Theorem C117_swap_nodes : forall (W M : Type) (Weq : EqDecision W) fl i j (g g' : graph (W * M)),
  swap_nodes fl i j g = Ok g' -> metas g' i = metas g j /\ metas g' j = metas g i /\ forall a, a <> i -> a <> j -> metas g' a = metas g a.
Proof. exact (fun W M Weq => swap_nodes_metas). Qed.
Print Assumptions C117_swap_nodes.

Example C117_nodes_example : exists g1 g2 g3 g4 g5 : graph (unit * nat),
  join_m Embedded 0 1 1 2 tt [[]; []; []] = Ok g1 /\ join_m Embedded 1 2 3 4 tt g1 = Ok g2 /\ join_m Embedded 2 0 5 6 tt g2 = Ok g3 /\
  swap_nodes Embedded 0 1 g3 = Ok g4 /\ map (metas g4) [0; 1; 2] = [[2; 3]; [1; 6]; [4; 5]] /\
  erase_node Embedded 0 g4 = Ok g5 /\ map (metas g5) [0; 1] = [[6]; [5]].
Proof. do 5 eexists. repeat split; by vm_compute. Qed.
