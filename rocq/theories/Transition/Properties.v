(** Properties of the checks of transitions (C50). *)
From Coq Require Import Ascii String.
From stdpp Require Import list.
From Verif.Base Require Import Outcome.
From Verif.Graph Require Import Model ModelWeighted Spec.
From Verif.Text Require Import Model.
From Verif.Transition Require Import Model Spec Proofs.

Local Notation "⌜ s ⌝" := (list_ascii_of_string s%string).

(** C50: there is one call for each transition, with the result of the transition from the value of its source and the
    value of its target; those of a node are together, in the order of its edges. *)
Theorem C50_every_transition_once {T} : forall v desc (g : tgraph T), in_range (edges g) -> List.length (weights g) = List.length (edges g) ->
  exists ns css, check v desc g = Ok (List.concat css) /\ ns ≡ₚ seq 0 (List.length (edges g)) /\ Forall2 (calls_from v desc g) ns css.
Proof. exact check_all. Qed.
Print Assumptions C50_every_transition_once.

(** Two transitions between the same nodes, a loop, and a node which cannot be reached from the first. *)
Definition ex_graph : tgraph nat :=
  WGraph [[Edge 1 0 (Transition ⌜"add"⌝ (Nat.add 2) (Some Lt)); Edge 1 0 (Transition ⌜""⌝ (fun _ => 7) (Some Lt))];
          [Edge 1 0 (Transition ⌜"same"⌝ (fun x => x) (Some Eq))];
          [Edge 0 0 (Transition ⌜"down"⌝ Nat.pred (Some Gt))]] [5; 7; 6].

Example C50_example : in_range (edges ex_graph) /\ List.length (weights ex_graph) = List.length (edges ex_graph).
Proof.
  split; [|done]. intros i e. unfold row, ex_graph. cbn [edges].
  destruct i as [|[|[|i]]]; cbn; intros He; repeat (apply elem_of_cons in He as [->|He]; [cbn; lia|]); by apply elem_of_nil in He.
Qed.

Example C50_example_calls : check Indices ⌜"d"⌝ ex_graph =
  Ok [Call (⌜"d"⌝ ++ [nl] ++ ⌜"Transition from node 0 to 1"⌝ ++ [nl] ++ ⌜"add"⌝) 7 7 (Some 5) (Some (0, 1)) None;
      Call (⌜"d"⌝ ++ [nl] ++ ⌜"Transition from node 0 to 1"⌝) 7 7 (Some 5) (Some (0, 1)) None;
      Call (⌜"d"⌝ ++ [nl] ++ ⌜"Transition from node 1 to 1"⌝ ++ [nl] ++ ⌜"same"⌝) 7 7 (Some 7) (Some (1, 1)) None;
      Call (⌜"d"⌝ ++ [nl] ++ ⌜"Transition from node 2 to 0"⌝ ++ [nl] ++ ⌜"down"⌝) 5 5 (Some 6) (Some (2, 0)) None].
Proof. by vm_compute. Qed.
