(** Model of the making of the tree of suites, Source/sequoia/TestFramework/TestRunner.hpp L384-L426. *)
From stdpp Require Import list.
From Verif.Base Require Import Outcome.
From Verif.Text Require Import Model.
From Verif.Graph Require Import Model ModelWeighted ModelTree.
From Verif.Suite Require Import Model.
From Verif.Runner Require Import Model.

Section suites.
  (** [root]: the summary of [suite_node{}]; [init_suite] and [init_test]: log_summary with the given name, L402 and L413. *)
  Context {T D K : Type} (root : D) (init_suite : suite T -> D) (init_test : T -> D) (m : K -> T -> bool).

  (** L384-L419.  Which folders a test is given (L404-L411) is left out. *)
  Definition add_suite (s : suite T) (f : gfilter K) (g : wgraph unit (snode T D)) : gfilter K * res (outcome unit (snode T D)) :=
    let o := if order (edges g) =? 0 then (add_node_to_tree Directed Forward tt 0 (SNode root None) g).2 else Ok (Done g) in   (* L390 *)
    fbind (f, o) (fun f g =>
      extract_tree_into (granular m) Directed Forward tt (fun s => SNode (init_suite s) None)
        (fun t => SNode (init_test t) (Some t)) s f g 0).                         (* L400 *)

  (** One call of add_test_suite (L262-L318) after the other. *)
  Fixpoint add_suites (l : list (suite T)) (f : gfilter K) (g : wgraph unit (snode T D)) : gfilter K * res (outcome unit (snode T D)) :=
    match l with
    | [] => (f, Ok (Done g))
    | s :: l => fbind (add_suite s f g) (add_suites l)
    end.
End suites.
