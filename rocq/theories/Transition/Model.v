(** Model of the checks of transitions between the states of an object,
    Source/sequoia/TestFramework/StateTransitionUtilities.hpp.

    Transitions are functions without effects which return, object generators give the same value whenever they are
    called, and the check function returns: what is modelled is the calls of it, in their order. *)
From Coq Require Import Ascii String.
From stdpp Require Import list.
From Verif.Base Require Import Outcome.
From Verif.Text Require Import Model.
From Verif.Failure Require Import Model.
From Verif.Graph Require Import Model ModelWeighted ModelTraverse.
Local Open Scope res_scope.

Section transition.
  Context {T : Type}.

  (** transition_info, L25-L41; the ordering is there for totally ordered types. *)
  Record transition := Transition { description : text; fn : T -> T; ordering : option comparison }.

  (** transition_graph, L80-L81: a directed graph. *)
  Definition tgraph : Type := wgraph transition T.

  (** The overloads of check, by what they hand on, L107-L178. *)
  Inductive overload := Two | Three | Indices | Ordered | Functions | OrderedFunctions.

  (** A call of the check function.  The functions handed on by the last two overloads are given by their values. *)
  Record call := Call {
    message : text; obtained : T; predicted : T; from : option T; indices : option (nat * nat); order_passed : option comparison
  }.

  (** "Transition from node i to j" *)
  Definition nodes_text (i j : nat) : text :=
    list_ascii_of_string "Transition from node "%string ++ decimal (N.of_nat i) ++ list_ascii_of_string " to "%string ++ decimal (N.of_nat j).

  (** make, L198-L208: L203-L205. *)
  Definition make_message (desc : text) (i j : nat) (w : transition) : res text :=
    let line := nodes_text i j in
    append_lines (S (List.length line + List.length (description w))) desc [line; description w].

  (** The edge functor of the overload, L109-L114 and so on, with invoke_check_fn, L88-L108. *)
  Definition check_edge (v : overload) (desc : text) (g : tgraph) (i k : nat) : res call :=
    let? r := rget (edges g) i in
    let? e := rget r k in
    let? m := make_message desc i (tgt e) (wt e) in
    let? x := rget (weights g) i in                                                 (* L206 *)
    let? y := rget (weights g) (tgt e) in                                           (* L93, L105 *)
    Ok (Call m (fn (wt e) x) y
          (match v with Two => None | _ => Some x end)
          (match v with Indices => Some (i, tgt e) | _ => None end)
          (match v with Ordered | OrderedFunctions => ordering (wt e) | _ => None end)).

  Fixpoint check_events (v : overload) (desc : text) (g : tgraph) (xs : list event) : res (list call) :=
    match xs with
    | [] => Ok []
    | First n k :: xs => let? c := check_edge v desc g n k in let? cs := check_events v desc g xs in Ok (c :: cs)
    | _ :: xs => check_events v desc g xs
    end.

  (** check, L182-L187. *)
  Definition check (v : overload) (desc : text) (g : tgraph) : res (list call) :=
    let? xs := traverse Directed BreadthFirst None true 0 (edges g) in
    check_events v desc g xs.
End transition.

Arguments transition : clear implicits.
Arguments tgraph : clear implicits.
Arguments call : clear implicits.
