(** What is claimed of the checks of transitions (C50). *)
From stdpp Require Import list.
From Verif.Base Require Import Outcome.
From Verif.Graph Require Import Model ModelWeighted Spec.
From Verif.Text Require Import Model Spec.
From Verif.Transition Require Import Model.

Section spec.
  Context {T : Type}.

  (** The description, the nodes and the description of the transition, on lines of their own. *)
  Definition wanted_message (desc : text) (i j : nat) (t : transition T) : text :=
    join [nl] (List.filter (fun x => match x with [] => false | _ => true end) [desc; nodes_text i j; description t]).

  (** The call made for a transition from [i], where the value is [x], to [j], where it is predicted to be [y]. *)
  Definition wanted_call (v : overload) (desc : text) (i j : nat) (x y : T) (t : transition T) : call T :=
    Call (wanted_message desc i j t) (fn t x) y
      (match v with Two => None | _ => Some x end)
      (match v with Indices => Some (i, j) | _ => None end)
      (match v with Ordered | OrderedFunctions => ordering t | _ => None end).

  (** [cs] are the calls for the transitions from [i], in their order. *)
  Definition calls_from (v : overload) (desc : text) (g : tgraph T) (i : nat) (cs : list (call T)) : Prop :=
    Forall2 (fun c e => exists x y, weights g !! i = Some x /\ weights g !! tgt e = Some y /\ c = wanted_call v desc i (tgt e) x y (wt e))
      cs (row (edges g) i).
End spec.
