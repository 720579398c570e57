(** What is claimed of suites and their filters (C39). *)
From Coq Require Import Ascii.
From stdpp Require Import list.
From Verif.Text Require Import Model.
From Verif.Graph Require Import ModelTree.
From Verif.Suite Require Import Model.

Section spec.
  Context {I K V : Type}.

  (** The items of a suite in order, each with the names of the suites around it, the outermost first. *)
  Fixpoint items_of (around : list text) (s : suite I) : list (I * list text) :=
    match s with
    | SItems n items => map (fun i => (i, around ++ [n])) items
    | SSuites n subs => concat (map (items_of (around ++ [n])) subs)
    end.

  (** The tree of what is wanted: suites without wanted items are left out. *)
  Fixpoint wanted_tree (want : I -> list text -> bool) (ts : suite I -> V) (ti : I -> V) (around : list text) (s : suite I)
      : option (itree V) :=
    let children :=
      match s with
      | SItems n items => map (fun i => INode (ti i) []) (List.filter (fun i => want i (around ++ [n])) items)
      | SSuites n subs => omap (wanted_tree want ts ti (around ++ [n])) subs
      end in
    match children with
    | [] => None
    | _ => Some (INode (ts s) children)
    end.

  (** An item is wanted if nothing is selected, or it is selected itself, or a suite around it is. *)
  Definition wanted (m : K -> I -> bool) (suites : option (list text)) (items : option (list K)) (i : I) (ns : list text) : Prop :=
    (suites = None /\ items = None)
    \/ (exists l k, items = Some l /\ k ∈ l /\ m k i = true)
    \/ (exists l n, suites = Some l /\ n ∈ l /\ n ∈ ns).
End spec.

(** The selection [a], number [j] of [l], is the first one which meets [x]. *)
Definition first_met {A B} (m : A -> B -> bool) (l : list A) (j : nat) (x : B) : Prop :=
  (exists a, l !! j = Some a /\ m a x = true) /\ forall j' a', j' < j -> l !! j' = Some a' -> m a' x = false.

(** [l'] is the list [l] of selections, those marked which are the first to meet one of [xs]. *)
Definition marks {A B} (m : A -> B -> bool) (l : list A) (xs : list B) (l' : list (A * bool)) : Prop :=
  length l' = length l /\
  forall j a, l !! j = Some a -> exists b, l' !! j = Some (a, b) /\ (b = true <-> exists x, x ∈ xs /\ first_met m l j x).

Definition same_text (a n : text) : bool := bool_decide (a = n).
