(** What is claimed of the order of traversals (C58). *)
From stdpp Require Import list.
From Verif.Graph Require Import Model Spec ModelTraverse.

(** The nodes to which [n] has edges, in the order in which these are met. *)
Definition targets {W} (sr : search) (g : graph W) (n : nat) : list nat :=
  match sr with
  | PseudoDepthFirst => reverse (map tgt (row g n))
  | _ => map tgt (row g n)
  end.

(** A list without later occurrences of what it has already. *)
Fixpoint firsts (l : list nat) : list nat :=
  match l with
  | [] => []
  | x :: l => x :: filter (fun y => y <> x) (firsts l)
  end.

(** When the nodes [vs] have been visited: the others which they have edges to, in the order in which these were found. *)
Definition fresh {W} (sr : search) (g : graph W) (vs : list nat) : list nat :=
  filter (fun u => u ∉ vs) (firsts (concat (map (targets sr g) vs))).

(** Breadth first search takes the oldest of these, pseudo depth first search the newest one, priority first search
    that which its queue gives. *)
Definition choice (sr : search) (k : nat) (l : list nat) : nat :=
  match sr with
  | BreadthFirst => 0
  | PseudoDepthFirst => length l - 1
  | PriorityFirst choose => choose k l
  end.

(** The node visited after [vs].  If there are no others then a new search starts with the first node not visited. *)
Definition comes_next {W} (sr : search) (g : graph W) (start : nat) (vs : list nat) (v : nat) : Prop :=
  match fresh sr g vs with
  | [] => if decide (vs = []) then v = start else v ∉ vs /\ forall u, u < v -> u ∈ vs
  | l => l !! choice sr (length vs) l = Some v
  end.

(** The priority queue gives out an element of highest priority. *)
Definition by_priority (priority : nat -> nat) (choose : nat -> list nat -> nat) : Prop :=
  forall k l, l <> [] -> exists v, l !! choose k l = Some v /\ forall u, u ∈ l -> priority u <= priority v.

(** Depth first search, from the latest of the nodes [vs] that has an edge to another one: its first such edge leads to [v]. *)
Definition goes_deeper {W} (g : graph W) (vs : list nat) (v : nat) : Prop :=
  exists vs1 u vs2 ts1 ts2, vs = vs1 ++ u :: vs2 /\ map tgt (row g u) = ts1 ++ v :: ts2
    /\ v ∉ vs /\ (forall t, t ∈ ts1 -> t ∈ vs) /\ forall w e, w ∈ vs2 -> e ∈ row g w -> tgt e ∈ vs.

(** If there is none then a new search starts with the first node not visited. *)
Definition comes_next_deep {W} (g : graph W) (start : nat) (vs : list nat) (v : nat) : Prop :=
  goes_deeper g vs v
  \/ (forall w e, w ∈ vs -> e ∈ row g w -> tgt e ∈ vs) /\ if decide (vs = []) then v = start else v ∉ vs /\ forall u, u < v -> u ∈ vs.
