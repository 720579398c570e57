(** What is claimed of weights shared by the two halves of an edge (C24). *)
From stdpp Require Import list.
From Verif.Base Require Import Outcome.
From Verif.Graph Require Import Model Spec ModelShared.

Section spec.
  Context {V : Type}.
  Implicit Types g : sgraph V.

  (** The operations other than those on weights and joins. *)
  Definition is_plain (o : op nat) : Prop :=
    match o with
    | AddNode | InsertNode _ | EraseNode _ | EraseEdge _ _ | SwapNodes _ _ | SwapEdges _ _ _ | SortEdges _ _ _ _ _ => True
    | _ => False
    end.

  Definition sallowed (fl : flavour) g (o : sop V) : Prop :=
    match o with
    | SPlain o => is_plain o /\ allowed fl (sedges g) o
    | SJoin _ _ _ => True
    | SInsertJoin i1 k1 i2 k2 _ => allowed fl (sedges g) (InsertJoin i1 k1 i2 k2 0)
    | SInsertLoop i k pos2 _ => allowed fl (sedges g) (InsertLoop i k pos2 0)
    | SSet i k _ | SMutate i k _ => is_Some (row (sedges g) i !! k)
    end.

  (** Everything that can be made from [g0]. *)
  Inductive sreachable (fl : flavour) (g0 : sgraph V) : sgraph V -> Prop :=
    | sreach_refl : sreachable fl g0 g0
    | sreach_step g o g' :
        sreachable fl g0 g -> sallowed fl g o -> sstep fl o g = Ok g' -> sreachable fl g0 g'.

  (** Edge [k] of [s] and edge [q] of [t] are the two halves of one edge. *)
  Definition two_halves g (s k t q : nat) : Prop :=
    (t, q) <> (s, k) /\
    exists e e', row (sedges g) s !! k = Some e /\ row (sedges g) t !! q = Some e'
      /\ tgt e = t /\ tgt e' = s /\ wt e = wt e'.
End spec.
