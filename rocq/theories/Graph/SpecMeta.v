(** Vocabulary for the meta data of edges (C117). *)
From stdpp Require Import list.
From Verif.Base Require Import Outcome.
From Verif.Graph Require Import Model Spec ModelMeta.

Section meta.
  Context {W M : Type}.

  (** The graph without the meta data *)
  Definition plain (g : graph (W * M)) : graph W := map (map (fun e => Edge (tgt e) (comp e) (fst (wt e)))) g.
  Definition plainly (r : res (graph (W * M))) : res (graph W) :=
    match r with Ok g => Ok (plain g) | Throw x => Throw x | UB => UB | NoFuel => NoFuel end.

  (** The meta data of the half edges of node [i], in order *)
  Definition metas (g : graph (W * M)) (i : nat) : list M := map (fun e => snd (wt e)) (row g i).

  Definition without {A} (k : nat) (l : list A) : list A := take k l ++ drop (S k) l.
  Definition having {A} (k : nat) (x : A) (l : list A) : list A := take k l ++ x :: drop k l.

  (** Nothing but the meta data of the halves [k] of node [s] and [q] of node [t] has gone *)
  Definition gone_metas (g g' : graph (W * M)) (s k t q : nat) : Prop :=
    if decide (s = t) then metas g' s = without (Nat.min k q) (without (Nat.max k q) (metas g s)) /\ forall j, j <> s -> metas g' j = metas g j
    else metas g' s = without k (metas g s) /\ metas g' t = without q (metas g t) /\ forall j, j <> s -> j <> t -> metas g' j = metas g j.

  (** No three half edges have the same weight, so that weights tell edges apart *)
  Definition told_apart (g : graph (W * M)) : Prop :=
    forall w i k j l m n, (i, k) <> (j, l) -> (i, k) <> (m, n) -> (j, l) <> (m, n) ->
      (fst ∘ wt <$> row g i !! k) = Some w -> (fst ∘ wt <$> row g j !! l) = Some w -> (fst ∘ wt <$> row g m !! n) <> Some w.
End meta.
