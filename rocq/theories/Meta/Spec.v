(** Vocabulary for C31. *)
From stdpp Require Import list.
From Verif.Meta Require Import Model.

(** The list with later duplicates removed: every element of [l], once, in order of first occurrence. *)
Definition dedup_of {A} (l d : list A) : Prop :=
  NoDup d /\ (forall x, x ∈ d <-> x ∈ l) /\
  (forall i j x y, d !! i = Some x -> d !! j = Some y -> i < j ->
     exists n m, l !! n = Some x /\ l !! m = Some y /\ n < m /\ forall k, l !! k = Some y -> m <= k).

Definition is_type_list (t : ty) : bool := match t with TList _ => true | TBase _ => false end.
