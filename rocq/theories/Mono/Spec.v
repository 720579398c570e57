(** Monotonic lists, and list edits (C08). *)
From stdpp Require Import list.
From Verif.Base Require Import Outcome.
From Verif.Mono Require Import Model.

(** No adjacent pair [(x, y)] satisfies [comp x y]. *)
Definition monotonic {T} (comp : T -> T -> bool) (l : list T) : Prop :=
  forall i x y, l !! i = Some x -> l !! S i = Some y -> comp x y = false.

(** The edit each call stands for, as a relation between lists.  [mutate] replaces the elements with
    indices in [first, last) by their images under [op]. *)
Inductive edit {T} : list T -> mcall T -> list T -> Prop :=
  | edit_push_back l v : edit l (MPushBack v) (l ++ [v])
  | edit_insert l r v : edit (l ++ r) (MInsert (length l) v) (l ++ v :: r)
  | edit_erase l x r : edit (l ++ x :: r) (MErase (length l)) (l ++ r)
  | edit_erase_range l m r :
      edit (l ++ m ++ r) (MEraseRange (length l) (length l + length m)) (l ++ r)
  | edit_clear l : edit l MClear []
  | edit_mutate l m m' r op :
      Forall2 (fun x y => op x = Ok y) m m' ->
      edit (l ++ m ++ r) (MMutate (length l) (length l + length m) op) (l ++ m' ++ r).
