(** Vocabulary for the creation of tests (C116). *)
From Coq Require Import Ascii String.
From stdpp Require Import list.
From Verif.Base Require Import Outcome.
From Verif.Text Require Import Model Spec.
From Verif.Creator Require Import ModelCreate SpecHeader.
From Verif.Select Require Import Spec.
Local Open Scope res_scope.
Local Notation "⌜ s ⌝" := (list_ascii_of_string s%string).

Definition end_of (r : creation) : option project := match r with Complete p _ | Stopped p => Some p | Undefined_ => None end.

(** Edits of a text one after the other *)
Fixpoint edits {A} (f : text -> A -> res text) (l : text) (xs : list A) : res text :=
  match xs with
  | [] => Ok l
  | x :: xs => let? l' := f l x in edits f l' xs
  end.

(** Whether an ending is that of a header, or of a source file *)
Definition header_ending (e : text) : Prop := ⌜".hpp"⌝ `suffix_of` e.
Definition source_ending (e : text) : Prop := ⌜".cpp"⌝ `suffix_of` e.
(** Headers for utilities need not be included by the main files *)
Definition for_utilities (tests : path) (out : path) : Prop := occurs ⌜"Utilities.hpp"⌝ (⌜"/"⌝ ++ slashed (tests ++ out)).

(** [xs]: those of [es] with [P], in the same order *)
Inductive chosen (P : text -> Prop) : list text -> list text -> Prop :=
  | chosen_nil : chosen P [] []
  | chosen_take e es xs : P e -> chosen P es xs -> chosen P (e :: es) (e :: xs)
  | chosen_skip e es xs : ~ P e -> chosen P es xs -> chosen P (e :: es) xs.
