(** Vocabulary for the properties of factories. *)
From Coq Require Import Ascii.
From stdpp Require Import list.
From Verif.Base Require Import Outcome Compare.

(** The given names can be those of the products: none is empty, none occurs twice. *)
Definition proper_names (ns : list (list ascii)) : Prop := NoDup ns /\ [] ∉ ns.
