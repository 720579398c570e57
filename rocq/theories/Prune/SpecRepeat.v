(** Vocabulary for the prune files after repeated runs (C114). *)
From Coq Require Import Ascii NArith.
From stdpp Require Import list.
From Verif.Base Require Import Outcome.
From Verif.Text Require Import Model.
From Verif.Prune Require Import Model Spec ModelRepeat.

Definition proper_attempt (repo : list text) (a : attempt) : Prop :=
  match a with
  | FinishedAll failed time => proper repo (All failed time)
  | FinishedSome executed failed => proper repo (Some_ executed failed)
  | Crashed => True
  end.

(** The tests which failed in a repetition, as far as it is known, and those which were executed *)
Definition failed_in (a : attempt) (p : list text) : Prop :=
  match a with FinishedAll failed _ | FinishedSome _ failed => p ∈ failed | Crashed => False end.
Definition executed_in (a : attempt) (p : list text) : Prop :=
  match a with FinishedSome executed _ => p ∈ executed | _ => False end.
Definition of_selection (a : attempt) : Prop := match a with FinishedSome _ _ => True | _ => False end.
Definition finished (a : attempt) : Prop := match a with Crashed => False | _ => True end.
