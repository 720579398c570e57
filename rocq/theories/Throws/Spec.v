(** Vocabulary for C104. *)
From Coq Require Import Ascii.
From stdpp Require Import list.
From Verif.Base Require Import Outcome.
From Verif.Text Require Import Model.
From Verif.Log Require Import Model Spec.
From Verif.Throws Require Import Model.

(** An exception of the class asked for, or of one derived from it *)
Definition expected (isa : nat -> nat -> bool) (E : nat) (e : ending) : Prop := exists t, e = Throws t /\ isa (cls t) E = true.
(** A body which logs neither failures nor caught exceptions *)
Definition silent (body : list event) : Prop :=
  forall x, x ∈ concat (map leaves body) -> is_failure x = false /\ is_critical x = false /\ is_caught x = false.
(** A message which mentions files below the project, and other texts in between *)
Fixpoint mentioning (root : text) (parts : list (text * text)) (end_ : text) : text :=
  match parts with
  | [] => end_
  | (before, file) :: parts' => before ++ root ++ "/"%char :: file ++ mentioning root parts' end_
  end.
(** The same, with the files as seen from the project *)
Fixpoint relative (parts : list (text * text)) (end_ : text) : text :=
  match parts with
  | [] => end_
  | (before, file) :: parts' => before ++ file ++ relative parts' end_
  end.
(** The root of a project: an absolute path *)
Definition absolute (root : text) : Prop := exists r, root = "/"%char :: r.
