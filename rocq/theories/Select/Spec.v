(** What is claimed of the selection of tests by files (C98). *)
From Coq Require Import Ascii String.
From stdpp Require Import list.
From Verif.Base Require Import Outcome.
From Verif.Text Require Import Model.
Local Notation "⌜ s ⌝" := (list_ascii_of_string s%string).
Notation path := (list text) (only parsing).

(** Names of files and folders *)
Definition named (p : path) : Prop := Forall (fun x => x ∉ [⌜".."⌝; ⌜"."⌝; ⌜"/"⌝; []]) p.
Definition ups (n : nat) : path := replicate n ⌜".."⌝.
Definition absolute (p : path) : path := ⌜"/"⌝ :: p.

(** [q] is the part of [dir] from the last element called as the first one of [q] *)
Definition last_part (q dir : path) : Prop := exists pre b q', dir = pre ++ b :: q' /\ q = b :: q' /\ b ∉ q'.

(** The compiler gives [file] for the file [r] of the repository: absolutely, or from a folder of the build. *)
Inductive compiled (repo r : path) : path -> Prop :=
  | compiled_absolute : compiled repo r (absolute repo ++ r)
  | compiled_relative n q : last_part q repo -> compiled repo r (ups n ++ q ++ r).

(** The first entry the path of which ends with [s] *)
Definition first_ending (es : list path) (s e : path) : Prop :=
  exists l1 l2, es = l1 ++ e :: l2 /\ s `suffix_of` e /\ Forall (fun e' => ~ s `suffix_of` e') l1.

(** The entries of the repository *)
Definition within (repo : path) (es : list path) : Prop := Forall (fun e => exists r, r <> [] /\ named r /\ e = absolute repo ++ r) es.

(** The same path, written shorter *)
Inductive shorter : path -> path -> Prop :=
  | shorter_here a b : shorter (a ++ ⌜"."⌝ :: b) (a ++ b)
  | shorter_up a x b : named [x] -> shorter (a ++ x :: ⌜".."⌝ :: b) (a ++ b).
