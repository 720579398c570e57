(** Vocabulary for the properties of the editing functions. *)
From Coq Require Import Ascii String.
From stdpp Require Import list.
From Verif.Base Require Import Outcome Compare.
From Verif.Text Require Import Model Spec.
From Verif.Edit Require Import Model.

Definition directive : text := list_ascii_of_string "#include".

(** A directive up to the end of its line. *)
Definition directive_line (w : text) : Prop := (exists s, w = directive ++ s) /\ nl ∉ w.

(** The text is made of a part without directives, then of directives with line breaks, each followed by text without directives,
    then perhaps of a directive without line break. *)
Definition with_gaps (cs : list (text * text)) : text := concat (map (fun c => fst c ++ [nl] ++ snd c) cs).
Record parts (l pre : text) (cs : list (text * text)) (fin : text) : Prop := {
  parts_text : l = pre ++ with_gaps cs ++ fin;
  parts_pre : ~ occurs directive pre;
  parts_lines : Forall (fun c => directive_line (fst c) /\ ~ occurs directive (snd c)) cs;
  parts_fin : fin = [] \/ directive_line fin
}.

(** If there is an opening angle bracket there is also a closing one, and conversely. *)
Definition balanced (w : text) : Prop := "<"%char ∈ w <-> ">"%char ∈ w.

(** Directives with quotation marks come before those with angle brackets; otherwise the order is alphabetical. *)
Definition comes_before (v w : text) : Prop :=
  ("<"%char ∉ v /\ "<"%char ∈ w) \/ (("<"%char ∈ v <-> "<"%char ∈ w) /\ (v = w \/ text_compare v w = Lt)).

Definition new_line (path : text) : text := directive ++ [" "; """"]%char ++ path ++ [""""%char; nl].
