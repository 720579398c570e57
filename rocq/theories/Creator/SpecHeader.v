(** Vocabulary for the headers of nascent tests (C115). *)
From Coq Require Import Ascii String.
From stdpp Require Import list.
From Verif.Text Require Import Model.
From Verif.Select Require Import Spec.
Local Notation "⌜ s ⌝" := (list_ascii_of_string s%string).

(** A file name with its extension: from the last dot, unless this comes first *)
Inductive name_parts : text -> text -> text -> Prop :=
  | parts_dot s e : s <> [] -> "."%char ∉ e -> name_parts (s ++ "."%char :: e) s ("."%char :: e)
  | parts_none s : "."%char ∉ s -> name_parts s s []
  | parts_hidden s : "."%char ∉ s -> name_parts ("."%char :: s) ("."%char :: s) [].

(** The files tried for [d/s.x], in this order *)
Definition spellings (d : path) (s x : text) : list path :=
  (d ++ [s ++ x]) :: map (fun e => d ++ [s ++ e]) (List.filter (fun e => bool_decide (e <> x)) [⌜".hpp"⌝; ⌜".h"⌝; ⌜".hxx"⌝]).
Definition absent_in (es : list path) (c : path) : Prop := Forall (fun e => ~ c `suffix_of` e) es.
(** [e] is the first entry found for the first one of [cs] for which there is any *)
Definition first_found (es cs : list path) (e : path) : Prop :=
  exists l1 c l2, cs = l1 ++ c :: l2 /\ first_ending es c e /\ Forall (absent_in es) l1.

(** [a/b/c] *)
Fixpoint slashed (p : path) : text :=
  match p with
  | [] => []
  | [x] => x
  | x :: p => x ++ ⌜"/"⌝ ++ slashed p
  end.
