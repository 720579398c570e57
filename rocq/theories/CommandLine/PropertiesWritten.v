(** C36 for lines which are written as intended. *)
From Coq Require Import Ascii String.
From stdpp Require Import list.
From Verif.Base Require Import Outcome.
From Verif.Text Require Import Model.
From Verif.CommandLine Require Import Model Spec SpecWritten ProofsParse ProofsWritten.
Local Notation "⌜ s ⌝" := (list_ascii_of_string s%string).

(** C36: if names and aliases cannot be mistaken for others, then every line which consists of options, each with as many
    arguments as it has parameters and followed by what is nested in it, calls the functions of these options with these
    arguments, each function before, or after, those nested in it.  The arguments are any texts. *)
Theorem C36_written {E} z (os : list (opt E)) us : os <> [] -> clear [] os -> Forall (proper os) us ->
  parse_invoke (z :: concat (map words us)) os = Ok ([], Zeroth z :: concat (map calls (map meant us))).
Proof. exact (written_invoked z os us). Qed.
Print Assumptions C36_written.

Definition ex_name : opt nat := Opt ⌜"name"⌝ [⌜"-n"⌝] [⌜"text"⌝] (Some 3) None [].
Definition ex_new : opt nat := Opt ⌜"new"⌝ [] [] (Some 1) (Some 2) [ex_name].
Definition ex_say : opt nat := Opt ⌜"say"⌝ [⌜"s"⌝] [⌜"a"⌝; ⌜"b"⌝] (Some 4) None [].
Example C36_written_example : clear [] [ex_new; ex_say] /\
  Forall (proper [ex_new; ex_say])
    [Written ex_new ⌜"new"⌝ [] [Written ex_name ⌜"-n"⌝ [⌜"--help"⌝] []; Written ex_name ⌜"name"⌝ [⌜"new"⌝] []];
     Written ex_say ⌜"s"⌝ [⌜"new"⌝; ⌜""⌝] []] /\
  parse_invoke [⌜"x"⌝; ⌜"new"⌝; ⌜"-n"⌝; ⌜"--help"⌝; ⌜"name"⌝; ⌜"new"⌝; ⌜"s"⌝; ⌜"new"⌝; ⌜""⌝] [ex_new; ex_say] =
    Ok ([], [Zeroth ⌜"x"⌝; Invoke 1 []; Invoke 3 [⌜"--help"⌝]; Invoke 3 [⌜"new"⌝]; Invoke 2 []; Invoke 4 [⌜"new"⌝; ⌜""⌝]]).
Proof.
  split; [apply (clearb_clear 3); by vm_compute|]. split; [|by vm_compute].
  repeat first [apply Forall_nil; exact I | apply Forall_cons; split | (apply proper_use; [done|apply (find_opt_some _ _ _ _ (named_spelt _)); reflexivity|done|done|]) ].
Qed.

(** C36 is false: a nested option whose alias is one letter takes the name of another option for a number of aliases. *)
Theorem C36_mistaken_refuted : exists (os : list (opt nat)) us, os <> [] /\ Forall (proper os) us /\
  parse_invoke ([] :: concat (map words us)) os = Throw RuntimeError.
Proof.
  exists [Opt ⌜"new"⌝ [] [] (Some 1) None [Opt ⌜"--all"⌝ [⌜"-a"⌝] [] (Some 2) None []]; Opt ⌜"say"⌝ [] [⌜"x"⌝] (Some 3) None [];
          Opt ⌜"aa"⌝ [] [⌜"x"⌝] (Some 4) None []],
    [Written (Opt ⌜"new"⌝ [] [] (Some 1) None [Opt ⌜"--all"⌝ [⌜"-a"⌝] [] (Some 2) None []]) ⌜"new"⌝ [] [];
     Written (Opt ⌜"aa"⌝ [] [⌜"x"⌝] (Some 4) None []) ⌜"aa"⌝ [⌜"y"⌝] []].
  split; [done|]. split; [|by vm_compute].
  repeat first [apply Forall_nil; exact I | apply Forall_cons; split | (apply proper_use; [done|apply (find_opt_some _ _ _ _ (named_spelt _)); reflexivity|done|done|]) ].
Qed.
Print Assumptions C36_mistaken_refuted.
