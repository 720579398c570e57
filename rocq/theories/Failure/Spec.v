(** Vocabulary for the properties of failure output and of the instability analysis. *)
From Coq Require Import Ascii NArith.
From stdpp Require Import list.
From Verif.Text Require Import Model Spec.
From Verif.Failure Require Import Model.

(** No line of the message consists of a dollar sign. *)
Definition clean_message (m : text) : Prop := ["$"%char] ∉ lines m.
Definition clean (o : list (N * text)) : Prop := Forall (fun i => clean_message (snd i)) o.

(** The indices fit a [size_t]. *)
Definition fits (o : list (N * text)) : Prop := Forall (fun i => (fst i < 2 ^ 64)%N) o.

(** A message with every line indented. *)
Definition indented_message (ind m : text) : text := join [nl] (map (indent_line ind) (lines m)).

(** How often [x] occurs. *)
Definition occurrences {A} `{EqDecision A} (x : A) (l : list A) : nat := length (filter (fun y => y = x) l).

(** The runs of a test do not all have the same failures. *)
Definition unstable (outs : list (list (N * text))) : Prop := exists a b, a ∈ outs /\ b ∈ outs /\ a <> b.

(** Frequencies: the numbers of occurrences of the different outcomes, each outcome counted once. *)
Definition frequencies_of (freqs : list nat) (outs : list (list (N * text))) : Prop :=
  exists os, NoDup os /\ (forall o, o ∈ os <-> o ∈ outs) /\ freqs = map (fun o => occurrences o outs) os.

(** The files written by tests, given as stem, extension and name, in all runs. *)
Notation test := (text * text * text)%type (only parsing).
Definition dir_of (t : text * text * text) : list text := analysis_dir (fst (fst t)) (snd (fst t)) (snd t).
Definition file_of (t : text * text * text) (k : nat) : list text := analysis_file (fst (fst t)) (snd (fst t)) (snd t) (N.of_nat k).
Definition all_files (tests : list (text * text * text)) (trials : nat) (outs : text * text * text -> nat -> list (N * text))
    : list (list text * text) :=
  concat (map (fun t => map (fun k => (file_of t k, write_output (outs t k))) (seq 0 trials)) tests).
Definition runs (trials : nat) (outs : text * text * text -> nat -> list (N * text)) (t : text * text * text) : list (list (N * text)) :=
  map (outs t) (seq 0 trials).
