(** Specification for the files of a run. *)
From Coq Require Import Ascii String.
From stdpp Require Import list gmap strings.
From Verif.Text Require Import Model.
From Verif.SoftUpdate Require Model.
From Verif.Outputs Require Import Model.
Local Notation "⌜ s ⌝" := (list_ascii_of_string s%string).

(** Underscores in place of blanks *)
Definition underscored (t : text) : text := map (fun c => if decide (c = " "%char) then "_"%char else c) t.
(** The name of the file without extension *)
Definition stem_of (source : path) : text := Verif.SoftUpdate.Model.stem (List.last source []).

(** The files a test writes to *)
Definition files_of (e : executed) : list path := [diagnostics_file e; exceptions_file e].

(** What is in a file after a text has been written: nothing is created for an empty text. *)
Definition after_write (before : option text) (t : text) : option text :=
  match before, t with None, [] => None | _, _ => Some t end.

(** A path made of names: no references to parent folders, no slashes *)
Definition plain (p : path) : Prop := Forall (fun x => x <> ⌜".."⌝ /\ x <> ⌜"/"⌝ /\ x <> []) p.

(** The texts of the summaries which belong into [file] *)
Definition summaries_for (file : path) (l : list processed) : list text :=
  map summary_text (List.filter (fun x => bool_decide (summary_file x = file)) l).

Definition failed (x : processed) : bool := bool_decide (0 < soft_failures x \/ 0 < critical_failures x).
(** Tests the predictions of which are to be updated *)
Definition outdated (x : processed) (w p : path) : Prop := 0 < soft_failures x /\ working_copy x = Some w /\ predictions x = Some p.

(** The text for a discriminator *)
Definition discriminated (d : option text) : text := match d with Some (c :: t) => ⌜"_"⌝ ++ c :: t | _ => [] end.
(** The name of the summary of a test, relative to the folder of the tests *)
Definition summary_name (rel : path) (d : option text) : path := removelast rel ++ [stem_of rel ++ discriminated d ++ ⌜".txt"⌝].
(** References to parent folders *)
Definition ups (n : nat) : path := replicate n ⌜".."⌝.
