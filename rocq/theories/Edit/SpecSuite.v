(** Vocabulary for the properties of [add_to_suite] and [add_to_cmake]. *)
From Coq Require Import Ascii String.
From stdpp Require Import list.
From Verif.Base Require Import Outcome Compare.
From Verif.Text Require Import Model Spec.

Local Notation "⌜ s ⌝" := (list_ascii_of_string s%string).

(** ** Suites *)

(** The name of a suite as it is written in the main file. *)
Definition quoted (name : text) : text := ⌜""""⌝ ++ name ++ ⌜""","⌝.

(** A line with a test. *)
Definition test_line (ind t : text) : text := ind ++ ind ++ ind ++ t ++ ⌜","⌝ ++ [nl].
Definition test_lines (ind : text) (ts : list text) : text := concat (map (test_line ind) ts).

(** The suite [name] is first mentioned in [l] after [before]; [rest] is the remainder of this line and [after] is
    what comes after this line. *)
Record suite_at (l name before rest after : text) : Prop := {
  suite_text : l = before ++ quoted name ++ rest ++ [nl] ++ after;
  suite_first : first_at (quoted name) l (length before);
  suite_line_end : nl ∉ quoted name ++ rest
}.

(** The line before the one which mentions the suite ends with [add_test_suite(], and is not the beginning of the
    text. *)
Definition opened (before : text) : Prop :=
  exists p w, before = p ++ ⌜"add_test_suite("⌝ ++ [nl] ++ w /\ nl ∉ w /\ p <> [].

(** What [after] has up to the end of the statement. *)
Definition body (after : text) (b : text) : Prop :=
  (b = after /\ ~ occurs ⌜");"⌝ after) \/
  exists post, after = b ++ ⌜");"⌝ ++ post /\ first_at ⌜");"⌝ after (length b).

(** The statement which defines a new suite, between line breaks. *)
Definition new_suite (name ind : text) (ts : list text) : text :=
  [nl] ++ ind ++ ind ++ ⌜"runner.add_test_suite("⌝ ++ [nl] ++
  ind ++ ind ++ ind ++ quoted name ++ [nl] ++
  join (⌜","⌝ ++ [nl]) (map (fun t => ind ++ ind ++ ind ++ t) ts) ++ [nl] ++
  ind ++ ind ++ ⌜");"⌝ ++ [nl].

(** Texts which do not upset the layout. *)
Definition one_line (t : text) : Prop := t <> [] /\ nl ∉ t.
Definition unclosed (t : text) : Prop := ~ occurs ⌜");"⌝ t.

(** ** CMake lists *)

(** A line without the blanks in front. *)
Fixpoint trimmed (w : text) : text :=
  match w with
  | c :: w' => if decide (c = " "%char) then trimmed w' else w
  | [] => []
  end.

(** The list between the first [open] and the next [close] of [l]: [first] is the remainder of the line of [open],
    [ws] are the following lines. *)
Record cmake_list (l open close before first : text) (ws : list text) (after : text) : Prop := {
  cmake_text : l = before ++ open ++ join [nl] (first :: ws) ++ close ++ after;
  cmake_open : first_at open l (length before);
  cmake_close : first_at close (join [nl] (first :: ws) ++ close ++ after) (length (join [nl] (first :: ws)));
  cmake_lines : Forall (fun w => nl ∉ w) (first :: ws)
}.

(** Each entry on a line of its own, indented by [n] blanks. *)
Definition entry_lines (n : nat) (es : list text) : text := concat (map (fun e => [nl] ++ repeat " "%char n ++ e) es).

(** How far the entries are indented: to the right of the opening bracket, if there is one. *)
Definition indentation (open : text) (n : nat) : Prop :=
  (exists a b, open = a ++ ⌜"("⌝ ++ b /\ "("%char ∉ a /\ n = length a + 1) \/ ("("%char ∉ open /\ n = length open).

Definition at_most (v w : text) : Prop := v = w \/ text_compare v w = Lt.

(** Names, indentations and tests which do not upset the layout. *)
Record clean (name ind : text) (ts : list text) : Prop := {
  clean_name : nl ∉ name /\ unclosed name;
  clean_ind : nl ∉ ind /\ ")"%char ∉ ind /\ """"%char ∉ ind;
  clean_tests : Forall one_line ts /\ Forall unclosed ts
}.
