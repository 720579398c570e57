(** The claims about the search for include directives. *)
From Coq Require Import Ascii String.
From stdpp Require Import list.
From Verif.Base Require Import Outcome.
From Verif.Text Require Import Model Spec Proofs.
From Verif.Includes Require Import Model Spec Proofs.
Local Notation "⌜ s ⌝" := (list_ascii_of_string s%string).

(** C54: a text made of lines of code, comments, other directives and includes, ended by a line with the cutoff, gives the
    files named by the includes, in their order. *)
Theorem C54_lines dir cut s ns ls :
  cut <> [] -> head cut <> Some slash -> head cut <> Some " "%char -> lines cut s ns -> Forall2 (listed dir) ns ls ->
  get_includes (List.length s) dir cut s = Ok (List.concat ls).
Proof. exact (get_includes_lines dir cut s ns ls). Qed.
Print Assumptions C54_lines.

Definition line (x : text) : text := x ++ [nl].

Definition ex_text : text :=
  line ⌜"// #include ""b.hpp"""⌝ ++ line ⌜"#pragma once"⌝ ++ line ⌜"#endif"⌝ ++ line ⌜"/* #include ""c.hpp"""⌝ ++ line ⌜"*/"⌝
  ++ line ⌜"#include ""a.hpp"""⌝ ++ line ⌜"#include <x/y.hpp> "⌝ ++ line ⌜"#include <vector>"⌝ ++ line ⌜"int k{8/2};"⌝
  ++ line ⌜"namespace n {"⌝ ++ line ⌜"#include ""d.hpp"""⌝.

Ltac plain_code :=
  lazymatch goal with
  | |- code _ => split; [|split; [|split]]; plain_code
  | |- ~ occurs _ _ => apply (proj1 (find_first_None _ _)); by vm_compute
  | |- _ => first [done | by constructor | by right | apply (bool_decide_unpack _); by vm_compute]
  end.

Example C54_lines_example : lines ⌜"namespace"⌝ ex_text [⌜"a.hpp"⌝; ⌜"x/y.hpp"⌝; ⌜"vector"⌝].
Proof.
  unfold ex_text, line. rewrite <- !app_assoc.
  eapply (lines_comment _ [] ⌜" #include ""b.hpp"""⌝); [plain_code..|].
  eapply (lines_directive_more _ ⌜"pragma"⌝ ⌜"once"⌝); [plain_code..|].
  eapply (lines_directive _ ⌜"endif"⌝); [plain_code..|].
  eapply (lines_block _ (⌜" #include ""c.hpp"""⌝ ++ [nl]) []); [plain_code..|].
  eapply (lines_include _ quote quote ⌜"a.hpp"⌝ []); [plain_code..|].
  eapply (lines_include _ opening closing ⌜"x/y.hpp"⌝ ⌜" "⌝); [plain_code..|].
  eapply (lines_include _ opening closing ⌜"vector"⌝ []); [plain_code..|].
  eapply (lines_code _ ⌜"int k{8/2};"⌝); [plain_code..|].
  eapply (lines_cut _ ⌜"namespace n {"⌝); [plain_code| |plain_code].
  exists 0. apply occurs_at_0. by exists ⌜" n {"⌝.
Qed.

Example C54_lines_example_found :
  get_includes (List.length ex_text) ⌜"src"⌝ ⌜"namespace"⌝ ex_text = Ok [⌜"src/a.hpp"⌝; ⌜"x/y.hpp"⌝].
Proof. by vm_compute. Qed.

Example C54_listed_example :
  Forall2 (listed ⌜"src"⌝) [⌜"a.hpp"⌝; ⌜"x/y.hpp"⌝; ⌜"vector"⌝] [[⌜"src/a.hpp"⌝]; [⌜"x/y.hpp"⌝]; []].
Proof.
  assert (H : forall l, map (included ⌜"src"⌝) l = [[⌜"src/a.hpp"⌝]; [⌜"x/y.hpp"⌝]; []] ->
    Forall2 (listed ⌜"src"⌝) l [[⌜"src/a.hpp"⌝]; [⌜"x/y.hpp"⌝]; []]).
  { intros l <-. induction l; constructor; [apply included_listed|done]. }
  apply H. by vm_compute.
Qed.

(** C54: how any text at all is taken apart, and what is found. *)
Theorem C54_every_text dir cut s :
  exists ns ls, names cut s ns /\ Forall2 (listed dir) ns ls /\ get_includes (List.length s) dir cut s = Ok (List.concat ls).
Proof. exact (get_includes_ok dir cut s). Qed.
Print Assumptions C54_every_text.

Theorem C54_every_text_exact dir cut s ns ls :
  names cut s ns -> Forall2 (listed dir) ns ls -> get_includes (List.length s) dir cut s = Ok (List.concat ls).
Proof. exact (get_includes_all dir cut s ns ls). Qed.
Print Assumptions C54_every_text_exact.

Example C54_every_text_example : names ⌜"int"⌝ (⌜"#include "⌝ ++ [nl; quote] ++ ⌜"a.hpp"⌝) [⌜"a.hpp"⌝].
Proof. apply (names_last_include ⌜"int"⌝ " "%char [nl] quote quote ⌜"a.hpp"⌝); [by left|by repeat constructor|constructor|plain_code]. Qed.

(** C54 fails for directives without space after the word, *)
Theorem C54_no_space_refuted :
  exists line, include_directive line ⌜"a.hpp"⌝
    /\ get_includes (List.length (line ++ [nl])) ⌜"src"⌝ ⌜"namespace"⌝ (line ++ [nl]) = Ok [].
Proof. exact no_space. Qed.
Print Assumptions C54_no_space_refuted.

(** for those with a tab after the word *)
Theorem C54_tab_refuted :
  exists line, include_directive line ⌜"a.hpp"⌝
    /\ get_includes (List.length (line ++ [nl])) ⌜"src"⌝ ⌜"namespace"⌝ (line ++ [nl]) = Ok [].
Proof. exact tab. Qed.
Print Assumptions C54_tab_refuted.

(** or a space before it, *)
Theorem C54_space_before_refuted :
  exists line, include_directive line ⌜"a.hpp"⌝
    /\ get_includes (List.length (line ++ [nl])) ⌜"src"⌝ ⌜"namespace"⌝ (line ++ [nl]) = Ok [].
Proof. exact space_before. Qed.
Print Assumptions C54_space_before_refuted.

(** for files without extension, *)
Theorem C54_no_extension_refuted :
  exists line, include_directive line ⌜"config"⌝
    /\ get_includes (List.length (line ++ [nl])) ⌜"src"⌝ ⌜"namespace"⌝ (line ++ [nl]) = Ok [].
Proof. exact no_extension. Qed.
Print Assumptions C54_no_extension_refuted.

(** for the text of a string literal, *)
Theorem C54_literal_refuted :
  exists line, (forall x, ~ include_directive line x)
    /\ get_includes (List.length (line ++ [nl])) ⌜"src"⌝ ⌜"namespace"⌝ (line ++ [nl]) = Ok [⌜"src/a.hpp"⌝].
Proof. exact in_literal. Qed.
Print Assumptions C54_literal_refuted.

(** after a string literal which looks like the start of a comment, *)
Theorem C54_literal_comment_refuted :
  exists line s, include_directive line ⌜"a.hpp"⌝ /\ s = ⌜"const char* c{""/*""};"⌝ ++ [nl] ++ line ++ [nl]
    /\ get_includes (List.length s) ⌜"src"⌝ ⌜"using"⌝ s = Ok [].
Proof. destruct literal_comment as (line & H1 & H2). exists line. eexists. by split. Qed.
Print Assumptions C54_literal_comment_refuted.

(** in a comment which begins on a line with the first character of the cutoff, here the n of int, *)
Theorem C54_comment_after_cutoff_character_refuted :
  exists s, s = ⌜"int n; /*"⌝ ++ [nl] ++ ⌜"#include ""a.hpp"""⌝ ++ [nl] ++ ⌜"*/"⌝ ++ [nl]
    /\ get_includes (List.length s) ⌜"src"⌝ ⌜"namespace"⌝ s = Ok [⌜"src/a.hpp"⌝].
Proof. eexists. split; [done|]. exact comment_after_cutoff_character. Qed.
Print Assumptions C54_comment_after_cutoff_character_refuted.

(** and in a comment which begins directly after another directive. *)
Theorem C54_comment_after_directive_refuted :
  exists s, s = ⌜"#endif/*"⌝ ++ [nl] ++ ⌜"#include ""a.hpp"""⌝ ++ [nl] ++ ⌜"*/"⌝ ++ [nl]
    /\ get_includes (List.length s) ⌜"src"⌝ ⌜"namespace"⌝ s = Ok [⌜"src/a.hpp"⌝].
Proof. eexists. split; [done|]. exact comment_after_directive. Qed.
Print Assumptions C54_comment_after_directive_refuted.
