(** Properties of [add_include] (C47). *)
From Coq Require Import Ascii String.
From stdpp Require Import list sorting.
From Verif.Base Require Import Outcome Compare.
From Verif.Text Require Import Model Spec Proofs.
From Verif.Edit Require Import Model Spec Proofs.

Definition txt (s : string) : text := list_ascii_of_string s.
Definition line (s : string) : text := txt s ++ [nl].

(** Every text can be written with its directives displayed. *)
Theorem every_text_has_parts : forall l, exists pre cs fin, parts l pre cs fin.
Proof. exact parts_exist. Qed.
Print Assumptions every_text_has_parts.

(** C47, for every text: the new directive and all those which end in a line break are put, sorted, in place of
    everything from the first directive to the end of the line of the last one. *)
Theorem add_include_sorts : forall l pre cs fin path, parts l pre cs fin -> Forall (fun c => balanced (fst c)) cs -> balanced path ->
  exists sorted, add_include l path = Ok (pre ++ concat sorted ++
      match fin with [] => match last cs with Some c => snd c | None => [] end | _ => [] end) /\
    sorted ≡ₚ new_line path :: map (fun c => fst c ++ [nl]) cs /\ StronglySorted comes_before sorted.
Proof. exact add_include_spec. Qed.
Print Assumptions add_include_sorts.

Example add_include_sorts_example :
  parts (line "// head" ++ line "#include <b>" ++ line "// gap" ++ line "#include ""z""" ++ line "int x;") (line "// head")
    [(txt "#include <b>", line "// gap"); (txt "#include ""z""", line "int x;")] [] /\
  balanced (txt "#include <b>") /\ balanced (txt "#include ""z""") /\
  add_include (line "// head" ++ line "#include <b>" ++ line "// gap" ++ line "#include ""z""" ++ line "int x;") (txt "c") =
    Ok (line "// head" ++ line "#include ""c""" ++ line "#include ""z""" ++ line "#include <b>" ++ line "int x;").
Proof.
  assert (forall t, find_first directive t = None -> ~ occurs directive t) as H by (intros t; apply find_first_None).
  split; [|split; [|split; [|by vm_compute]]].
  - split; [by vm_compute|by apply H; vm_compute| |by left].
    repeat constructor; cbn [fst snd]; try (by eexists (drop 8 (txt _))); try (apply (bool_decide_unpack _); by vm_compute).
    + by exists (txt " <b>").
    + by apply H; vm_compute.
    + by exists (txt " ""z""").
    + by apply H; vm_compute.
  - unfold balanced. split; intros _; apply (bool_decide_unpack _); by vm_compute.
  - unfold balanced. split; intros Hin; exfalso; revert Hin; apply (bool_decide_unpack _); by vm_compute.
Qed.

(** C47: if the directives stand together, each ended by a line break, (or if there are none) then the directive is added
    to them in sorted order, and the text before and behind stays. *)
Theorem add_include_only_adds_partial : forall l pre ws post path, l = pre ++ concat (map (fun w => w ++ [nl]) ws) ++ post ->
  ~ occurs directive pre -> ~ occurs directive post -> (ws = [] -> post = []) ->
  Forall directive_line ws -> Forall balanced ws -> balanced path ->
  exists sorted, add_include l path = Ok (pre ++ concat sorted ++ post) /\
    sorted ≡ₚ new_line path :: map (fun w => w ++ [nl]) ws /\ StronglySorted comes_before sorted.
Proof. exact add_include_block. Qed.
Print Assumptions add_include_only_adds_partial.

Example add_include_only_adds_example :
  add_include (line "#include ""z""" ++ line "#include <b>" ++ line "int x;") (txt "c") =
    Ok (line "#include ""c""" ++ line "#include ""z""" ++ line "#include <b>" ++ line "int x;").
Proof. by vm_compute. Qed.

(** The loop ends for every text; the behaviour may be undefined. *)
Theorem add_include_ends : forall l path, add_include l path = UB \/ exists t, add_include l path = Ok t.
Proof. exact add_include_outcome. Qed.
Print Assumptions add_include_ends.

(** Text between two directives is deleted. *)
Theorem add_include_keeps_lines_refuted : exists l path t, add_include l path = Ok t /\
  l = line "#ifdef A" ++ line "#include ""x""" ++ line "#endif" ++ line "#include ""y""" /\
  t = line "#ifdef A" ++ line "#include ""new""" ++ line "#include ""x""" ++ line "#include ""y""".
Proof. eexists _, (txt "new"), _. split; [|split; reflexivity]. by vm_compute. Qed.
Print Assumptions add_include_keeps_lines_refuted.

(** A directive at the end of the text without a line break is deleted. *)
Theorem add_include_last_line_refuted : exists l path t, add_include l path = Ok t /\
  l = line "#include ""x""" ++ txt "#include ""y""" /\ t = line "#include ""new""" ++ line "#include ""x""".
Proof. eexists _, (txt "new"), _. split; [|split; reflexivity]. by vm_compute. Qed.
Print Assumptions add_include_last_line_refuted.

(** Without directives and without a final line break the directive is appended to the last line. *)
Theorem add_include_own_line_refuted : exists l path t, add_include l path = Ok t /\
  l = txt "int x;" /\ t = line "int x;#include ""new""".
Proof. eexists _, (txt "new"), _. split; [|split; reflexivity]. by vm_compute. Qed.
Print Assumptions add_include_own_line_refuted.

(** A directive in a comment comes out of it, and the new one goes in. *)
Theorem add_include_comment_refuted : exists l path t, add_include l path = Ok t /\
  l = line "// #include ""z""" /\ t = line "// #include ""new""" ++ line "#include ""z""".
Proof. eexists _, (txt "new"), _. split; [|split; reflexivity]. by vm_compute. Qed.
Print Assumptions add_include_comment_refuted.

(** A directive which is already there is added again. *)
Theorem add_include_once_refuted : exists l path t, add_include l path = Ok t /\
  l = line "#include ""new""" /\ t = line "#include ""new""" ++ line "#include ""new""".
Proof. eexists _, (txt "new"), _. split; [|split; reflexivity]. by vm_compute. Qed.
Print Assumptions add_include_once_refuted.

(** The comparison passed to the sort looks for different brackets in its two arguments: a line with '>' but without '<'
    comes before itself. *)
Theorem add_include_defined_refuted : exists l path, l = line "#include ""x"" // ->y" /\ add_include l path = UB.
Proof. eexists _, (txt "new"). split; [reflexivity|]. by vm_compute. Qed.
Print Assumptions add_include_defined_refuted.
