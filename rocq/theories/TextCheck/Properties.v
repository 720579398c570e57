(** C71: comparison of strings. *)
From Coq Require Import Ascii String.
From stdpp Require Import list.
From Verif.Base Require Import Outcome.
From Verif.Text Require Import Model Spec.
From Verif.TextCheck Require Import Model Spec Proofs.

Local Notation "⌜ s ⌝" := (list_ascii_of_string s%string).

(** A failure is reported exactly if the strings differ, and nothing is thrown while it is put together. *)
Theorem C71_passes : forall a b, compare_texts a b = Ok None <-> a = b.
Proof. exact compare_texts_passes. Qed.
Print Assumptions C71_passes.

Theorem C71_returns : forall a b, exists o, compare_texts a b = Ok o.
Proof. exact compare_texts_returns. Qed.
Print Assumptions C71_returns.

(** There is just one first difference. *)
Theorem C71_unique : forall a b p q, first_difference a b p -> first_difference a b q -> p = q.
Proof. exact first_difference_unique. Qed.
Print Assumptions C71_unique.

(** The report names the characters at the first difference, or the one by which a string is too long or too short; the line, or
    the position on the first line; and shows both strings around it. *)
Theorem C71_report : forall a b r, compare_texts a b = Ok (Some r) ->
  exists p, first_difference a b p /\ differ_by a b p (r_difference r) /\
    r_where r = (match r_difference r with
                 | Characters _ _ => Some (if decide (List.length (lines (take p b)) = 1) then AtCharacter p
                                           else OnLine (List.length (lines (take p b))))
                 | _ => None
                 end) /\
    exists i n n' t t', shows a p (r_obtained r) i n t /\ shows b p (r_prediction r) i n' t' /\ context a b p i /\
      (r_full r = true <-> i = 0 /\ t = false /\ t' = false).
Proof. exact compare_texts_report. Qed.
Print Assumptions C71_report.

Example C71_report_ex :
  compare_texts ⌜"Hello, World"⌝ ⌜"Hello, Mars"⌝ =
    Ok (Some (Report (Characters "W" "M") (Some (AtCharacter 7)) true ⌜"Hello, World"⌝ ⌜"Hello, Mars"⌝)) /\
  compare_texts (⌜"one"⌝ ++ [nl] ++ ⌜"two"⌝ ++ [nl] ++ ⌜"three"⌝) (⌜"one"⌝ ++ [nl] ++ ⌜"twi"⌝ ++ [nl] ++ ⌜"three"⌝) =
    Ok (Some (Report (Characters "o" "i") (Some (OnLine 2)) false (⌜"...\ntwo"⌝ ++ [nl] ++ ⌜"..."⌝) (⌜"...\ntwi"⌝ ++ [nl] ++ ⌜"..."⌝))) /\
  compare_texts ⌜"Hello, World!"⌝ ⌜"Hello, World"⌝ =
    Ok (Some (Report (Excess "!") None true ⌜"Hello, World!"⌝ ⌜"Hello, World"⌝)) /\
  compare_texts ⌜"a line with more than thirty characters in front of this"⌝ ⌜"a line with more than thirty characters in front of that"⌝ =
    Ok (Some (Report (Characters "i" "a") (Some (AtCharacter 54)) false
                     ⌜"...irty characters in front of this"⌝ ⌜"...irty characters in front of that"⌝)).
Proof. by vm_compute. Qed.

(** Nothing in front of the difference is shown if it is a line break on the first line. *)
Theorem C71_context_refuted : exists a b p, first_difference a b p /\ p = 5 /\
  compare_texts a b = Ok (Some (Report (Characters "!" nl) (Some (AtCharacter p)) false ⌜"...!"⌝ ⌜"...\n"⌝)).
Proof. exists ⌜"Hello!"⌝, (⌜"Hello"⌝ ++ [nl]), 5. split; [split; vm_compute; [reflexivity|congruence]|]. split; [reflexivity|]. by vm_compute. Qed.
Print Assumptions C71_context_refuted.

(** Strings which are shown completely are said to be so; except if one of them consists of two line breaks, which are followed by
    dots although there is nothing else. *)
Theorem C71_full_partial : forall a b r, compare_texts a b = Ok (Some r) ->
  r_full r = true -> r_obtained r = rendered a /\ r_prediction r = rendered b.
Proof. exact full_shown. Qed.
Print Assumptions C71_full_partial.

Theorem C71_full_refuted : exists a b r, compare_texts a b = Ok (Some r) /\
  r_obtained r = rendered a /\ r_prediction r = rendered b ++ dots /\ r_full r = false.
Proof.
  exists ⌜"a"⌝, [nl; nl]. exists (Report (Characters "a" nl) (Some (AtCharacter 0)) false ⌜"a"⌝ ⌜"\n\n..."⌝).
  by vm_compute.
Qed.
Print Assumptions C71_full_refuted.

Example C71_full_ex : exists r, compare_texts ⌜"Hello"⌝ ⌜"Help"⌝ = Ok (Some r) /\ r_full r = true /\ r_obtained r = ⌜"Hello"⌝.
Proof. exists (Report (Characters "l" "p") (Some (AtCharacter 3)) true ⌜"Hello"⌝ ⌜"Help"⌝). by vm_compute. Qed.
