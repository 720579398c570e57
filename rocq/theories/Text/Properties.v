(** C33 substitutions, C34 case conversions, C35 indentation, C56 delimiters. *)
From Coq Require Import Ascii String.
From stdpp Require Import list.
From Verif.Base Require Import Outcome.
From Verif.Text Require Import Model Spec Proofs ProofsCase ProofsIndent.

Local Notation "'txt' s" := (list_ascii_of_string s%string) (at level 0).

(** ** C33 *)

(** [replace] replaces the first occurrence. *)
Theorem C33_replace l from to :
  (~ occurs from l /\ replace l from to = l) \/
  exists pre post, l = pre ++ from ++ post /\ first_at from l (List.length pre) /\ replace l from to = pre ++ to ++ post.
Proof. exact (replace_spec l from to). Qed.
Print Assumptions C33_replace.

Example C33_replace_ex : replace (txt "abcabc") (txt "bc") (txt "x") = txt "axabc" /\ replace (txt "ab") (txt "") (txt "x") = txt "xab".
Proof. done. Qed.

(** [replace_all] terminates for every non-empty pattern; the result is the text with the leftmost
    non-overlapping occurrences replaced, and this describes it uniquely. *)
Theorem C33_replace_all_partial fuel l from to : from <> [] -> List.length l < fuel ->
  exists out, replace_all fuel l from to = Ok out /\ replaced from to l out /\
    forall out', replaced from to l out' -> out' = out.
Proof.
  exact (fun Hne Hf => match replace_all_ok fuel l from to Hne Hf with
    | ex_intro _ out (conj E HR) =>
        ex_intro _ out (conj E (conj HR (fun out' HR' => replaced_fun from to l out' out Hne HR' HR))) end).
Qed.
Print Assumptions C33_replace_all_partial.

Example C33_replace_all_ex :
  replace_all 10 (txt "aaaaa") (txt "aa") (txt "ba") = Ok (txt "babaa") /\
  replace_all 20 (txt "long long") (txt "long") (txt "long long") = Ok (txt "long long long long").
Proof. done. Qed.

(** A single character is replaced wherever it stands. *)
Theorem C33_replace_char fuel l c to : List.length l < fuel ->
  replace_all fuel l [c] to = Ok (concat (map (fun x => if decide (x = c) then to else [x]) l)).
Proof. exact (replace_all_char fuel l c to). Qed.
Print Assumptions C33_replace_char.

Example C33_replace_char_ex : replace_all 10 (txt "a b c") (txt " ") (txt "_") = Ok (txt "a_b_c").
Proof. done. Qed.

(** Several replacements are performed one after the other. *)
Theorem C33_replacements fuel l rs from to :
  replace_all_list fuel l (rs ++ [(from, to)]) =
  rbind (replace_all_list fuel l rs) (fun l' => rbind (replace_all fuel l' from to) Ok).
Proof. exact (replace_all_list_app fuel l rs [(from, to)]). Qed.
Print Assumptions C33_replacements.

Example C33_replacements_ex :
  replace_all_list 10 (txt "ab") [(txt "a", txt "bb"); (txt "b", txt "c")] = Ok (txt "ccc").
Proof. done. Qed.

(** With the empty pattern [replace_all] never returns, whatever the text and the replacement. *)
Theorem C33_empty_pattern_refuted fuel l to : replace_all fuel l [] to = NoFuel.
Proof. exact (replace_all_empty fuel l to). Qed.
Print Assumptions C33_empty_pattern_refuted.

(** With conditions on the neighbours: always terminates; and if no two occurrences of the pattern touch,
    exactly the occurrences with suitable neighbours are replaced. *)
Theorem C33_neighbours_terminates fuel lp rp l from to : List.length l + 1 < fuel ->
  exists out, replace_if fuel lp rp l from to = Ok out.
Proof. exact (replace_if_ends lp rp from to l fuel). Qed.
Print Assumptions C33_neighbours_terminates.

Theorem C33_neighbours_partial fuel lp rp l from to : from <> [] -> List.length l + 1 < fuel -> apart from l ->
  exists out, replace_if fuel lp rp l from to = Ok out /\ replaced_if lp rp from to zero l out /\
    forall out', replaced_if lp rp from to zero l out' -> out' = out.
Proof.
  exact (fun Hne Hf Ha => match replace_if_apart lp rp from to l fuel Hne Hf Ha with
    | ex_intro _ out (conj E HR) =>
        ex_intro _ out (conj E (conj HR (fun out' HR' => replaced_if_fun lp rp from to zero l out' out Hne HR' HR))) end).
Qed.
Print Assumptions C33_neighbours_partial.

(** The overload with sets of characters is the one with the predicates "is one of, or the set is empty". *)
Theorem C33_delimited fuel l lft from rgt to :
  replace_delimited fuel l lft from rgt to =
  replace_if fuel (fun c => match lft with [] => true | _ => bool_decide (c ∈ lft) end)
    (fun c => match rgt with [] => true | _ => bool_decide (c ∈ rgt) end) l from to.
Proof. exact eq_refl. Qed.
Print Assumptions C33_delimited.

Example C33_neighbours_ex :
  apart (txt "true") (txt "foo<true, int, untrue>") /\
  replace_delimited 50 (txt "foo<true, int, untrue>") (txt " <") (txt "true") (txt ",>") (txt "1") = Ok (txt "foo<1, int, untrue>").
Proof.
  split; [|done].
  assert (forall i, occurs_at (txt "true") (txt "foo<true, int, untrue>") i -> i = 4 \/ i = 17) as H.
  { intros i (pre&post&E&<-). repeat (destruct pre as [|? pre]; [first [discriminate E|simpl; auto]|injection E as _ E]).
    all: try discriminate E. by destruct pre. }
  intros i j Hi Hj Hlt. apply H in Hi as [-> | ->], Hj as [-> | ->]; simpl; lia.
Qed.

(** Touching occurrences: with no condition at all on the neighbours ("aa", from "a", to "b") the second
    occurrence is skipped. *)
Theorem C33_neighbours_refuted : exists l from to out,
  from <> [] /\ replace_delimited 10 l [] from [] to = Ok out /\
  ~ replaced_if (fun _ => true) (fun _ => true) from to zero l out /\
  replaced_if (fun _ => true) (fun _ => true) from to zero l (txt "bb") /\ out = txt "ba".
Proof.
  exists (txt "aa"), (txt "a"), (txt "b"), (txt "ba").
  assert (replaced_if (fun _ => true) (fun _ => true) (txt "a") (txt "b") zero (txt "aa") (txt "bb")) as H.
  { apply (replaced_if_yes _ _ (txt "a") (txt "b") _ [] (txt "a") (txt "b")); [apply first_at_char; by apply not_elem_of_nil|done..|].
    apply (replaced_if_yes _ _ (txt "a") (txt "b") _ [] [] []); [apply first_at_char; by apply not_elem_of_nil|done..|].
    apply replaced_if_none. intros H. apply occurs_char in H. by apply not_elem_of_nil in H. }
  split; [done|]. split; [done|]. split; [|done].
  intros HR. assert (txt "a" <> []) as Hne by done. pose proof (replaced_if_fun _ _ _ _ _ _ _ _ Hne H HR) as E.
  vm_compute in E. discriminate E.
Qed.
Print Assumptions C33_neighbours_refuted.

(** The recursive form: if no replacement can create an occurrence which starts at or before the place of
    the replacement, a result - if there is one - is free of the pattern; there is one if the replacement is
    no longer than the pattern. *)
Theorem C33_recursive_partial fuel l from to out : settles from to ->
  replace_all_recursive fuel l from to = Ok out -> ~ occurs from out.
Proof. exact (recursive_free fuel l from to out). Qed.
Print Assumptions C33_recursive_partial.

Theorem C33_recursive_terminates_partial fuel l from to :
  from <> [] -> List.length to <= List.length from -> List.length l < fuel + 0 -> 0 < fuel ->
  exists out, replace_all_recursive fuel l from to = Ok out.
Proof. exact (fun H1 H2 => recursive_loop_ends from to H1 H2 fuel l 0). Qed.
Print Assumptions C33_recursive_terminates_partial.

(** The use made of it, ">>" to "> >", is right: [s] is put between any two adjacent [c]. *)
Theorem C33_recursive_double fuel c s l : c <> s -> List.length l < fuel ->
  exists out, replace_all_recursive fuel l [c; c] [c; s; c] = Ok out /\ out = spread c s l /\ ~ occurs [c; c] out.
Proof. exact (recursive_double fuel c s l). Qed.
Print Assumptions C33_recursive_double.

Example C33_recursive_ex :
  replace_all_recursive 20 (txt "a<b<c<d>>>") (txt ">>") (txt "> >") = Ok (txt "a<b<c<d> > >").
Proof. done. Qed.

Lemma settles_ex : settles (txt "a") (txt "b").
Proof.
  intros x y H i Ho. apply occurs_at_char in Ho.
  assert (~ "a"%char ∈ x) as Hx.
  { apply (first_at_char "a"%char x []). by rewrite app_nil_r. }
  destruct (decide (i < List.length x)) as [Hlt|Hge].
  - exfalso. apply Hx, elem_of_list_lookup. exists i. by rewrite lookup_app_l in Ho.
  - destruct (decide (i = List.length x)) as [->|]; [|lia].
    change (txt "b" ++ y) with ("b"%char :: y) in Ho. rewrite list_lookup_middle in Ho by done. done.
Qed.
Example C33_recursive_settles_ex : settles (txt "a") (txt "b") /\
  replace_all_recursive 10 (txt "banana") (txt "a") (txt "b") = Ok (txt "bbnbnb").
Proof. exact (conj settles_ex eq_refl). Qed.

(** It never returns if the pattern occurs in the text and, not just at its start, in the replacement. *)
Theorem C33_recursive_diverges_refuted fuel l from to i :
  occurs_at from to (S i) -> occurs from l -> replace_all_recursive fuel l from to = NoFuel.
Proof.
  exact (fun Hto Hl => match Hl with ex_intro _ j Hj =>
    recursive_diverges from to i Hto fuel l 0 (ex_intro _ j (conj (Nat.le_0_l j) Hj)) end).
Qed.
Print Assumptions C33_recursive_diverges_refuted.

Example C33_recursive_diverges_ex : occurs_at (txt "a") (txt "ba") 1 /\ occurs (txt "a") (txt "xax").
Proof. split; [by exists (txt "b"), []|]. by exists 1, (txt "x"), (txt "x"). Qed.

(** And it can return a text which still contains the pattern. *)
Theorem C33_recursive_refuted : exists l from to out,
  from <> [] /\ replace_all_recursive 10 l from to = Ok out /\ occurs from out.
Proof.
  exists (txt "abab"), (txt "ab"), (txt ""), (txt "ab"). split; [done|]. split; [done|]. by exists 0, [], [].
Qed.
Print Assumptions C33_recursive_refuted.

(** ** C34 *)

(** A text without two adjacent underscores: the words between the underscores are capitalized and glued
    together with the separator.  (For 7-bit characters.) *)
Theorem C34_to_camel_case_partial fuel sc sep l :
  Forall ascii7 l -> ~ occurs [underscore; underscore] l -> List.length l < fuel ->
  exists ws vs,
    ws <> [] /\ Forall (fun w => underscore ∉ w) ws /\ l = join [underscore] ws /\ Forall2 capitalized ws vs /\
    to_camel_case fuel sc l sep = Ok (join sep vs).
Proof. exact (camel_words_all fuel sc sep l). Qed.
Print Assumptions C34_to_camel_case_partial.

Example C34_to_camel_case_ex :
  to_camel_case 20 true (txt "foo_bar_1_baz_") [] = Ok (txt "FooBar1Baz") /\
  to_camel_case 20 true (txt "_foo bar") (txt " ") = Ok (txt " Foo bar").
Proof. done. Qed.

Theorem C34_to_camel_case_refuted : exists l out, Forall ascii7 l /\
  to_camel_case 10 true l [] = Ok out /\ underscore ∈ out.
Proof.
  exists (txt "a__b"), (txt "A_b"). split; [repeat constructor; unfold ascii7; vm_compute; lia|]. split; [done|].
  apply elem_of_list_In. right. by left.
Qed.
Print Assumptions C34_to_camel_case_refuted.

(** Where [char] is signed, a character outside the 7-bit range is undefined behaviour. *)
Theorem C34_non_ascii_refuted : exists c, to_camel_case 10 true [c] [] = UB /\ to_snake_case 10 true [c] = UB.
Proof. exists "233"%char. done. Qed.
Print Assumptions C34_non_ascii_refuted.

(** [camel_to_words] puts the separator before every capital except the first character of the text, and
    changes nothing else but the capitals. *)
Theorem C34_camel_to_words fuel sc c l sep f : List.length l + 1 < fuel -> Forall ascii7 (c :: l) ->
  camel_to_words fuel sc (c :: l) sep f =
  Ok ((if decide (is_upper c) then f c else c) :: at_capitals sep f l).
Proof. exact (camel_to_words_spec fuel sc c l sep f). Qed.
Print Assumptions C34_camel_to_words.

Example C34_camel_to_words_ex :
  camel_to_words 20 true (txt "FooBarB") (txt " ") id = Ok (txt "Foo Bar B") /\
  to_snake_case 20 true (txt "FooBarB") = Ok (txt "foo_bar_b").
Proof. done. Qed.

(** A name in snake case goes to camel case and back. *)
Theorem C34_snake_camel_snake fuel sc ws :
  ws <> [] -> Forall snake_word ws -> List.length (join [underscore] ws) + 1 < fuel ->
  exists out, to_camel_case fuel sc (join [underscore] ws) [] = Ok out /\
              to_snake_case fuel sc out = Ok (join [underscore] ws).
Proof. exact (snake_camel_snake fuel sc ws). Qed.
Print Assumptions C34_snake_camel_snake.

(** A name in camel case goes to snake case and back. *)
Theorem C34_camel_snake_camel fuel sc ws :
  ws <> [] -> Forall camel_word ws -> List.length (join [underscore] ws) + 1 < fuel ->
  exists out, to_snake_case fuel sc (concat ws) = Ok out /\ to_camel_case fuel sc out [] = Ok (concat ws).
Proof. exact (camel_snake_camel fuel sc ws). Qed.
Print Assumptions C34_camel_snake_camel.

Example C34_round_ex :
  Forall snake_word [txt "foo"; txt "b1"] /\ Forall camel_word [txt "Foo"; txt "B1"] /\
  to_camel_case 20 true (txt "foo_b1") [] = Ok (txt "FooB1") /\ to_snake_case 20 true (txt "FooB1") = Ok (txt "foo_b1").
Proof.
  split; [|split; [|done]];
    repeat (constructor; [split; [vm_compute; lia|repeat (constructor; [vm_compute; repeat split; first [lia|intros [? ?]; lia|done]|]); by constructor]|]);
    constructor.
Qed.

Theorem C34_capitalize l : capitalized l (capitalize l).
Proof. exact (capitalize_spec l). Qed.
Print Assumptions C34_capitalize.

Theorem C34_uncapitalize l :
  match l, uncapitalize l with
  | [], [] => True
  | c :: l', u :: v => lower_of c u /\ v = l'
  | _, _ => False
  end.
Proof. exact (uncapitalize_spec l). Qed.
Print Assumptions C34_uncapitalize.

Example C34_capitalize_ex : capitalize (txt "abC") = txt "AbC" /\ uncapitalize (txt "ABC") = txt "aBC" /\ capitalize (txt "_a") = txt "_a".
Proof. done. Qed.

(** ** C35 *)

(** [indent] prefixes the non-empty lines and changes nothing else. *)
Theorem C35_indent fuel sv ind : List.length sv < fuel ->
  indent fuel sv ind = Ok (join [nl] (map (indent_line ind) (lines sv))) /\ join [nl] (lines sv) = sv.
Proof. exact (fun H => conj (indent_spec fuel sv ind H) (join_lines sv)). Qed.
Print Assumptions C35_indent.

(** Removing the indentation from the lines gives the text back. *)
Theorem C35_unindent fuel sv ind out : nl ∉ ind -> List.length sv < fuel -> indent fuel sv ind = Ok out ->
  join [nl] (map (unindent_line ind) (lines out)) = sv.
Proof.
  intros Hnl Hf. rewrite (indent_spec fuel sv ind Hf). intros [= <-]. exact (unindent_indented ind sv Hnl).
Qed.
Print Assumptions C35_unindent.

Definition br : text := [nl].
Example C35_indent_ex :
  indent 20 (txt "a" ++ br ++ br ++ txt " b" ++ br) (txt "  ") = Ok (txt "  a" ++ br ++ br ++ txt "   b" ++ br).
Proof. done. Qed.

Theorem C35_append_indented fuel s1 s2 ind : s1 <> [] -> s2 <> [] -> List.length s2 < fuel ->
  append_indented fuel s1 s2 ind = Ok (s1 ++ [nl] ++ join [nl] (map (indent_line ind) (lines s2))).
Proof. intros H1 H2 Hf. rewrite (append_indented_spec fuel s1 s2 ind Hf). by destruct s1, s2. Qed.
Print Assumptions C35_append_indented.

(** If one of the texts is empty the result is the other one, not indented. *)
Theorem C35_append_indented_empty fuel s ind : 
  append_indented fuel s [] ind = Ok s /\ append_indented fuel [] s ind = Ok s.
Proof. by destruct s. Qed.
Print Assumptions C35_append_indented_empty.

(** [append_lines] puts the non-empty texts on lines of their own. *)
Theorem C35_append_lines fuel s ss : Forall (fun x => List.length x < fuel) ss ->
  append_lines fuel s ss = Ok (join [nl] (List.filter (fun x => match x with [] => false | _ => true end) (s :: ss))).
Proof. exact (append_lines_spec fuel ss s). Qed.
Print Assumptions C35_append_lines.

(** [indent] of several texts: each non-empty one on lines of its own, all indented. *)
Theorem C35_indent_all fuel sv ss ind : List.length sv < fuel -> Forall (fun x => List.length x < fuel) ss -> sv <> [] ->
  indent_all fuel sv ss ind =
  Ok (join [nl] (map (fun x => join [nl] (map (indent_line ind) (lines x)))
        (List.filter (fun x => match x with [] => false | _ => true end) (sv :: ss)))).
Proof. exact (indent_all_spec fuel sv ss ind). Qed.
Print Assumptions C35_indent_all.

Example C35_indent_all_ex :
  indent_all 20 (txt "a") [[]; txt "b" ++ [nl] ++ txt "c"] (txt " ") = Ok (txt " a" ++ [nl] ++ txt " b" ++ [nl] ++ txt " c").
Proof. done. Qed.

(** If the first text is empty the next one is not indented. *)
Theorem C35_indent_all_empty : exists x ind, x <> [] /\ ind <> [] /\ indent_all 20 [] [x] ind = Ok x.
Proof. by exists (txt "a"), (txt " "). Qed.
Print Assumptions C35_indent_all_empty.

Example C35_append_ex :
  append_indented 20 (txt "a") (txt "b" ++ br ++ txt "c") (txt " ") = Ok (txt "a" ++ br ++ txt " b" ++ br ++ txt " c") /\
  append_lines 20 [] [txt "a"; []; txt "b"] = Ok (txt "a" ++ br ++ txt "b").
Proof. done. Qed.

Theorem C35_tabs_to_spacing fuel l spacing : List.length l < fuel ->
  tabs_to_spacing fuel l spacing = Ok (concat (map (fun x => if decide (x = tab) then spacing else [x]) l)).
Proof. exact (tabs_to_spacing_spec fuel l spacing). Qed.
Print Assumptions C35_tabs_to_spacing.

Example C35_tabs_ex : tabs_to_spacing 20 ([tab] ++ txt "a" ++ [tab]) (txt "  ") = Ok (txt "  a  ").
Proof. done. Qed.

Theorem C35_trim ind count : trim ind count = take (List.length ind - count) ind.
Proof. exact (trim_spec ind count). Qed.
Print Assumptions C35_trim.

(** [end_block] appends just enough line breaks, and then the footer. *)
Theorem C35_end_block s newlines footer : s <> [] ->
  exists k, end_block s newlines footer = s ++ repeat nl k ++ footer /\
    ends_with_breaks newlines (s ++ repeat nl k) /\
    (0 < k -> ~ ends_with_breaks (S newlines) (s ++ repeat nl k)).
Proof. exact (end_block_spec s newlines footer). Qed.
Print Assumptions C35_end_block.

Theorem C35_end_block_empty newlines footer : end_block [] newlines footer = [].
Proof. exact eq_refl. Qed.
Print Assumptions C35_end_block_empty.

Example C35_end_block_ex :
  end_block (txt "a" ++ br) 2 (txt "=") = txt "a" ++ br ++ br ++ txt "=" /\
  end_block (br ++ br ++ br) 2 [] = br ++ br ++ br.
Proof. done. Qed.

(** ** C56 *)

(** The first delimiter at or after [pos] and one past the delimiter which closes it: the depth is positive
    in between and zero there for the first time.  Twice the same position: never closed.  Nothing: there is
    no opening delimiter. *)
Theorem C56_matched_delimiters l o c pos :
  match find_matched_delimiters l o c pos with
  | None => forall i, pos <= i -> l !! i <> Some o
  | Some (p, e) =>
      pos <= p /\ l !! p = Some o /\ (forall i, pos <= i < p -> l !! i <> Some o) /\
      ((e = p /\ forall j, p < j <= List.length l -> (0 < depth o c (drop p (take j l)))%Z) \/
       (p + 1 < e <= List.length l /\ l !! (e - 1) = Some c /\ depth o c (drop p (take e l)) = 0%Z /\
        forall j, p < j < e -> (0 < depth o c (drop p (take j l)))%Z))
  end.
Proof. exact (matched_spec l o c pos). Qed.
Print Assumptions C56_matched_delimiters.

Theorem C56_sandwiched_text l lft rgt pos :
  match find_sandwiched_text l lft rgt pos with
  | None => forall i, pos <= i -> ~ occurs_at lft l i
  | Some (start, e) =>
      pos + List.length lft <= start /\ occurs_at lft l (start - List.length lft) /\
      (forall i, pos <= i < start - List.length lft -> ~ occurs_at lft l i) /\
      match e with
      | Some e => start <= e /\ occurs_at rgt l e /\ forall i, start <= i < e -> ~ occurs_at rgt l i
      | None => forall i, start <= i -> ~ occurs_at rgt l i
      end
  end.
Proof. exact (sandwiched_spec l lft rgt pos). Qed.
Print Assumptions C56_sandwiched_text.

Example C56_ex :
  find_matched_delimiters (txt "f(a(b)c)d") "(" ")" 0 = Some (1, 8) /\
  find_matched_delimiters (txt "f(a(b)c") "(" ")" 0 = Some (1, 1) /\
  find_matched_delimiters (txt "f)") "(" ")" 0 = None /\
  find_sandwiched_text (txt "x::span<int, 5>") (txt "::span<") (txt ">") 0 = Some (8, Some 14).
Proof. done. Qed.
