(** Properties of [add_to_suite] (C67) and [add_to_cmake] (C68). *)
From Coq Require Import Ascii String.
From stdpp Require Import list sorting.
From Verif.Base Require Import Outcome Compare.
From Verif.Text Require Import Model Spec Proofs.
From Verif.Edit Require Import Model Spec Proofs ModelSuite SpecSuite ProofsSuite ProofsSuiteNew ProofsCmake.

Local Notation "⌜ s ⌝" := (list_ascii_of_string s%string).
Local Definition ln (s : string) : text := list_ascii_of_string s ++ [nl].

(** ** C67 *)

(** A decision procedure for the examples. *)
Local Definition check (name ind : text) (ts : list text) : bool :=
  bool_decide (nl ∉ name /\ find_first ⌜");"⌝ name = None /\ nl ∉ ind /\ ")"%char ∉ ind /\ quote ∉ ind /\
    Forall (fun t => t <> [] /\ nl ∉ t) ts /\ Forall (fun t => find_first ⌜");"⌝ t = None) ts).
Local Lemma check_clean name ind ts : check name ind ts = true -> clean name ind ts.
Proof.
  unfold check. rewrite bool_decide_eq_true. intros (H1&H2&H3&H4&H5&H6&H7). apply find_first_None in H2.
  split; [done|done|]. split; [done|]. eapply Forall_impl; [exact H7|]. intros t Ht. by apply find_first_None in Ht.
Qed.

(** A main file with one suite. *)
Definition head_text : text := ln "int main()" ++ ln "{" ++ ln "  runner.add_test_suite(".
Definition main_text : text :=
  head_text ++ ln "    ""Maths""," ++ ln "    a_test{""A""}" ++ ln "  );" ++ [nl] ++ ln "  runner.execute();" ++ ln "}".
Definition main_before : text := head_text ++ ⌜"    "⌝.
Definition main_body : text := ln "    a_test{""A""}" ++ ⌜"  "⌝.
Definition main_after : text := main_body ++ ln ");" ++ [nl] ++ ln "  runner.execute();" ++ ln "}".
Definition ind2 : text := ⌜"  "⌝.

Lemma main_suite : suite_at main_text ⌜"Maths"⌝ main_before [] main_after.
Proof.
  split; [by vm_compute| |apply (bool_decide_unpack _); by vm_compute]. apply find_first_Some. by vm_compute.
Qed.

Lemma main_opened : opened main_before.
Proof.
  exists (ln "int main()" ++ ln "{" ++ ⌜"  runner."⌝), ⌜"    "⌝. split; [by vm_compute|]. split; [|done].
  apply (bool_decide_unpack _). by vm_compute.
Qed.

Lemma main_body_ok : body main_after main_body.
Proof. right. exists ([nl] ++ [nl] ++ ln "  runner.execute();" ++ ln "}"). split; [by vm_compute|]. apply find_first_Some. by vm_compute. Qed.

Lemma main_unclosed : unclosed (quoted ⌜"Maths"⌝ ++ []).
Proof. unfold unclosed. rewrite <- find_first_None. by vm_compute. Qed.

(** A call for a suite which is mentioned changes nothing but adds lines with tests, in reversed order, after the
    line which mentions the suite. *)
Theorem C67_frame : forall l name before rest after ind tests out, suite_at l name before rest after ->
  add_to_suite l name ind tests = Ok out ->
  exists added, added `sublist_of` tests /\ out = before ++ quoted name ++ rest ++ [nl] ++ test_lines ind (reverse added) ++ after.
Proof. exact suite_frame. Qed.
Print Assumptions C67_frame.

Example C67_frame_ex : suite_at main_text ⌜"Maths"⌝ main_before [] main_after /\
  add_to_suite main_text ⌜"Maths"⌝ ind2 [⌜"a_test{""A""}"⌝; ⌜"b_test{}"⌝; ⌜"c_test{}"⌝] =
  Ok (head_text ++ ln "    ""Maths""," ++ ln "      c_test{}," ++ ln "      b_test{}," ++ ln "    a_test{""A""}" ++ ln "  );" ++ [nl] ++
      ln "  runner.execute();" ++ ln "}").
Proof. split; [exact main_suite|by vm_compute]. Qed.

(** Afterwards all the tests are in the statement, provided that it is not closed on the line with the name. *)
Theorem C67_present_partial : forall l name before rest after b ind tests out, suite_at l name before rest after ->
  unclosed (quoted name ++ rest) -> body after b -> add_to_suite l name ind tests = Ok out ->
  exists added post, added `sublist_of` tests /\ after = b ++ post /\
    out = before ++ quoted name ++ rest ++ [nl] ++ test_lines ind (reverse added) ++ after /\
    Forall (fun t => nl ∉ t -> occurs t (quoted name ++ rest ++ [nl] ++ test_lines ind (reverse added) ++ b)) tests.
Proof. exact suite_present. Qed.
Print Assumptions C67_present_partial.

Example C67_present_partial_ex : suite_at main_text ⌜"Maths"⌝ main_before [] main_after /\ unclosed (quoted ⌜"Maths"⌝ ++ []) /\
  body main_after main_body /\ exists out, add_to_suite main_text ⌜"Maths"⌝ ind2 [⌜"b_test{}"⌝; ⌜"a_test{""A""}"⌝] = Ok out.
Proof.
  split; [exact main_suite|]. split; [exact main_unclosed|]. split; [exact main_body_ok|].
  eapply suite_success; [exact main_suite|exact main_opened|done].
Qed.

(** Tests of which there is no trace are all added. *)
Theorem C67_all_added : forall l name before rest after b ind tests, suite_at l name before rest after -> opened before ->
  unclosed (quoted name ++ rest) -> body after b -> tests <> [] -> Forall one_line tests ->
  Forall (fun t => ~ occurs t (quoted name ++ rest) /\ ~ occurs t b) tests ->
  ForallOrdPairs (fun t u => ~ occurs u (test_line ind t)) tests ->
  add_to_suite l name ind tests = Ok (before ++ quoted name ++ rest ++ [nl] ++ test_lines ind (reverse tests) ++ after).
Proof. exact suite_all_added. Qed.
Print Assumptions C67_all_added.

Example C67_all_added_ex : suite_at main_text ⌜"Maths"⌝ main_before [] main_after /\ opened main_before /\ unclosed (quoted ⌜"Maths"⌝ ++ []) /\
  body main_after main_body /\ Forall one_line [⌜"b_test{}"⌝; ⌜"c_test{}"⌝] /\
  Forall (fun t => ~ occurs t (quoted ⌜"Maths"⌝ ++ []) /\ ~ occurs t main_body) [⌜"b_test{}"⌝; ⌜"c_test{}"⌝] /\
  ForallOrdPairs (fun t u => ~ occurs u (test_line ind2 t)) [⌜"b_test{}"⌝; ⌜"c_test{}"⌝].
Proof.
  split; [exact main_suite|]. split; [exact main_opened|]. split; [exact main_unclosed|]. split; [exact main_body_ok|].
  split; [repeat constructor; try done; apply (bool_decide_unpack _); by vm_compute|].
  split; [repeat constructor; rewrite <- find_first_None; by vm_compute|].
  repeat constructor; rewrite <- find_first_None; by vm_compute.
Qed.

(** A suite which follows a line ending with [add_test_suite(] is accepted. *)
Theorem C67_success : forall l name before rest after ind tests, suite_at l name before rest after -> opened before -> tests <> [] ->
  exists out, add_to_suite l name ind tests = Ok out.
Proof. exact suite_success. Qed.
Print Assumptions C67_success.

Example C67_success_ex : suite_at main_text ⌜"Maths"⌝ main_before [] main_after /\ opened main_before.
Proof. split; [exact main_suite|exact main_opened]. Qed.

(** A suite which is not mentioned is put on the lines before the first [runner.execute]. *)
Theorem C67_new_suite : forall l name ind tests before w after, l = before ++ [nl] ++ w ++ ⌜"runner.execute"⌝ ++ after ->
  first_at ⌜"runner.execute"⌝ l (length (before ++ [nl] ++ w)) -> nl ∉ w -> ~ occurs (quoted name) l ->
  tests <> [] -> nl ∉ name -> Forall one_line tests ->
  add_to_suite l name ind tests = Ok (before ++ new_suite name ind tests ++ [nl] ++ w ++ ⌜"runner.execute"⌝ ++ after).
Proof. exact new_suite_added. Qed.
Print Assumptions C67_new_suite.

Example C67_new_suite_ex :
  (let before := ln "int main()" ++ ⌜"{"⌝ in let l := before ++ [nl] ++ ⌜"  "⌝ ++ ⌜"runner.execute"⌝ ++ ln "();" ++ ln "}" in
   first_at ⌜"runner.execute"⌝ l (length (before ++ [nl] ++ ⌜"  "⌝)) /\ nl ∉ ⌜"  "⌝ /\ ~ occurs (quoted ⌜"Maths"⌝) l /\
   Forall one_line [⌜"a_test{}"⌝; ⌜"b_test{}"⌝] /\
   add_to_suite l ⌜"Maths"⌝ ind2 [⌜"a_test{}"⌝; ⌜"b_test{}"⌝] =
   Ok (ln "int main()" ++ ln "{" ++ ln "    runner.add_test_suite(" ++ ln "      ""Maths""," ++ ln "      a_test{}," ++ ln "      b_test{}" ++ ln "    );" ++
       [nl] ++ ln "  runner.execute();" ++ ln "}")).
Proof.
  cbn zeta. split; [apply find_first_Some; by vm_compute|]. split; [apply (bool_decide_unpack _); by vm_compute|].
  split; [rewrite <- find_first_None; by vm_compute|].
  split; [repeat constructor; try done; apply (bool_decide_unpack _); by vm_compute|by vm_compute].
Qed.

(** Calling again with the same arguments changes nothing, provided that the statement is not closed on the line with
    the name. *)
Theorem C67_repeated_partial : forall l name ind tests out, clean name ind tests ->
  (forall before rest after, suite_at l name before rest after -> unclosed (quoted name ++ rest)) ->
  add_to_suite l name ind tests = Ok out -> add_to_suite out name ind tests = Ok out.
Proof. exact repeat_all. Qed.
Print Assumptions C67_repeated_partial.

Example C67_repeated_partial_ex : clean ⌜"Maths"⌝ ind2 [⌜"b_test{}"⌝; ⌜"a_test{""A""}"⌝] /\
  (forall before rest after, suite_at main_text ⌜"Maths"⌝ before rest after -> unclosed (quoted ⌜"Maths"⌝ ++ rest)).
Proof.
  split.
  - apply check_clean. by vm_compute.
  - intros before rest after [E F N]. destruct main_suite as [E' F' N'].
    assert (length before = length main_before) as Hlen by (eapply first_at_fun; done).
    rewrite E in E'. apply app_inj_1 in E' as [-> E']; [|done]. apply app_inv_head in E'.
    destruct rest as [|c rest]; [exact main_unclosed|]. exfalso. change ([] ++ [nl] ++ main_after) with (nl :: main_after) in E'. cbn in E'.
    injection E' as -> _. apply N. rewrite elem_of_app. right. apply elem_of_cons. by left.
Qed.

(** The only exceptions are those for an empty list of tests and for a text without a suitable place. *)
Theorem C67_outcome : forall l name ind tests, Forall one_line tests -> nl ∉ name ->
  (tests = [] /\ add_to_suite l name ind tests = Throw LogicError) \/
  (tests <> [] /\ (add_to_suite l name ind tests = Throw RuntimeError \/ exists out, add_to_suite l name ind tests = Ok out)).
Proof. exact suite_outcome. Qed.
Print Assumptions C67_outcome.

Theorem C67_nowhere : forall l name ind tests, tests <> [] -> ~ occurs (quoted name) l -> ~ occurs ⌜"runner.execute"⌝ l ->
  add_to_suite l name ind tests = Throw RuntimeError.
Proof. exact suite_nowhere. Qed.
Print Assumptions C67_nowhere.

Example C67_outcome_ex : Forall one_line [⌜"a_test{}"⌝] /\ nl ∉ ⌜"Maths"⌝ /\ ~ occurs (quoted ⌜"Maths"⌝) (ln "int main()") /\
  ~ occurs ⌜"runner.execute"⌝ (ln "int main()") /\ add_to_suite (ln "int main()") ⌜"Maths"⌝ ind2 [] = Throw LogicError.
Proof.
  split; [repeat constructor; try done; apply (bool_decide_unpack _); by vm_compute|].
  split; [apply (bool_decide_unpack _); by vm_compute|]. split; [rewrite <- find_first_None; by vm_compute|].
  split; [rewrite <- find_first_None; by vm_compute|by vm_compute].
Qed.

(** The end of the statement is computed once, so a test which was in the suite is added again after a longer one has
    been added. *)
Theorem C67_pushed_out_refuted : exists l name ind t u before rest after out, suite_at l name before rest after /\ opened before /\
  clean name ind [t; u] /\ body after (⌜"    "⌝ ++ u ++ [nl]) /\
  add_to_suite l name ind [t; u] = Ok out /\
  out = before ++ quoted name ++ rest ++ [nl] ++ test_line ind u ++ test_line ind t ++ after.
Proof.
  set (t := ⌜"new_test{""Longer than the others""}"⌝). set (u := ⌜"a_test{}"⌝).
  set (after := (⌜"    "⌝ ++ u ++ [nl]) ++ ln ");" ++ ln "runner.execute();").
  set (before := ln "int main(){" ++ ln "runner.add_test_suite(").
  exists (before ++ quoted ⌜"S"⌝ ++ [] ++ [nl] ++ after), ⌜"S"⌝, ind2, t, u, before, [], after.
  exists (before ++ quoted ⌜"S"⌝ ++ [] ++ [nl] ++ test_line ind2 u ++ test_line ind2 t ++ after).
  split; [split; [done|apply find_first_Some; by vm_compute|apply (bool_decide_unpack _); by vm_compute]|].
  split; [exists (ln "int main(){" ++ ⌜"runner."⌝), []; split; [by vm_compute|]; split; [apply (bool_decide_unpack _); by vm_compute|done]|].
  split.
  { apply check_clean. by vm_compute. }
  split; [|split; [by vm_compute|done]].
  right. exists ([nl] ++ ln "runner.execute();"). split; [by vm_compute|]. apply find_first_Some. by vm_compute.
Qed.
Print Assumptions C67_pushed_out_refuted.

(** A test the text of which is part of another one, or of the name of the suite, is not added. *)
Theorem C67_part_refuted : exists l name ind t before rest after, suite_at l name before rest after /\ opened before /\
  clean name ind [t] /\ (forall w, w ∈ lines after -> w <> ind ++ ind ++ ind ++ t ++ ⌜","⌝ /\ w <> ind ++ ind ++ ind ++ t) /\
  add_to_suite l name ind [t] = Ok l.
Proof.
  set (t := ⌜"a_test{}"⌝). set (after := ln "      data_test{}" ++ ln "    );" ++ ln "runner.execute();").
  set (before := ln "int main(){" ++ ln "    runner.add_test_suite(" ++ ⌜"      "⌝).
  exists (before ++ quoted ⌜"S"⌝ ++ [] ++ [nl] ++ after), ⌜"S"⌝, ind2, t, before, [], after.
  split; [split; [done|apply find_first_Some; by vm_compute|apply (bool_decide_unpack _); by vm_compute]|].
  split; [exists (ln "int main(){" ++ ⌜"    runner."⌝), ⌜"      "⌝; split; [by vm_compute|]; split; [apply (bool_decide_unpack _); by vm_compute|done]|].
  split.
  { apply check_clean. by vm_compute. }
  split; [|by vm_compute]. apply Forall_forall. repeat constructor; by vm_compute.
Qed.
Print Assumptions C67_part_refuted.

(** If the statement is closed on the line with the name the test is put after the statement, each time again. *)
Theorem C67_closed_refuted : exists l name ind t before rest after, suite_at l name before rest after /\ opened before /\
  clean name ind [t] /\ occurs ⌜");"⌝ rest /\
  add_to_suite l name ind [t] = Ok (before ++ quoted name ++ rest ++ [nl] ++ test_line ind t ++ after) /\
  add_to_suite (before ++ quoted name ++ rest ++ [nl] ++ test_line ind t ++ after) name ind [t] =
    Ok (before ++ quoted name ++ rest ++ [nl] ++ test_line ind t ++ test_line ind t ++ after).
Proof.
  set (t := ⌜"b_test{}"⌝). set (after := ln "runner.execute();"). set (rest := ⌜" a_test{});"⌝).
  set (before := ln "int main(){" ++ ln "    runner.add_test_suite(" ++ ⌜"      "⌝).
  exists (before ++ quoted ⌜"S"⌝ ++ rest ++ [nl] ++ after), ⌜"S"⌝, ind2, t, before, rest, after.
  split; [split; [done|apply find_first_Some; by vm_compute|apply (bool_decide_unpack _); by vm_compute]|].
  split; [exists (ln "int main(){" ++ ⌜"    runner."⌝), ⌜"      "⌝; split; [by vm_compute|]; split; [apply (bool_decide_unpack _); by vm_compute|done]|].
  split.
  { apply check_clean. by vm_compute. }
  split; [by exists 9, ⌜" a_test{}"⌝, []|]. split; by vm_compute.
Qed.
Print Assumptions C67_closed_refuted.

(** The line with the name of the suite need not follow one with [add_test_suite(]: it suffices that such a line comes
    later.  Then the test may be put into an unrelated statement. *)
Theorem C67_elsewhere_refuted : exists l name ind t before rest after, suite_at l name before rest after /\
  ~ occurs ⌜"add_test_suite("⌝ before /\ clean name ind [t] /\
  add_to_suite l name ind [t] = Ok (before ++ quoted name ++ rest ++ [nl] ++ test_line ind t ++ after).
Proof.
  set (t := ⌜"a_test{}"⌝). set (rest := ⌜" ""Physics""};"⌝).
  set (after := ln "int main(){" ++ ln "  runner.add_test_suite(" ++ ln "    ""Maths""," ++ ln "    b_test{}" ++ ln "  );" ++ ln "  runner.execute();").
  set (before := ln "#include <string>" ++ ⌜"std::string names[]{"⌝).
  exists (before ++ quoted ⌜"Maths"⌝ ++ rest ++ [nl] ++ after), ⌜"Maths"⌝, ind2, t, before, rest, after.
  split; [split; [done|apply find_first_Some; by vm_compute|apply (bool_decide_unpack _); by vm_compute]|].
  split; [rewrite <- find_first_None; by vm_compute|].
  split; [|by vm_compute].
  apply check_clean. by vm_compute.
Qed.
Print Assumptions C67_elsewhere_refuted.

(** ** C68 *)

(** The entries between the first [open] and the next [close], together with the new one, are sorted and put each on a
    line of its own; nothing else changes. *)
Theorem C68_sorted : forall l open close before first ws after entry n d y, cmake_list l open close before first ws after ->
  indentation open n -> close ++ after = d :: y -> d <> " "%char ->
  exists sorted, add_to_cmake l open close entry = Ok (before ++ open ++ first ++ entry_lines n sorted ++ close ++ after) /\
    sorted ≡ₚ entry :: map trimmed ws /\ StronglySorted at_most sorted.
Proof. exact add_to_cmake_spec. Qed.
Print Assumptions C68_sorted.

Definition cm_text : text :=
  ln "project(X)" ++ ln "target_sources(Tests PRIVATE" ++ ln "               ${TestDir}/C.cpp" ++ ln "  ${TestDir}/A.cpp)" ++ ln "end()".
Definition cm_open : text := ⌜"target_sources("⌝.
Definition cm_close : text := ln ")".

Example C68_sorted_ex :
  cmake_list cm_text cm_open cm_close (ln "project(X)") ⌜"Tests PRIVATE"⌝ [⌜"               ${TestDir}/C.cpp"⌝; ⌜"  ${TestDir}/A.cpp"⌝] (ln "end()") /\
  indentation cm_open 15 /\
  add_to_cmake cm_text cm_open cm_close ⌜"${TestDir}/B.cpp"⌝ =
  Ok (ln "project(X)" ++ ln "target_sources(Tests PRIVATE" ++ ln "               ${TestDir}/A.cpp" ++ ln "               ${TestDir}/B.cpp" ++
      ln "               ${TestDir}/C.cpp)" ++ ln "end()").
Proof.
  split; [|split; [|by vm_compute]].
  - split; [by vm_compute|apply find_first_Some; by vm_compute|apply find_first_Some; by vm_compute|].
    repeat constructor; apply (bool_decide_unpack _); by vm_compute.
  - left. exists ⌜"target_sources"⌝, []. split; [done|]. split; [apply (bool_decide_unpack _); by vm_compute|done].
Qed.

(** Where there is such a list it is found, for all other texts there is an exception. *)
Theorem C68_found : forall l open close before rest, l = before ++ open ++ rest -> first_at open l (length before) -> occurs close rest ->
  exists first ws after, cmake_list l open close before first ws after.
Proof. exact cmake_list_exists. Qed.
Print Assumptions C68_found.

Theorem C68_indentation : forall open, exists n, indentation open n.
Proof. exact indentation_exists. Qed.
Print Assumptions C68_indentation.

Theorem C68_none : forall l open close entry,
  ~ (exists before rest, l = before ++ open ++ rest /\ first_at open l (length before) /\ occurs close rest) ->
  add_to_cmake l open close entry = Throw RuntimeError.
Proof. exact cmake_none. Qed.
Print Assumptions C68_none.

Example C68_found_ex : first_at cm_open cm_text (length (ln "project(X)")) /\
  occurs cm_close (drop (length (ln "project(X)" ++ cm_open)) cm_text) /\
  ~ (exists before rest, ln "end()" = before ++ cm_open ++ rest /\ first_at cm_open (ln "end()") (length before) /\ occurs cm_close rest).
Proof.
  split; [apply find_first_Some; by vm_compute|]. split.
  - exists 64. apply (proj1 (find_first_Some _ _ 64)). by vm_compute.
  - intros (before&rest&E&H&_). assert (find_first cm_open (ln "end()") = Some (length before)) as Hf by (by apply find_first_Some).
    vm_compute in Hf. done.
Qed.

(** A second call adds the entry again. *)
Theorem C68_repeated_refuted : exists l open close entry out, add_to_cmake l open close entry = Ok out /\ add_to_cmake out open close entry <> Ok out.
Proof.
  exists cm_text, cm_open, cm_close, ⌜"${TestDir}/B.cpp"⌝.
  exists (ln "project(X)" ++ ln "target_sources(Tests PRIVATE" ++ ln "               ${TestDir}/A.cpp" ++ ln "               ${TestDir}/B.cpp" ++
      ln "               ${TestDir}/C.cpp)" ++ ln "end()").
  split; [by vm_compute|]. by vm_compute.
Qed.
Print Assumptions C68_repeated_refuted.

(** The closing bracket is put after the last entry, even if this ends with a comment: then the list is not closed any
    more. *)
Theorem C68_comment_refuted : exists l open close entry before after, 
  cmake_list l open close before [] [⌜"  A.cpp"⌝; ⌜"  Z.cpp # slow"⌝; []] after /\ (exists y, close = ")"%char :: y) /\
  add_to_cmake l open close entry = Ok (before ++ open ++ entry_lines 4 [[]; ⌜"A.cpp"⌝; entry; ⌜"Z.cpp # slow"⌝] ++ close ++ after).
Proof.
  exists (ln "set(SourceList" ++ ln "  A.cpp" ++ ln "  Z.cpp # slow" ++ ln ")" ++ ln "end()"), ⌜"set(SourceList"⌝, (ln ")"), ⌜"B.cpp"⌝, [], (ln "end()").
  split; [|split; [by exists [nl]|by vm_compute]].
  split; [by vm_compute|apply find_first_Some; by vm_compute|apply find_first_Some; by vm_compute|].
  repeat constructor; apply (bool_decide_unpack _); by vm_compute.
Qed.
Print Assumptions C68_comment_refuted.
