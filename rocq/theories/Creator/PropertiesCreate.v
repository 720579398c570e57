(** Properties of the creation of tests (C116). *)
From Coq Require Import Ascii String.
From stdpp Require Import list.
From Verif.Base Require Import Outcome ListLemmas.
From Verif.Text Require Import Model Spec Proofs.
From Verif.Edit Require Import Model ModelSuite SpecSuite.
From Verif.Select Require Import Spec.
From Verif.Creator Require Import SpecHeader ModelCreate SpecCreate ProofsCreate.
Local Open Scope res_scope.
Local Notation "⌜ s ⌝" := (list_ascii_of_string s%string).
Local Definition ln (s : string) : text := list_ascii_of_string s ++ [nl].

(** C116: whether or not the creation is completed, no file which exists is changed. *)
Theorem C116_kept : forall tests host camel templates transform p es suite ind cs p' q t,
  end_of (create tests host camel templates transform p es suite ind cs) = Some p' -> files p q = Some t -> files p' q = Some t.
Proof. exact create_kept. Qed.
Print Assumptions C116_kept.

(** If it is completed, all files exist; the new ones are those asked for, with the texts of the templates, suitably changed, and it is
    said which ones are new. *)
Theorem C116_files : forall tests host camel templates transform p es suite ind cs p' ms, NoDup es ->
  create tests host camel templates transform p es suite ind cs = Complete p' ms ->
  (forall e, e ∈ es -> files p' (host ++ [camel ++ e]) <> None) /\
  (forall q, files p q = None -> files p' q <> None -> exists e u, e ∈ es /\ q = host ++ [camel ++ e] /\ files p' q = Some u /\
    exists t, templates e = Some t /\ (t = [] /\ u = [] \/ t <> [] /\ transform t = Ok u)) /\
  ms = map (fun e => match files p (host ++ [camel ++ e]) with Some _ => Exists_ (host ++ [camel ++ e]) | None => Made (host ++ [camel ++ e]) end) es.
Proof. exact create_files_complete. Qed.
Print Assumptions C116_files.

(** The new headers are included, except those for utilities; the new sources are listed for each main file, and the tests are added to
    each of them. *)
Theorem C116_registered : forall tests host camel templates transform t es p suite ind cs p' ms, tests = absolute t -> camel <> [] -> NoDup es ->
  Forall (fun e => header_ending e \/ source_ending e) es ->
  create tests host camel templates transform p es suite ind cs = Complete p' ms ->
  exists hs ss, chosen (fun e => files p (host ++ [camel ++ e]) = None /\ header_ending e /\ ~ for_utilities t (host ++ [camel ++ e])) es hs /\
    chosen (fun e => files p (host ++ [camel ++ e]) = None /\ source_ending e) es ss /\
    edits (fun l e => add_include l (slashed (host ++ [camel ++ e]))) (includes p) hs = Ok (includes p') /\
    Forall2 (fun m m' => add_to_suite (fst m) suite ind cs = Ok (fst m') /\
      edits (fun l e => add_to_cmake l ⌜"target_sources("⌝ ⌜")
"⌝ (⌜"${TestDir}/"⌝ ++ slashed (host ++ [camel ++ e]))) (snd m) ss = Ok (snd m')) (mains p) (mains p').
Proof. exact create_registered. Qed.
Print Assumptions C116_registered.

(** Creating the same test again changes nothing, if names and layout are as usual. *)
Theorem C116_again_partial : forall tests host camel templates transform p es suite ind cs p' ms, clean suite ind cs ->
  Forall (fun m => forall before rest after, suite_at (fst m) suite before rest after -> unclosed (quoted suite ++ rest)) (mains p) ->
  create tests host camel templates transform p es suite ind cs = Complete p' ms ->
  create tests host camel templates transform p' es suite ind cs = Complete p' (map (fun e => Exists_ (host ++ [camel ++ e])) es).
Proof. exact create_again. Qed.
Print Assumptions C116_again_partial.

(** An example *)
Definition ex_tests : list text := [⌜"home"⌝; ⌜"Tests"⌝].
Definition ex_templates (e : text) : option text :=
  if decide (e = ⌜"Utilities.hpp"⌝) then Some [] else if decide (e = ⌜"Test.hpp"⌝) then Some ⌜"A"⌝ else if decide (e = ⌜"Test.cpp"⌝) then Some ⌜"B"⌝ else None.
Definition ex_transform (t : text) : res text := Ok (t ++ ⌜"!"⌝).
Definition ex_main : text := ln "int main()" ++ ln "{" ++ ln "  runner.execute();" ++ ln "}".
Definition ex_cmake : text := ln "target_sources(x PRIVATE" ++ ln "               ${TestDir}/A.cpp)".
Definition ex_project : project := Project (fun q => if decide (q = [⌜"Maths"⌝; ⌜"FooUtilities.hpp"⌝]) then Some ⌜"C"⌝ else None) [] [(ex_main, ex_cmake)].
Definition ex_create (p : project) (cs : list text) : creation :=
  create (absolute ex_tests) [⌜"Maths"⌝] ⌜"Foo"⌝ ex_templates ex_transform p [⌜"Utilities.hpp"⌝; ⌜"Test.hpp"⌝; ⌜"Test.cpp"⌝] ⌜"Foo"⌝ ⌜"  "⌝ cs.

Example C116_example :
  exists p', ex_create ex_project [⌜"foo_test{}"⌝] =
    Complete p' [Exists_ [⌜"Maths"⌝; ⌜"FooUtilities.hpp"⌝]; Made [⌜"Maths"⌝; ⌜"FooTest.hpp"⌝]; Made [⌜"Maths"⌝; ⌜"FooTest.cpp"⌝]] /\
  files p' [⌜"Maths"⌝; ⌜"FooUtilities.hpp"⌝] = Some ⌜"C"⌝ /\ files p' [⌜"Maths"⌝; ⌜"FooTest.hpp"⌝] = Some ⌜"A!"⌝ /\
  includes p' = ln "#include ""Maths/FooTest.hpp""" /\
  mains p' = [(ln "int main()" ++ ln "{" ++ ln "    runner.add_test_suite(" ++ ln "      ""Foo""," ++ ln "      foo_test{}" ++ ln "    );" ++ [nl] ++
               ln "  runner.execute();" ++ ln "}",
               ln "target_sources(x PRIVATE" ++ ln "               ${TestDir}/A.cpp" ++ ln "               ${TestDir}/Maths/FooTest.cpp)")] /\
  ex_create p' [⌜"foo_test{}"⌝] = Complete p' (map (fun e => Exists_ [⌜"Maths"⌝; ⌜"Foo"⌝ ++ e]) [⌜"Utilities.hpp"⌝; ⌜"Test.hpp"⌝; ⌜"Test.cpp"⌝]).
Proof. eexists. split; [by vm_compute|]. split; [by vm_compute|]. split; [by vm_compute|]. split; [by vm_compute|]. split; by vm_compute. Qed.

Example C116_hypotheses_example : NoDup [⌜"Utilities.hpp"⌝; ⌜"Test.hpp"⌝; ⌜"Test.cpp"⌝] /\
  Forall (fun e => header_ending e \/ source_ending e) [⌜"Utilities.hpp"⌝; ⌜"Test.hpp"⌝; ⌜"Test.cpp"⌝] /\
  clean ⌜"Foo"⌝ ⌜"  "⌝ [⌜"foo_test{}"⌝] /\
  Forall (fun m => forall before rest after, suite_at (fst m) ⌜"Foo"⌝ before rest after -> unclosed (quoted ⌜"Foo"⌝ ++ rest)) (mains ex_project).
Proof.
  split; [apply (bool_decide_unpack _); by vm_compute|].
  split. { repeat apply Forall_cons_2; try apply Forall_nil_2; [left; by exists ⌜"Utilities"⌝|left; by exists ⌜"Test"⌝|right; by exists ⌜"Test"⌝]. }
  split.
  - split; [split; [apply (bool_decide_unpack _); by vm_compute|apply find_first_None; by vm_compute]|apply (bool_decide_unpack _); by vm_compute|].
    split; [constructor; [split; [done|apply (bool_decide_unpack _); by vm_compute]|constructor]|].
    constructor; [apply find_first_None; by vm_compute|constructor].
  - apply Forall_cons_2; [|constructor]. intros before rest after [E _ _]. exfalso.
    assert (find_first (quoted ⌜"Foo"⌝) ex_main = None) as N by (by vm_compute). apply find_first_None in N. apply N. cbn [fst] in E.
    exists (List.length before). rewrite E. by exists before, (rest ++ [nl] ++ after).
Qed.

(** But if registering a source file fails, it is not registered by the next attempt, although this is completed: it exists. *)
Theorem C116_interrupted_refuted : exists p cs p1 fixed p2 ms, ex_create p cs = Stopped p1 /\
  ex_create (with_mains p1 fixed) cs = Complete p2 ms /\ files p [⌜"Maths"⌝; ⌜"FooTest.cpp"⌝] = None /\
  files p2 [⌜"Maths"⌝; ⌜"FooTest.cpp"⌝] <> None /\ map snd (mains p2) = map snd fixed /\
  Forall (fun m => ~ occurs ⌜"FooTest.cpp"⌝ (snd m)) (mains p2).
Proof.
  exists (with_mains ex_project [(ex_main, ln "add_executable(x)")]), [⌜"foo_test{}"⌝]. eexists. exists [(ex_main, ex_cmake)]. eexists _, _.
  split; [by vm_compute|]. split; [by vm_compute|]. split; [by vm_compute|]. split; [by vm_compute|]. split; [by vm_compute|].
  apply Forall_cons_2; [|constructor]. apply find_first_None. by vm_compute.
Qed.
Print Assumptions C116_interrupted_refuted.

(** And another test with the same file names is added to the main file without having been created. *)
Theorem C116_clash_refuted : exists p c1 c2 p1 ms1 p2 ms2, ex_create p [c1] = Complete p1 ms1 /\ ex_create p1 [c2] = Complete p2 ms2 /\ c1 <> c2 /\
  files p2 = files p1 /\ Forall (fun m => ~ occurs c2 (fst m)) (mains p1) /\ Forall (fun m => occurs c2 (fst m)) (mains p2).
Proof.
  exists ex_project, ⌜"foo_test{}"⌝, ⌜"other_test{}"⌝. eexists _, _, _, _.
  split; [by vm_compute|]. split; [by vm_compute|]. split; [done|]. split; [done|].
  split; (apply Forall_cons_2; [|constructor]).
  - apply find_first_None. by vm_compute.
  - match goal with |- occurs ?a ?b => let r := eval vm_compute in (find_first a b) in
      match r with Some ?k => assert (first_at a b k) as [H _] by (apply find_first_Some; by vm_compute); by exists k end end.
Qed.
Print Assumptions C116_clash_refuted.
