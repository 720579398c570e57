(** Properties of the addition of suites to the test runner (C113). *)
From Coq Require Import Ascii String.
From stdpp Require Import list.
From Verif.Base Require Import Outcome.
From Verif.Text Require Import Model.
From Verif.Graph Require Import Model ModelWeighted ModelTree.
From Verif.Suite Require Import Model Spec.
From Verif.Prune Require Model.
From Verif.Select Require Model.
From Verif.Runner Require Import Model ModelSuites Spec ModelAdd SpecAdd ProofsAdd.
Local Notation "⌜ s ⌝" := (list_ascii_of_string s%string).

(** C113: every text denotes exactly one path (so that "the same source file" is an equivalence). *)
Theorem C113_paths : forall t, exists a p, denotes a p t /\ forall b q, denotes b q t -> b = a /\ q = p.
Proof. exact denotes_exactly. Qed.
Print Assumptions C113_paths.

(** C113: a call is accepted exactly if no two of its tests have the same name and source file, whichever tests are selected ... *)
Theorem C113_accepted : forall n tests, check_for_duplicates n tests = None <-> distinct tests.
Proof. exact check_accepts. Qed.
Print Assumptions C113_accepted.

(** ... and otherwise the exception names the first test which is the same as one in front of it ... *)
Theorem C113_refused : forall n tests msg, check_for_duplicates n tests = Some msg <->
  exists t, first_duplicate tests t /\ msg = complaint n (t_name t) (t_source t).
Proof. exact check_refuses. Qed.
Print Assumptions C113_refused.

(** ... while the runner stays as it is. *)
Theorem C113_unchanged : forall (D K : Type) (rt : D) init_suite init_test (m : K -> text * test -> bool) n tests t f g,
  first_duplicate tests t ->
  add_test_suite rt init_suite init_test m (AddTests n tests) f g = Refused (complaint n (t_name t) (t_source t)) f g.
Proof. exact @refused. Qed.
Print Assumptions C113_unchanged.

(** C113: programs.  Without duplicates the tree is that of C52_suites ... *)
Theorem C113_program : forall (D K : Type) (rt : D) init_suite init_test (m : K -> text * test -> bool) l f g, Forall fine l ->
  add_test_suites rt init_suite init_test m l f g = Extracted (add_suites rt init_suite init_test m (map suite_of l) f g).
Proof. exact @all_fine. Qed.
Print Assumptions C113_program.

(** ... with duplicates nothing behind the call at fault happens, and execute is not reached. *)
Theorem C113_stops : forall (D K : Type) (rt : D) init_suite init_test (m : K -> text * test -> bool) pre n tests t post suites items,
  Forall fine pre -> first_duplicate tests t ->
  exists f g, add_suites rt init_suite init_test m (map suite_of pre) (make_filter suites items) (WGraph [] []) = (f, Ok (Done g))
    /\ add_test_suites rt init_suite init_test m (pre ++ AddTests n tests :: post) (make_filter suites items) (WGraph [] [])
       = Refused (complaint n (t_name t) (t_source t)) f g.
Proof. exact @stops. Qed.
Print Assumptions C113_stops.

(** C113: no two tests which are run have the same suite, name and source file.  Missing: suites of suites, and several calls with
    the same name, see below. *)
Theorem C113_identified_partial : forall (D K : Type) (rt : D) init_suite init_test (m : K -> text * test -> bool) l suites items f g,
  Forall only_tests l -> NoDup (map call_name l) -> l <> [] ->
  add_test_suites rt init_suite init_test m l (make_filter suites items) (WGraph [] []) = Extracted (f, Ok (Done g)) ->
  forall i j x y, i < j -> tests_of (weights g) !! i = Some x -> tests_of (weights g) !! j = Some y -> x.1 = y.1 -> ~ same x.2 y.2.
Proof. exact @identified. Qed.
Print Assumptions C113_identified_partial.

Definition ex_test : test := Test ⌜"Unit Test"⌝ ⌜"/p/Tests/FooTest.cpp"⌝.
Definition ex_other : test := Test ⌜"Unit Test"⌝ ⌜"/p/Tests/BarTest.cpp"⌝.
Definition ex_again : test := Test ⌜"Unit Test"⌝ ⌜"/p//Tests///FooTest.cpp"⌝.
Definition ex_through : test := Test ⌜"Unit Test"⌝ ⌜"/p/Tests/../Tests/FooTest.cpp"⌝.

Definition run_calls (l : list call) : added (D := nat) (K := text) :=
  add_test_suites 0 (fun _ => 0) (fun _ => 0) (fun k x => bool_decide (k = t_source x.2)) l (make_filter None None) (WGraph [] []).
Definition tests_added (l : list call) : option (list (text * test)) :=
  match run_calls l with Extracted (_, Ok (Done g)) => Some (tests_of (weights g)) | _ => None end.

Lemma ex_same : same ex_test ex_test.
Proof. apply same_iff. reflexivity. Qed.

(** C113, false: two calls with the same name may add the same test. *)
Theorem C113_twice_refuted : exists n t, same t t /\ tests_added [AddTests n [t]; AddTests n [t]] = Some [(n, t); (n, t)].
Proof. exists ⌜"Foo"⌝, ex_test. split; [exact ex_same|]. by vm_compute. Qed.
Print Assumptions C113_twice_refuted.

(** C113, false: the suites of a suite are not checked at all, neither on their own nor together. *)
Theorem C113_nested_refuted : exists n t, same t t /\ tests_added [AddSuites n [SItems n [t; t]; SItems n [t]]] = Some [(n, t); (n, t); (n, t)].
Proof. exists ⌜"Foo"⌝, ex_test. split; [exact ex_same|]. by vm_compute. Qed.
Print Assumptions C113_nested_refuted.

(** C113, false: the source files are compared as they are written, without [normal_path]: one reached through another folder
    counts as different. *)
Theorem C113_spelling_refuted : exists n t u, t_name t = t_name u
  /\ Select.Model.normal (path_key (t_source t)).2 = Select.Model.normal (path_key (t_source u)).2
  /\ tests_added [AddTests n [t; u]] = Some [(n, t); (n, u)].
Proof. exists ⌜"Foo"⌝, ex_test, ex_through. split; [done|]. split; by vm_compute. Qed.
Print Assumptions C113_spelling_refuted.

(** *** Examples *)
Example C113_example_denotes : denotes true [⌜"p"⌝; ⌜"Tests"⌝; ⌜"FooTest.cpp"⌝] ⌜"/p//Tests///FooTest.cpp"⌝.
Proof.
  assert (H : forall x : text, bool_decide (x <> [] /\ "/"%char ∉ x) = true -> plain x) by (intros x H; by apply bool_decide_eq_true in H).
  exists 1, ⌜"p//Tests///FooTest.cpp"⌝. split; [done|]. split; [|split; [lia|done]].
  apply (spells_more ⌜"p"⌝ 1 [⌜"Tests"⌝; ⌜"FooTest.cpp"⌝] ⌜"Tests///FooTest.cpp"⌝); [by apply H| |done].
  apply (spells_more ⌜"Tests"⌝ 2 [⌜"FooTest.cpp"⌝] ⌜"FooTest.cpp"⌝); [by apply H| |done]. apply spells_last. by apply H.
Qed.

Example C113_example_distinct : distinct [ex_test; ex_other; ex_through; Test ⌜"Free Test"⌝ ⌜"/p/Tests/FooTest.cpp"⌝].
Proof. apply (C113_accepted ⌜"Foo"⌝). by vm_compute. Qed.

Example C113_example_duplicate : first_duplicate [ex_test; ex_other; ex_again; ex_test] ex_again.
Proof.
  exists [ex_test; ex_other], ex_test, [ex_test]. split; [done|]. split; [apply (C113_accepted ⌜"Foo"⌝); by vm_compute|].
  split; [left|]. apply same_iff. by vm_compute.
Qed.

Example C113_example_stops :
  run_calls [AddTests ⌜"A"⌝ [ex_test]; AddTests ⌜"B"⌝ [ex_test; ex_other; ex_again]; AddTests ⌜"C"⌝ [ex_other]]
  = match run_calls [AddTests ⌜"A"⌝ [ex_test]] with
    | Extracted (f, Ok (Done g)) => Refused (complaint ⌜"B"⌝ ⌜"Unit Test"⌝ ⌜"/p//Tests///FooTest.cpp"⌝) f g
    | r => r
    end.
Proof. by vm_compute. Qed.

Example C113_example_identified : Forall only_tests [AddTests ⌜"A"⌝ [ex_test; ex_other]; AddTests ⌜"B"⌝ [ex_test]]
  /\ NoDup (map call_name [AddTests ⌜"A"⌝ [ex_test; ex_other]; AddTests ⌜"B"⌝ [ex_test]])
  /\ tests_added [AddTests ⌜"A"⌝ [ex_test; ex_other]; AddTests ⌜"B"⌝ [ex_test]] = Some [(⌜"A"⌝, ex_test); (⌜"A"⌝, ex_other); (⌜"B"⌝, ex_test)].
Proof. split; [by repeat constructor|]. split; [apply (bool_decide_unpack _); by vm_compute|by vm_compute]. Qed.
