(** C101: the texts of new projects. *)
From Coq Require Import Ascii String.
From stdpp Require Import list gmap strings.
From Verif.Base Require Import Outcome ListLemmas.
From Verif.Text Require Import Model Spec.
From Verif.Materials Require Import Model Spec.
From Verif.Creator Require Import Model Spec.
From Verif.Init Require Import Model ModelTemplate Spec ProofsWitness SpecMain ProofsMain.
Local Notation "⌜ s ⌝" := (list_ascii_of_string s%string).

(** The main function is that of the template, with the holder and the year, the name of the project and the indent instead of what
    stands for them there. *)
Theorem C101_main_partial : forall year h ind name, year_text year -> plain_indent ind -> Forall name_char name -> plain_holder h ->
  main_text year h ind name shipped_main = Ok (with_copyright year h (instantiate (main_table h ind (uncapitalize name)) (body shipped_main))).
Proof. exact main_adapted. Qed.
Print Assumptions C101_main_partial.

Example C101_main_holds : main_text ⌜"2024"⌝ ⌜"A. N. Other"⌝ [tab; " "%char] ⌜"Foo-1"⌝ shipped_main
  = Ok (with_copyright ⌜"2024"⌝ ⌜"A. N. Other"⌝ (instantiate (main_table ⌜"A. N. Other"⌝ [tab; " "%char] ⌜"foo-1"⌝) (body shipped_main))).
Proof.
  apply (C101_main_partial ⌜"2024"⌝ ⌜"A. N. Other"⌝ [tab; " "%char] ⌜"Foo-1"⌝); [exact year_ok|exact indent_ok|exact foo_ok|exact other_ok].
Qed.

(** So the runner is told of the holder, and of the indent, and the namespace is that of the project. *)
Theorem C101_runner_partial : forall year h ind name, year_text year -> plain_indent ind -> Forall name_char name -> plain_holder h ->
  exists out, main_text year h ind name shipped_main = Ok out /\
    occurs (⌜"test_runner runner{argc, argv, """⌝ ++ h ++ ⌜""", """⌝ ++ literal ind ++ ⌜"""};"⌝) out /\
    occurs (⌜"using namespace "⌝ ++ uncapitalize name ++ ⌜"::testing;"⌝) out.
Proof. exact main_stands. Qed.
Print Assumptions C101_runner_partial.

(** The files for CMake are those of the template, with the name of the project. *)
Theorem C101_cmake_partial : forall name, plain_name name ->
  set_proj_name shipped_cmake name = Ok (instantiate (cmake_table name (uncapitalize name)) shipped_cmake) /\
  set_proj_name shipped_library name = Ok (instantiate (cmake_table name (uncapitalize name)) shipped_library).
Proof. exact (fun name H => conj (cmake_by name _ H cmake_checked_main) (cmake_by name _ H cmake_checked_library)). Qed.
Print Assumptions C101_cmake_partial.

Example C101_cmake_holds : set_proj_name shipped_cmake ⌜"Foo-1"⌝ = Ok (instantiate (cmake_table ⌜"Foo-1"⌝ ⌜"foo-1"⌝) shipped_cmake).
Proof. exact (proj1 (C101_cmake_partial ⌜"Foo-1"⌝ foo_plain)). Qed.

(** These are the files of the projects which are created from the template which is shipped. *)
Theorem C101_created_partial : forall parent year d xs, in_folders d -> shipped parent d -> year_text year ->
  Forall (fun x => acceptable d x /\ disjoint_paths parent (project_root x) /\ way_free d (project_root x) /\ complete parent d x
                   /\ plain_holder (copyright x) /\ plain_name (List.last (project_root x) [])) xs ->
  ForallOrdPairs (fun x y => disjoint_paths (project_root x) (project_root y)) xs ->
  exists d', init_projects parent year d xs = Created d' /\
    (forall x, x ∈ xs -> forall r, d' !! (project_root x ++ r) = expected parent d x (adapted year x) r).
Proof. exact all_adapted. Qed.
Print Assumptions C101_created_partial.

Example C101_created_holds : exists d', init_projects here year start [foos; bars] = Created d' /\
  (forall x, x ∈ [foos; bars] -> forall r, d' !! (project_root x ++ r) = expected here start x (adapted year x) r).
Proof.
  apply C101_created_partial; [exact start_in_folders|exact start_shipped|exact year_ok| |].
  - apply Forall_cons_2; [exact foos_plain|]. apply Forall_cons_2; [exact bars_plain|]. apply Forall_nil_2.
  - apply FOP_cons; [apply List.Forall_cons; [exact apart|apply List.Forall_nil]|]. apply FOP_cons; [apply List.Forall_nil|apply FOP_nil].
Qed.

(** If the holder's name is longer than, but contains, that of the author, the runner is told of another one. *)
Theorem C101_runner_refuted : exists year h ind name, year_text year /\ plain_indent ind /\ Forall name_char name /\ tab ∉ h /\ "\"%char ∉ h /\
  exists out, main_text year h ind name shipped_main = Ok out /\ ~ occurs (⌜"argv, """⌝ ++ h) out.
Proof.
  exists ⌜"2024"⌝, others, ⌜"  "⌝, ⌜"Foo"⌝. split; [exact year_ok|]. split; [exact blanks_ok|]. split; [exact foo_chars|]. split; [exact others_tab|]. split; [exact others_bs|].
  exact (lacking_ok _ _ others_lacking).
Qed.
Print Assumptions C101_runner_refuted.
