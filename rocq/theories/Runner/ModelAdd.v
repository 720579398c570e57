(** Model of the addition of suites to the test runner, Source/sequoia/TestFramework/TestRunner.hpp L267-L286, L384-L443, and
    TestRunner.cpp L1058-1068. *)
From Coq Require Import Ascii String.
From stdpp Require Import list.
From Verif.Base Require Import Outcome Compare.
From Verif.Text Require Import Model.
From Verif.Graph Require Import Model ModelWeighted ModelTree.
From Verif.Suite Require Import Model.
From Verif.Prune Require Model.
From Verif.Runner Require Import Model ModelSuites.
Local Notation "⌜ s ⌝" := (list_ascii_of_string s%string).

(** What the check looks at: name() and the text of source_file(), which is that given by the compiler. *)
Record test := Test { t_name : text; t_source : text }.

(** [std::filesystem::path], on systems with slashes only: whether there is a root directory, and the elements behind it; a
    slash at the end is followed by an empty one. *)
Definition path_key (s : text) : bool * list text :=
  (bool_decide (head s = Some Prune.Model.slash),
   match Prune.Model.to_path s with
   | [] => []
   | p => p ++ (if decide (last s = Some Prune.Model.slash) then [[]] else [])
   end).

(** [path::compare]: first the root directories, then the elements, one after the other *)
Definition bool_compare (a b : bool) : comparison :=
  match a, b with false, true => Lt | true, false => Gt | _, _ => Eq end.
Definition key_compare : bool * list text -> bool * list text -> comparison := pair_compare bool_compare (list_compare text_compare).

(** L430: the elements of the set, in order *)
Notation element := (text * (bool * list text))%type.
Definition element_compare : element -> element -> comparison := pair_compare text_compare key_compare.

(** [std::set::emplace]: nothing if there is an equivalent element *)
Fixpoint emplace (x : element) (l : list element) : option (list element) :=
  match l with
  | [] => Some [x]
  | y :: l' =>
      match element_compare y x with
      | Lt => match emplace x l' with Some r => Some (y :: r) | None => None end
      | Eq => None
      | Gt => Some (x :: l)
      end
  end.

(** TestRunner.cpp L1058-1068; CommandLineArguments.cpp L22-25, CommandLineArguments.hpp L126 *)
Definition duplication_message (suite_name : text) (t : test) : text :=
  ⌜"  Error: Suite/Test: """⌝ ++ suite_name ++ ⌜"/"⌝ ++ t_name t ++ ⌜"""
Source file: """⌝ ++ t_source t ++ ⌜"""
Please do not include tests in the same suite which both have the same name and are defined in the same source file.
"⌝.

(** L428-L443; the result is the message of the exception *)
Fixpoint check_go (suite_name : text) (tests : list test) (seen : list element) : option text :=
  match tests with
  | [] => None
  | t :: tests =>
      match emplace (t_name t, path_key (t_source t)) seen with
      | Some seen => check_go suite_name tests seen
      | None => Some (duplication_message suite_name t)
      end
  end.
Definition check_for_duplicates (suite_name : text) (tests : list test) : option text := check_go suite_name tests [].

(** Calls of add_test_suite, L267-L286 *)
Inductive call := AddTests (name : text) (tests : list test) | AddSuites (name : text) (subs : list (suite test)).

(** L397, L405-L411: every test is given the name of the outermost suite.  (In the source when it is extracted, here before
    that: the filter does not look at it.) *)
Fixpoint relabel (n : text) (s : suite test) : suite (text * test) :=
  match s with
  | SItems m items => SItems m (map (pair n) items)
  | SSuites m subs => SSuites m (map (relabel n) subs)
  end.
Definition suite_of (c : call) : suite (text * test) :=
  match c with
  | AddTests n tests => relabel n (SItems n tests)                                (* L425 *)
  | AddSuites n subs => relabel n (SSuites n subs)                                (* L285 *)
  end.

Section add.
  Context {D K : Type} (root : D) (init_suite : suite (text * test) -> D) (init_test : text * test -> D) (m : K -> text * test -> bool).
  Notation tree := (wgraph unit (snode (text * test) D)).

  (** The runner after a call: an exception of the check, or what becomes of the tree. *)
  Inductive added := Refused (message : text) (f : gfilter K) (g : tree) | Extracted (r : gfilter K * res (outcome unit (snode (text * test) D))).

  Definition checked (c : call) : option text :=
    match c with
    | AddTests n tests => check_for_duplicates n tests                            (* L273 *)
    | AddSuites _ _ => None
    end.

  Definition add_test_suite (c : call) (f : gfilter K) (g : tree) : added :=
    match checked c with
    | Some msg => Refused msg f g
    | None => Extracted (add_suite root init_suite init_test m (suite_of c) f g)
    end.

  (** TestAll/TestMain.cpp: one call after the other; an exception leaves the others and execute out. *)
  Fixpoint add_test_suites (l : list call) (f : gfilter K) (g : tree) : added :=
    match l with
    | [] => Extracted (f, Ok (Done g))
    | c :: l =>
        match add_test_suite c f g with
        | Extracted (f, Ok (Done g)) => add_test_suites l f g
        | r => r
        end
    end.
End add.
Arguments Refused {D K} _ _ _.
Arguments Extracted {D K} _.
