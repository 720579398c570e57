(** What is claimed of the addition of suites to the test runner (C113). *)
From Coq Require Import Ascii String.
From stdpp Require Import list.
From Verif.Text Require Import Model.
From Verif.Runner Require Import ModelAdd.
Local Notation "⌜ s ⌝" := (list_ascii_of_string s%string).

Local Notation slash := ("/"%char).
Definition slashes (n : nat) : text := replicate n slash.
Definition plain (x : text) : Prop := x <> [] /\ slash ∉ x.

(** The names in the text of a path: any number of slashes may stand between them; an empty one stands for slashes at the end. *)
Inductive spells : list text -> text -> Prop :=
| spells_none : spells [] []
| spells_last x : plain x -> spells [x] x
| spells_folder x n : plain x -> spells [x; []] (x ++ slashes (S n))
| spells_more x n p s : plain x -> spells p s -> p <> [] -> spells (x :: p) (x ++ slashes (S n) ++ s).

Definition denotes (absolute : bool) (p : list text) (t : text) : Prop :=
  exists n s, t = slashes n ++ s /\ spells p s /\ (absolute = true <-> 0 < n).

Definition same (t u : test) : Prop :=
  t_name t = t_name u /\ exists a p, denotes a p (t_source t) /\ denotes a p (t_source u).

(** No two of the tests are the same. *)
Definition distinct (l : list test) : Prop :=
  forall i j t u, i < j -> l !! i = Some t -> l !! j = Some u -> ~ same t u.

(** [t] is the first of the tests which is the same as one in front of it. *)
Definition first_duplicate (l : list test) (t : test) : Prop :=
  exists l1 u l2, l = l1 ++ t :: l2 /\ distinct l1 /\ u ∈ l1 /\ same u t.

(** Calls which name the tests, without two which are the same *)
Definition fine (c : call) : Prop := match c with AddTests _ tests => distinct tests | AddSuites _ _ => True end.
Definition only_tests (c : call) : Prop := match c with AddTests _ _ => True | _ => False end.
Definition call_name (c : call) : text := match c with AddTests n _ | AddSuites n _ => n end.

(** What is said about a test which is refused *)
Definition complaint (suite_name name source : text) : text :=
  ⌜"  Error: Suite/Test: """⌝ ++ suite_name ++ ⌜"/"⌝ ++ name ++ ⌜"""
Source file: """⌝ ++ source ++ ⌜"""
Please do not include tests in the same suite which both have the same name and are defined in the same source file.
"⌝.
