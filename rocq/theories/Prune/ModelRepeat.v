(** Model of what becomes of the prune files when tests are run repeatedly to locate instabilities:
    Source/sequoia/TestFramework/TestRunner.cpp L261-271, L648-657, L736-804; DependencyAnalyzer.cpp L456-464, L573-653. *)
From Coq Require Import Ascii NArith.
From stdpp Require Import list.
From Verif.Base Require Import Outcome.
From Verif.Text Require Import Model.
From Verif.Prune Require Import Model.
Local Open Scope res_scope.

(** One repetition, TestRunner.cpp L261-271: of all tests, or of those selected (TestRunner.cpp L858); or the process ends before
    the files are written. *)
Inductive attempt :=
| FinishedAll (failed : list (list text)) (time : nat)
| FinishedSome (executed failed : list (list text))
| Crashed.

(** The folder for the repetitions is empty in the beginning: DependencyAnalyzer.cpp L615-620 *)
Definition no_files : files := mk_files None None None.

(** The files of one repetition, DependencyAnalyzer.cpp L573-613 with [id]; see [stamped] for the time stamp. *)
Definition attempt_files (repo : list text) (a : attempt) : res files :=
  match a with
  | FinishedAll failed time => update_all repo no_files failed time
  | FinishedSome executed failed => update_filtered repo no_files executed failed
  | Crashed => Ok no_files
  end.

(** DependencyAnalyzer.cpp L582: there is one time stamp only, ProjectPaths.cpp [prune_paths::stamp] *)
Definition stamped (a : attempt) (f : files) : files :=
  match a with
  | FinishedAll _ time => mk_files (failures f) (passes f) (Some time)
  | _ => f
  end.

(** The files of the repetitions so far are in [reps]. *)
Definition perform (repo : list text) (f : files) (reps : list files) (a : attempt) : res (files * list files) :=
  let? g := attempt_files repo a in Ok (stamped a f, reps ++ [g]).

(** TestRunner.cpp L770-775, L797-803: each repetition is a process of its own; what comes of them is not looked at *)
Fixpoint coordinate (repo : list text) (active : bool) (f : files) (reps : list files) (l : list attempt) (time : nat) : res files :=
  match l with
  | [] => aggregate repo active f reps time
  | a :: l => let? d := perform repo f reps a in coordinate repo active d.1 d.2 l time
  end.

(** TestRunner.cpp L787-794, L797-803: all repetitions are in one process, which may end early *)
Fixpoint repeat_here (repo : list text) (active : bool) (f : files) (reps : list files) (l : list attempt) (time : nat) : res files :=
  match l with
  | [] => aggregate repo active f reps time
  | Crashed :: _ => Ok f
  | a :: l => let? d := perform repo f reps a in repeat_here repo active d.1 d.2 l time
  end.
