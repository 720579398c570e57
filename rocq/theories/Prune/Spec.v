(** Vocabulary for the properties of the prune files. *)
From Coq Require Import Ascii NArith.
From stdpp Require Import list.
From Verif.Base Require Import Outcome.
From Verif.Text Require Import Model.
From Verif.Failure Require Import Model.
From Verif.Prune Require Import Model.
Local Open Scope res_scope.

(** Paths of tests which survive being written to a file and read from it: relative ones, without white space,
    not beginning with a quotation mark, which do not begin with an element of the path of the repository. *)
Definition plain_element (w : text) : Prop :=
  w <> [] /\ Forall (fun c => c <> "/"%char /\ is_space c = false) w.
Definition good_path (repo : list text) (p : list text) : Prop :=
  match p with
  | [] => False
  | w :: _ => Forall plain_element p /\ head w <> Some """"%char /\ w <> ["."; "."]%char /\ w ∉ repo
  end.

(** The updates to the files: after a run of all tests, or of some. *)
Inductive run := All (failed : list (list text)) (time : nat) | Some_ (executed failed : list (list text)).

Definition update (repo : list text) (r : run) (f : files) : res files :=
  match r with
  | All failed time => update_all repo f failed time
  | Some_ executed failed => update_filtered repo f executed failed
  end.

(** A history, the latest run first. *)
Fixpoint history (repo : list text) (h : list run) : res files :=
  match h with
  | [] => Ok (mk_files None None None)
  | r :: h' => let? f := history repo h' in update repo r f
  end.

(** Every test is executed once, and only executed tests fail. *)
Definition proper (repo : list text) (r : run) : Prop :=
  match r with
  | All failed _ => NoDup failed /\ Forall (good_path repo) failed
  | Some_ executed failed => NoDup executed /\ NoDup failed /\ (forall p, p ∈ failed -> p ∈ executed) /\ Forall (good_path repo) executed
  end.

(** What should be recorded. *)
Fixpoint failing (h : list run) (p : list text) : Prop :=
  match h with
  | [] => False
  | All failed _ :: _ => p ∈ failed
  | Some_ executed failed :: h' => p ∈ failed \/ (failing h' p /\ p ∉ executed)
  end.
Fixpoint passing (h : list run) (p : list text) : Prop :=
  match h with
  | [] => False
  | All _ _ :: _ => False
  | Some_ executed failed :: h' => (p ∈ executed /\ p ∉ failed) \/ (passing h' p /\ p ∉ failed)
  end.

(** The file holds these tests, each once. *)
Definition records (file : option text) (P : list text -> Prop) : Prop :=
  exists l, read_tests file [] = Ok l /\ NoDup l /\ forall p, p ∈ l <-> P p.

(** The files of one repetition of a filtered run, which starts without any. *)
Definition repetition (repo : list text) (r : list (list text) * list (list text)) : res files :=
  update_filtered repo (mk_files None None None) (fst r) (snd r).
