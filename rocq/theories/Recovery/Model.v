(** Model of the recovery and dump files: what the sentinels of [Source/sequoia/TestFramework/TestLogger.cpp]
    write to disk while tests run, so that a check in which the program crashes can be identified.

    Writing succeeds (a stream which cannot be opened is skipped in the code).  Every function opens its
    file, writes and closes it, so that what has been written is on disk if the program crashes later. *)
From Coq Require Import Ascii.
From stdpp Require Import list.
From Verif.Base Require Import Outcome.
From Verif.Text Require Import Model.
From Verif.Log Require Import Model.
Local Open Scope res_scope.

(** TestLogger.hpp L60-64, [active_recovery_files]: a path is empty unless the option was given, see
    TestRunner.cpp L1071-1082 and L589-610 *)
Record active := mk_active { recover : bool; dumping : bool }.

(** The two files on disk; [None]: there is no such file *)
Record files := mk_files { recovery_file : option text; dump_file : option text }.

(** TestRunner.cpp L589-610: an option which is given removes the file of the previous run *)
Definition at_start (a : active) (old : files) : files :=
  mk_files (if recover a then None else recovery_file old) (if dumping a then None else dump_file old).

(** [std::ofstream of{file, std::ios_base::app}]: the file is created if necessary *)
Definition append_to (f : option text) (t : text) : option text := Some (default [] f ++ t).

Definition txt_started : text :=
  ["C";"h";"e";"c";"k";" ";"s";"t";"a";"r";"t";"e";"d";":"]%char ++ [nl].
Definition txt_ended : text :=
  ["C";"h";"e";"c";"k";" ";"e";"n";"d";"e";"d"]%char ++ [nl].
Definition txt_critical : text :=
  [nl] ++ ["C";"r";"i";"t";"i";"c";"a";"l";" ";"F";"a";"i";"l";"u";"r";"e";":"]%char ++ [nl].

(** TestLogger.cpp L33-40: the file is truncated *)
Definition record_check_started (a : active) (message : text) (f : files) : files :=
  if recover a then mk_files (Some (txt_started ++ message ++ [nl])) (dump_file f) else f.

(** TestLogger.cpp L42-49 *)
Definition record_check_ended (a : active) (f : files) : files :=
  if recover a then mk_files (append_to (recovery_file f) txt_ended) (dump_file f) else f.

(** TestLogger.cpp L51-58 *)
Definition record_dump_started (a : active) (message : text) (f : files) : files :=
  if dumping a then mk_files (recovery_file f) (append_to (dump_file f) (message ++ [nl])) else f.

(** TestLogger.cpp L60-67 *)
Definition record_dump_ended (a : active) (f : files) : files :=
  if dumping a then mk_files (recovery_file f) (append_to (dump_file f) [nl; nl]) else f.

(** TestLogger.cpp L69-76 *)
Definition record_critical_failure (a : active) (message : text) (f : files) : files :=
  if recover a then mk_files (append_to (recovery_file f) (txt_critical ++ message ++ [nl])) (dump_file f) else f.

(** TestLogger.cpp L81-97, the constructor of a sentinel; the part without files is [open_sentinel] *)
Definition enter (a : active) (message : text) (s : logger * files) : sentinel * (logger * files) :=
  let (st, f) := s in
  let f1 := match stack st with [] => record_check_started a message f | _ => f end in
  let (sn, st1) := open_sentinel message st in
  (sn, (st1, record_dump_started a message f1)).

(** TestLogger.cpp L99-145, the destructor of a sentinel; the part without files is [close_sentinel] *)
Definition leave (a : active) (md : mode) (sn : sentinel) (s : logger * files) : res (logger * files) :=
  let (st, f) := s in
  let critical_detected := negb (critical_failures (res_of st) =? prior_critical sn) in
  let f1 := if decide (length (stack st) = 1)
            then record_dump_ended a (if critical_detected then f else record_check_ended a f)
            else f in
  let? st1 := close_sentinel md sn st in
  Ok (st1, f1).

(** As [run_event], with the files; critical failures: TestLogger.cpp L185-190 *)
Fixpoint record_event (a : active) (md : mode) (e : event) (s : logger * files) : res (logger * files) :=
  match e with
  | Scope m es =>
      let (sn, s1) := enter a m s in
      let? s2 := (fix go es s := match es with
                                 | [] => Ok s
                                 | e :: es' => let? s' := record_event a md e s in go es' s'
                                 end) es s1 in
      leave a md sn s2
  | Critical m =>
      let? st := log_critical_failure md m (fst s) in
      Ok (st, record_critical_failure a m (snd s))
  | _ => let? st := run_event md e (fst s) in Ok (st, snd s)
  end.

Fixpoint record_events (a : active) (md : mode) (es : list event) (s : logger * files) : res (logger * files) :=
  match es with
  | [] => Ok s
  | e :: es' => let? s' := record_event a md e s in record_events a md es' s'
  end.

(** A check (outermost or not) in which the program is: the events which are over, and then either code
    under test, or another sentinel which is open. *)
Inductive progress :=
  | Here (done : list event)
  | Within (done : list event) (message : text) (p : progress).

Fixpoint record_progress (a : active) (md : mode) (p : progress) (s : logger * files) : res (logger * files) :=
  match p with
  | Here es => record_events a md es s
  | Within es m p' =>
      let? s1 := record_events a md es s in
      record_progress a md p' (snd (enter a m s1))
  end.

(** A test which is over: its mode and its outermost checks.  Every test has a logger of its own, the files
    are shared: TestRunner.hpp, [make_active_recovery_paths] for every test; with an active file the tests
    run one after the other, TestRunner.cpp L595-596, L606-607 and L672-673. *)
Definition test : Type := mode * list (text * list event).
Definition top (c : text * list event) : event := Scope (fst c) (snd c).

Definition record_test (a : active) (t : test) (f : files) : res files :=
  let? s := record_events a (fst t) (map top (snd t)) (fresh, f) in Ok (snd s).

Fixpoint record_tests (a : active) (ts : list test) (f : files) : res files :=
  match ts with
  | [] => Ok f
  | t :: ts' => let? f' := record_test a t f in record_tests a ts' f'
  end.

(** The files once the tests [ts] are over and, if [last] says so, a further test with its mode, the outermost
    checks which are over, and possibly the message and the progress of the outermost check which is open. *)
Definition files_at (a : active) (old : files) (ts : list test)
    (last : option (test * option (text * progress))) : res files :=
  let? f := record_tests a ts (at_start a old) in
  match last with
  | None => Ok f
  | Some (t, None) => record_test a t f
  | Some ((md, cs), Some (m, p)) =>
      let? s := record_events a md (map top cs) (fresh, f) in
      let? s' := record_progress a md p (snd (enter a m s)) in
      Ok (snd s')
  end.
