(** Model of what is logged about an exception which leaves a test: [test_vessel::essence::execute] of
    Source/sequoia/TestFramework/TestRunner.hpp, [basic_test::log_critical_failure] of FreeTestCore.hpp,
    [exception_message] of Output.cpp, and the part of [decrement_depth] of TestLogger.cpp which records
    how many exceptions are in flight. *)
From Coq Require Import Ascii String.
From stdpp Require Import list.
From Verif.Base Require Import Outcome.
From Verif.Text Require Import Model.
From Verif.Log Require Import Model.
Local Notation length := List.length.
Local Open Scope list_scope.
Local Open Scope res_scope.
Local Notation "⌜ s ⌝" := (list_ascii_of_string s%string).

(** CoreInfrastructure.hpp L98-102, [uncaught_exception_info] *)
Record info := mk_info { num : nat; top_message : text }.
Definition no_info : info := mk_info 0 [].

(** TestLogger.cpp L99-142, the destructor of a sentinel without the final [decrement_depth]; the first half
    of [close_sentinel] of Log/Model.v *)
Definition settle (md : mode) (s : sentinel) (st : logger) : res logger :=
  let critical_detected st := negb (critical_failures (res_of st) =? prior_critical s) in
  let failure_detected st := negb (failures (res_of st) =? prior_failures s) in
  if decide (length (stack st) = 1) then
    if critical_detected st then end_message md true st
    else
      let? st := if failure_detected st then end_message md false st else Ok st in
      let make_message :=
        let? mess := append_lines_ txt_false_negative [top_level_message st] in
        Ok (end_block mess 2 footer) in
      let mode_specific := match md with
                           | FalseNegative => negb (failure_detected st)
                           | _ => failure_detected st
                           end in
      if mode_specific then
        let? m := match md with FalseNegative => make_message | _ => Ok [] end in
        Ok (log_top_level_failure md m st)
      else match md with
           | FalsePositive =>
               if critical_detected st then Ok st
               else let? m := make_message in
                    Ok (with_results st (push_channel false (top_level_checks (res_of st), m) (res_of st)))
           | _ => Ok st
           end
  else Ok st.

(** TestLogger.cpp L228-239, [decrement_depth].  [flight]: [std::uncaught_exceptions()] *)
Definition decrement_recording (flight : nat) (st : logger) (i : info) : res (logger * info) :=
  let? st1 := decrement_depth st in
  Ok (st1, if decide (length (stack st) = 1) then mk_info flight (top_level_message st) else i).

(** An outermost check: its message, what happens in it, whether it is left by an exception, and how many
    other exceptions are in flight, as in a destructor which makes checks. *)
Record step := mk_step { message : text; events : list event; unwound : bool; others : nat }.
Definition flight (s : step) : nat := others s + if unwound s then 1 else 0.

Definition run_step (md : mode) (s : step) (x : logger * info) : res (logger * info) :=
  let (sn, st1) := open_sentinel (message s) (fst x) in
  let? st2 := run_events md (events s) st1 in
  let? st3 := settle md sn st2 in
  decrement_recording (flight s) st3 (snd x).

Fixpoint run_steps (md : mode) (ss : list step) (x : logger * info) : res (logger * info) :=
  match ss with
  | [] => Ok x
  | s :: ss' => let? x' := run_step md s x in run_steps md ss' x'
  end.

(** Output.cpp L293-312 *)
Definition exception_message (tag file : text) (i : info) (what : text) : res text :=
  let? mess := append_lines_ (⌜"Error -- "⌝ ++ tag ++ ⌜" Exception:"⌝) [what] in
  let mess := mess ++ [nl] in
  match top_message i with
  | [] => append_lines_ mess [⌜"Exception thrown before any checks performed in file"⌝; file]
  | current =>
      let suffix := if decide (num i = 0) then ⌜"after check completed"⌝ else ⌜"during last check"⌝ in
      append_lines_ mess [⌜"Exception thrown "⌝ ++ suffix; ⌜"Last Recorded Message:"⌝ ++ [nl]; current]
  end.

(** How [run_tests] ends: normally, with a [std::exception], or with something else which is thrown *)
Inductive finish := Finishes | Leaves (what : text) | Leaves_otherwise.

(** FreeTestCore.hpp L176-180: a check without message *)
Definition log_exception (md : mode) (file tag what : text) (x : logger * info) : res logger :=
  let? m := exception_message tag file (snd x) what in
  run_event md (Scope [] [Critical m]) (fst x).

(** TestRunner.hpp L178-193 *)
Definition execute (md : mode) (file : text) (ss : list step) (f : finish) : res logger :=
  let? x := run_steps md ss (fresh, no_info) in
  match f with
  | Finishes => Ok (fst x)
  | Leaves what => log_exception md file ⌜"Unexpected"⌝ what x
  | Leaves_otherwise => log_exception md file ⌜"Unknown"⌝ [] x
  end.
