(** Model of [Source/sequoia/TestFramework/TestLogger.{hpp,cpp}]: the logger, its sentinels and the
    summaries.

    The recovery files written on the way are left to [Recovery.Model]; [uncaught_exceptions()] is not modelled (an
    exception which leaves a check ends its sentinels in the same order as normal returns do, so the
    trees below cover it).  The counters of the logger are mathematical natural numbers; the differences
    taken by [log_summary] are those of 64-bit unsigned integers. *)
From Coq Require Import Ascii ZArith.
From stdpp Require Import list.
From Verif.Base Require Import Outcome.
From Verif.Text Require Import Model.
Local Open Scope res_scope.

(** TestMode.hpp, [enum class test_mode] *)
Inductive mode := Standard | FalsePositive | FalseNegative.

(** FailureInfo.hpp, [failure_info]: number of the check, message *)
Definition entry : Type := nat * text.

(** TestLogger.hpp L41-58, [test_results] without the exception info *)
Record results := mk_results {
  failures : nat; top_level_failures : nat; performance_failures : nat; critical_failures : nat;
  top_level_checks : nat; deep_checks : nat; performance_checks : nat;
  failure_messages : list entry; diagnostics_output : list entry; caught_exception_messages : list entry
}.

Definition no_results : results := mk_results 0 0 0 0 0 0 0 [] [] [].

(** The logger: results, and the messages of the open sentinels, outermost first, with the flag [written]
    (TestLogger.hpp L112-126) *)
Record logger := mk_logger { res_of : results; stack : list (text * bool) }.
Definition fresh : logger := mk_logger no_results [].

Definition with_results (st : logger) (r : results) : logger := mk_logger r (stack st).

(** The indenting functions with enough fuel *)
Definition indent_ (sv ind : text) : res text := indent (S (length sv)) sv ind.
Definition append_indented_ (s sv ind : text) : res text := append_indented (S (length sv)) s sv ind.
Definition append_lines_ (s : text) (ss : list text) : res text :=
  append_lines (S (list_max (map length ss))) s ss.

(** Output.cpp L243-247 *)
Definition footer : text := repeat "="%char 39 ++ [nl].

(** TestLogger.cpp L248-252.  [crit]: [is_critical::yes] *)
Definition to_messages (m : mode) (crit : bool) : bool :=
  match m with FalseNegative => crit | _ => true end.

(** TestLogger.cpp L254-258 on the channel chosen by L248-252 *)
Definition push_channel (tomsg : bool) (e : entry) (r : results) : results :=
  if tomsg then
    mk_results (failures r) (top_level_failures r) (performance_failures r) (critical_failures r)
      (top_level_checks r) (deep_checks r) (performance_checks r)
      (failure_messages r ++ [e]) (diagnostics_output r) (caught_exception_messages r)
  else
    mk_results (failures r) (top_level_failures r) (performance_failures r) (critical_failures r)
      (top_level_checks r) (deep_checks r) (performance_checks r)
      (failure_messages r) (diagnostics_output r ++ [e]) (caught_exception_messages r).

(** TestLogger.cpp L151-163, the lambda [build] *)
Definition build (msg t ind : text) : res text :=
  match msg with
  | [] => indent_ t ind
  | _ => append_indented_ msg t ind
  end.

(** TestLogger.cpp L165-177: the messages of the open sentinels which have not been written yet *)
Fixpoint write_levels (levels : list (text * bool)) (ind : text) (active : nat) (msg : text)
  : res (text * text * list (text * bool)) :=
  match levels with
  | [] => Ok (msg, ind, [])
  | (m, w) :: levels' =>
      match m with
      | [] => let? (msg', ind', ls) := write_levels levels' ind active msg in Ok (msg', ind', (m, w) :: ls)
      | _ =>
          let ind1 := match active with 0 => ind | _ => ind ++ [" "; " "]%char end in
          if w : bool then
            let? (msg', ind', ls) := write_levels levels' ind1 (S active) msg in Ok (msg', ind', (m, w) :: ls)
          else
            let? msg1 := build msg m ind1 in
            let? (msg', ind', ls) := write_levels levels' ind1 (S active) msg1 in Ok (msg', ind', (m, true) :: ls)
      end
  end.

(** TestLogger.cpp L149-183 *)
Definition failure_message (md : mode) (message : text) (crit : bool) (st : logger) : res logger :=
  let? (msg, ind, ls) := write_levels (stack st) [] 0 [] in
  let? msg' := build msg message ind in
  let e := (top_level_checks (res_of st), end_block msg' 1 []) in
  Ok (mk_logger (push_channel (to_messages md crit) e (res_of st)) ls).

(** TestLogger.hpp L131-139 *)
Definition log_check (st : logger) : logger :=
  let r := res_of st in
  with_results st (mk_results (failures r) (top_level_failures r) (performance_failures r) (critical_failures r)
    (top_level_checks r) (S (deep_checks r)) (performance_checks r)
    (failure_messages r) (diagnostics_output r) (caught_exception_messages r)).
Definition log_top_level_check (st : logger) : logger :=
  let r := res_of st in
  with_results st (mk_results (failures r) (top_level_failures r) (performance_failures r) (critical_failures r)
    (S (top_level_checks r)) (deep_checks r) (performance_checks r)
    (failure_messages r) (diagnostics_output r) (caught_exception_messages r)).
Definition log_performance_check (st : logger) : logger :=
  let st := log_check st in
  let r := res_of st in
  with_results st (mk_results (failures r) (top_level_failures r) (performance_failures r) (critical_failures r)
    (top_level_checks r) (deep_checks r) (S (performance_checks r))
    (failure_messages r) (diagnostics_output r) (caught_exception_messages r)).

(** TestLogger.hpp L143-147 *)
Definition log_failure (md : mode) (message : text) (st : logger) : res logger :=
  let r := res_of st in
  failure_message md message false
    (with_results st (mk_results (S (failures r)) (top_level_failures r) (performance_failures r) (critical_failures r)
      (top_level_checks r) (deep_checks r) (performance_checks r)
      (failure_messages r) (diagnostics_output r) (caught_exception_messages r))).

(** TestLogger.hpp L149-153 *)
Definition log_performance_failure (md : mode) (message : text) (st : logger) : res logger :=
  let r := res_of st in
  log_failure md message
    (with_results st (mk_results (failures r) (top_level_failures r) (S (performance_failures r)) (critical_failures r)
      (top_level_checks r) (deep_checks r) (performance_checks r)
      (failure_messages r) (diagnostics_output r) (caught_exception_messages r))).

(** TestLogger.cpp L185-190 *)
Definition log_critical_failure (md : mode) (message : text) (st : logger) : res logger :=
  let r := res_of st in
  failure_message md message true
    (with_results st (mk_results (failures r) (top_level_failures r) (performance_failures r) (S (critical_failures r))
      (top_level_checks r) (deep_checks r) (performance_checks r)
      (failure_messages r) (diagnostics_output r) (caught_exception_messages r))).

(** TestLogger.cpp L192-208.  [append(std::move(message))] copies: [message] is unchanged at L206. *)
Definition log_top_level_failure (md : mode) (message : text) (st : logger) : logger :=
  let r := res_of st in
  let r1 := mk_results (failures r) (S (top_level_failures r)) (performance_failures r) (critical_failures r)
      (top_level_checks r) (deep_checks r) (performance_checks r)
      (failure_messages r) (diagnostics_output r) (caught_exception_messages r) in
  let stk := match last (stack st) with
             | None => [(message, false)]
             | Some (m, w) => take (length (stack st) - 1) (stack st) ++ [(m ++ message, w)]
             end in
  let r2 := match md with
            | FalseNegative => push_channel true (top_level_checks r1, message) r1
            | _ => r1
            end in
  mk_logger r2 stk.

(** TestLogger.hpp L92-95 *)
Definition top_level_message (st : logger) : text :=
  match stack st with [] => [] | (m, _) :: _ => m end.

(** TestLogger.cpp L210-216 *)
Definition log_caught_exception_message (message : text) (st : logger) : logger :=
  let r := res_of st in
  let mess := end_block (top_level_message st ++ [nl] ++ message) 2 footer in
  with_results st (mk_results (failures r) (top_level_failures r) (performance_failures r) (critical_failures r)
    (top_level_checks r) (deep_checks r) (performance_checks r)
    (failure_messages r) (diagnostics_output r) (caught_exception_messages r ++ [(top_level_checks r, mess)])).

(** TestLogger.cpp L241-246; [back()] of an empty vector is undefined *)
Definition end_last (l : list entry) : res (list entry) :=
  match last l with
  | None => UB
  | Some (i, m) => Ok (take (length l - 1) l ++ [(i, end_block m 2 footer)])
  end.

Definition end_message (md : mode) (crit : bool) (st : logger) : res logger :=
  let r := res_of st in
  if to_messages md crit then
    let? l := end_last (failure_messages r) in
    Ok (with_results st (mk_results (failures r) (top_level_failures r) (performance_failures r) (critical_failures r)
      (top_level_checks r) (deep_checks r) (performance_checks r)
      l (diagnostics_output r) (caught_exception_messages r)))
  else
    let? l := end_last (diagnostics_output r) in
    Ok (with_results st (mk_results (failures r) (top_level_failures r) (performance_failures r) (critical_failures r)
      (top_level_checks r) (deep_checks r) (performance_checks r)
      (failure_messages r) l (caught_exception_messages r))).

(** TestLogger.cpp L223-226 *)
Definition increment_depth (message : text) (st : logger) : logger :=
  mk_logger (res_of st) (stack st ++ [(message, false)]).

(** TestLogger.cpp L228-239 *)
Definition decrement_depth (st : logger) : res logger :=
  match stack st with
  | [] => Throw LogicError
  | _ => Ok (mk_logger (res_of st) (take (length (stack st) - 1) (stack st)))
  end.

(** TestLogger.cpp L81-97: the counters remembered by a sentinel, and its constructor *)
Record sentinel := mk_sentinel { prior_failures : nat; prior_critical : nat; prior_deep : nat }.

Definition open_sentinel (message : text) (st : logger) : sentinel * logger :=
  let r := res_of st in
  let s := mk_sentinel (failures r) (critical_failures r) (deep_checks r) in
  let st1 := match stack st with [] => log_top_level_check st | _ => st end in
  (s, increment_depth message st1).

Definition txt_false_negative : text :=
  ["F";"a";"l";"s";"e";" ";"N";"e";"g";"a";"t";"i";"v";"e";" ";"F";"a";"i";"l";"u";"r";"e";":"]%char.

(** TestLogger.cpp L99-145 *)
Definition close_sentinel (md : mode) (s : sentinel) (st : logger) : res logger :=
  let critical_detected st := negb (critical_failures (res_of st) =? prior_critical s) in
  let failure_detected st := negb (failures (res_of st) =? prior_failures s) in
  let? st1 :=
    if decide (length (stack st) = 1) then
      if critical_detected st then end_message md true st
      else
        let? st := if failure_detected st then end_message md false st else Ok st in
        let make_message := (* L113-121 *)
          let? mess := append_lines_ txt_false_negative [top_level_message st] in
          Ok (end_block mess 2 footer) in
        let mode_specific := match md with
                             | FalseNegative => negb (failure_detected st)
                             | _ => failure_detected st
                             end in
        if mode_specific then
          let? m := match md with FalseNegative => make_message | _ => Ok [] end in
          Ok (log_top_level_failure md m st)
        else match md with
             | FalsePositive =>
                 if critical_detected st then Ok st
                 else let? m := make_message in
                      Ok (with_results st (push_channel false (top_level_checks (res_of st), m) (res_of st)))
             | _ => Ok st
             end
    else Ok st in
  decrement_depth st1.

(** What happens during a test: a tree.  The operations of a sentinel (TestLogger.hpp L208-218), and
    sentinels opened and closed in properly nested fashion. *)
Inductive event :=
  | Check
  | PerfCheck
  | Fail (message : text)
  | PerfFail (message : text)
  | Critical (message : text)
  | Caught (message : text)
  | Scope (message : text) (events : list event).

Fixpoint run_event (md : mode) (e : event) (st : logger) : res logger :=
  match e with
  | Check => Ok (log_check st)
  | PerfCheck => Ok (log_performance_check st)
  | Fail m => log_failure md m st
  | PerfFail m => log_performance_failure md m st
  | Critical m => log_critical_failure md m st
  | Caught m => Ok (log_caught_exception_message m st)
  | Scope m es =>
      let (s, st1) := open_sentinel m st in
      let? st2 := (fix go es st := match es with
                                   | [] => Ok st
                                   | e :: es' => let? st' := run_event md e st in go es' st'
                                   end) es st1 in
      close_sentinel md s st2
  end.

Fixpoint run_events (md : mode) (es : list event) (st : logger) : res logger :=
  match es with
  | [] => Ok st
  | e :: es' => let? st' := run_event md e st in run_events md es' st'
  end.

(** A test: outermost checks, one after the other, on a fresh logger *)
Definition run_test (md : mode) (checks : list (text * list event)) : res logger :=
  run_events md (map (fun c => Scope (fst c) (snd c)) checks) fresh.

(** ** Summaries *)

(** 64-bit unsigned subtraction and addition *)
Definition sub64 (a b : Z) : Z := ((a - b) mod 2 ^ 64)%Z.
Definition add64 (a b : Z) : Z := ((a + b) mod 2 ^ 64)%Z.

(** TestLogger.hpp L387-420.  [m_ExceptionsInFlight] is a 32-bit [int], [m_Duration] a 64-bit count of
    nanoseconds; both are mathematical integers here (their overflow is undefined behaviour and needs
    billions of summaries, or centuries). *)
Record summary := mk_summary {
  name : text; s_failure_messages : text; s_diagnostics : text; s_caught : text;
  std_top_checks : Z; std_deep_checks : Z; std_perf_checks : Z;
  fp_checks : Z; fn_checks : Z; fp_perf_checks : Z; fn_perf_checks : Z;
  std_top_failures : Z; std_deep_failures : Z; std_perf_failures : Z;
  fp_failures : Z; fn_failures : Z; fp_perf_failures : Z; fn_perf_failures : Z;
  s_critical : Z; in_flight : Z; duration : Z
}.

(** TestLogger.cpp L20-31 *)
Definition to_reduced_string (l : list entry) : text :=
  concat (map (fun e => match snd e with [] => [] | _ => snd e ++ [nl] end) l).

(** TestLogger.cpp L266 *)
Definition empty_summary (nm : text) : summary :=
  mk_summary nm [] [] [] 0 0 0 0 0 0 0 0 0 0 0 0 0 0 0 0 0.

(** TestLogger.cpp L268-299 *)
Definition summarize (nm : text) (r : results) (md : mode) (delta : Z) : summary :=
  let z := Z.of_nat in
  let fm := to_reduced_string (failure_messages r) in
  let dg := to_reduced_string (diagnostics_output r) in
  let ca := to_reduced_string (caught_exception_messages r) in
  let crit := z (critical_failures r) in
  let tf := z (top_level_failures r) in let pf := z (performance_failures r) in
  let tc := z (top_level_checks r) in let pc := z (performance_checks r) in
  match md with
  | Standard =>
      mk_summary nm fm dg ca
        (sub64 tc pc) (sub64 (z (deep_checks r)) pc) pc 0 0 0 0
        (sub64 tf pf) (sub64 (z (failures r)) pf) pf 0 0 0 0
        crit 0 delta
  | FalsePositive =>
      mk_summary nm fm dg ca
        0 0 0 (sub64 tc pc) 0 pc 0
        0 0 0 (sub64 tf pf) 0 pf 0
        crit 0 delta
  | FalseNegative =>
      let fnpf := sub64 pc pf in
      mk_summary nm fm dg ca
        0 0 0 0 (sub64 tc pc) 0 pc
        0 0 0 0 (sub64 tf fnpf) 0 fnpf
        crit 0 delta
  end.

(** TestLogger.cpp L307-315 *)
Definition soft_failures (s : summary) : Z :=
  add64 (add64 (add64 (add64 (add64 (std_top_failures s) (fn_failures s)) (fp_failures s))
    (std_perf_failures s)) (fn_perf_failures s)) (fp_perf_failures s).

(** TestLogger.cpp L317-348; [m_Name] and [m_CaughtExceptionMessages] of [rhs] are not used *)
Definition plus (a b : summary) : summary :=
  mk_summary (name a) (s_failure_messages a ++ s_failure_messages b) (s_diagnostics a ++ s_diagnostics b) (s_caught a)
    (add64 (std_top_checks a) (std_top_checks b)) (add64 (std_deep_checks a) (std_deep_checks b))
    (add64 (std_perf_checks a) (std_perf_checks b))
    (add64 (fp_checks a) (fp_checks b)) (add64 (fn_checks a) (fn_checks b))
    (add64 (fp_perf_checks a) (fp_perf_checks b)) (add64 (fn_perf_checks a) (fn_perf_checks b))
    (add64 (std_top_failures a) (std_top_failures b)) (add64 (std_deep_failures a) (std_deep_failures b))
    (add64 (std_perf_failures a) (std_perf_failures b))
    (add64 (fp_failures a) (fp_failures b)) (add64 (fn_failures a) (fn_failures b))
    (add64 (fp_perf_failures a) (fp_perf_failures b)) (add64 (fn_perf_failures a) (fn_perf_failures b))
    (add64 (s_critical a) (s_critical b)) (in_flight a + in_flight b) (duration a + duration b).
