(** C44: every top-level check is counted once; C45: summaries add up. *)
From Coq Require Import ZArith Ascii String.
From stdpp Require Import list.
From Verif.Base Require Import Outcome.
From Verif.Text Require Import Model.
From Verif.Log Require Import Model Spec Proofs.

Local Notation "'txt' s" := (list_ascii_of_string s%string) (at level 0).

(** ** C44 *)

(** Whatever is logged, however it is nested: the logger comes back to depth zero, there is one top-level check
    per outermost check and one top-level failure per outermost check which fails; everything else is counted
    once per occurrence; and every entry of the three channels of messages is labelled with the number of the
    outermost check it belongs to. *)
Theorem C44_counts md cs : exists st, run_test md cs = Ok st /\ stack st = [] /\
  let r := res_of st in let ls := in_test cs in
  top_level_checks r = List.length cs /\
  top_level_failures r = List.length (List.filter (fails md) cs) /\
  critical_failures r = count is_critical ls /\
  failures r = count is_failure ls /\ performance_failures r = count is_perf_failure ls /\
  deep_checks r = count is_check ls /\ performance_checks r = count is_perf_check ls /\
  map fst (failure_messages r) = labels (message_entries md) cs /\
  map fst (diagnostics_output r) = labels (diagnostics_entries md) cs /\
  map fst (caught_exception_messages r) = labels (fun c => count is_caught (in_check c)) cs.
Proof. exact (run_test_spec md cs). Qed.
Print Assumptions C44_counts.

(** The totals of the summary of a test: no difference underflows if performance checks stand alone. *)
Theorem C44_summary_partial md cs st nm delta : run_test md cs = Ok st -> Forall perf_alone cs ->
  (Z.of_nat (List.length cs) < 2 ^ 64)%Z -> (Z.of_nat (List.length (in_test cs)) < 2 ^ 64)%Z ->
  let s := summarize nm (res_of st) md delta in
  let z := Z.of_nat in
  let perf_check_in := fun c => any is_perf_check (in_check c) in
  let others := fun c => negb (perf_check_in c) in
  let checks := z (List.length (List.filter others cs)) in
  let perf_checks := z (List.length (List.filter perf_check_in cs)) in
  let failing := z (List.length (List.filter (fun c => fails md c && others c) cs)) in
  let perf_failing := z (List.length (List.filter (fun c => fails md c && perf_check_in c) cs)) in
  counters s =
  (match md with
   | Standard =>
      [checks; z (count (fun e => is_check e && negb (is_perf_check e)) (in_test cs)); perf_checks; 0; 0; 0; 0;
       failing; z (count (fun e => is_failure e && negb (is_perf_failure e)) (in_test cs)); perf_failing; 0; 0; 0; 0]
   | FalsePositive => [0; 0; 0; checks; 0; perf_checks; 0; 0; 0; 0; failing; 0; perf_failing; 0]
   | FalseNegative => [0; 0; 0; 0; checks; 0; perf_checks; 0; 0; 0; 0; failing; 0; perf_failing]
   end ++ [z (count is_critical (in_test cs))])%Z.
Proof. exact (summary_spec md cs st nm delta). Qed.
Print Assumptions C44_summary_partial.

Definition ex_checks : list (text * list event) :=
  [(txt "first", [Check; Scope (txt "inner") [Check; Fail (txt "1 /= 2"); Check]; Check]);
   (txt "second", [Scope [] [Check]; Caught (txt "oops")]);
   (txt "fast", [PerfCheck; PerfFail (txt "too slow")]);
   (txt "third", [Scope (txt "x") [Critical (txt "broken")]; Fail (txt "3 /= 4")]);
   (txt "quick", [PerfCheck])].

Example C44_ex : Forall perf_alone ex_checks /\
  (exists st, run_test Standard ex_checks = Ok st /\ top_level_checks (res_of st) = 5 /\
     top_level_failures (res_of st) = 2 /\ critical_failures (res_of st) = 1 /\ failures (res_of st) = 3 /\
     map fst (failure_messages (res_of st)) = [1; 3; 4; 4] /\
     counters (summarize (txt "t") (res_of st) Standard 0) = [3; 5; 2; 0; 0; 0; 0; 1; 2; 1; 0; 0; 0; 0; 1]%Z) /\
  (exists st, run_test FalseNegative ex_checks = Ok st /\ top_level_failures (res_of st) = 2 /\
     map fst (failure_messages (res_of st)) = [2; 4; 5] /\ map fst (diagnostics_output (res_of st)) = [1; 3; 4] /\
     counters (summarize (txt "t") (res_of st) FalseNegative 0) = [0; 0; 0; 0; 3; 0; 2; 0; 0; 0; 0; 1; 0; 1; 1]%Z).
Proof.
  split; [|split].
  - repeat (apply Forall_cons; split); [..|by apply Forall_nil];
      first [left; vm_compute; done | right; vm_compute; repeat split; lia].
  - eexists. split; [vm_compute; reflexivity|]. by vm_compute.
  - eexists. split; [vm_compute; reflexivity|]. by vm_compute.
Qed.

(** Two performance checks within one outermost check, and two performance failures: the differences wrap. *)
Definition two_perf : list (text * list event) :=
  [(txt "both", [Scope (txt "a") [PerfCheck; PerfFail (txt "slow")]; Scope (txt "b") [PerfCheck; PerfFail (txt "slow")]])].

Theorem C44_summary_refuted :
  exists st, run_test Standard two_perf = Ok st /\
    std_top_checks (summarize [] (res_of st) Standard 0) = (2 ^ 64 - 1)%Z /\
    std_top_failures (summarize [] (res_of st) Standard 0) = (2 ^ 64 - 1)%Z.
Proof. eexists. split; [vm_compute; reflexivity|]. by vm_compute. Qed.
Print Assumptions C44_summary_refuted.

(** ** C45 *)

Theorem C45_associative a b c : plus (plus a b) c = plus a (plus b c).
Proof. exact (plus_assoc a b c). Qed.
Print Assumptions C45_associative.

(** All counters, the exceptions in flight and the durations are added; in either order. *)
Theorem C45_counters a b : counters (plus a b) = counters (plus b a) /\
  counters (plus a b) = zip_with (fun x y => (x + y) mod 2 ^ 64)%Z (counters a) (counters b) /\
  in_flight (plus a b) = (in_flight a + in_flight b)%Z /\ duration (plus a b) = (duration a + duration b)%Z.
Proof. split; [exact (proj1 (plus_counters a b))|]. split; [exact (proj1 (proj2 (plus_counters a b)))|done]. Qed.
Print Assumptions C45_counters.

Theorem C45_default_right a nm : wf_summary a -> plus a (empty_summary nm) = a.
Proof. exact (plus_empty_r a nm). Qed.
Print Assumptions C45_default_right.

Theorem C45_default_left a nm : wf_summary a ->
  counters (plus (empty_summary nm) a) = counters a /\
  s_failure_messages (plus (empty_summary nm) a) = s_failure_messages a /\
  s_diagnostics (plus (empty_summary nm) a) = s_diagnostics a /\
  in_flight (plus (empty_summary nm) a) = in_flight a /\ duration (plus (empty_summary nm) a) = duration a.
Proof. exact (plus_empty_l a nm). Qed.
Print Assumptions C45_default_left.

(** Failure messages and diagnostics are kept, in order; what is not kept are the caught exceptions. *)
Theorem C45_messages_partial a b :
  s_failure_messages (plus a b) = (s_failure_messages a ++ s_failure_messages b)%list /\
  s_diagnostics (plus a b) = (s_diagnostics a ++ s_diagnostics b)%list.
Proof. exact (conj eq_refl eq_refl). Qed.
Print Assumptions C45_messages_partial.

Theorem C45_soft_failures a b :
  soft_failures (plus a b) = ((soft_failures a + soft_failures b) mod 2 ^ 64)%Z.
Proof. exact (soft_failures_plus a b). Qed.
Print Assumptions C45_soft_failures.

Example C45_ex :
  let f cs := match run_test Standard cs with Ok st => summarize (txt "t") (res_of st) Standard 3 | _ => empty_summary [] end in
  wf_summary (f ex_checks) /\
  counters (plus (f ex_checks) (f ex_checks)) = [6; 10; 4; 0; 0; 0; 0; 2; 4; 2; 0; 0; 0; 0; 2]%Z /\
  duration (plus (f ex_checks) (f ex_checks)) = 6%Z.
Proof.
  cbn zeta. split; [|split; by vm_compute].
  unfold wf_summary. match goal with |- Forall _ ?l => let l' := eval vm_compute in l in replace l with l' by (by vm_compute) end.
  repeat (apply Forall_cons; split; [lia|]). by apply Forall_nil.
Qed.

(** The caught-exception messages of the right-hand side are lost. *)
Theorem C45_caught_refuted : exists a b,
  (exists cs st, run_test Standard cs = Ok st /\ b = summarize [] (res_of st) Standard 0) /\
  a = empty_summary [] /\ s_caught b <> [] /\ s_caught (plus a b) = [].
Proof.
  exists (empty_summary []). eexists. split.
  { exists [(txt "throws", [Check; Caught (txt "std::runtime_error")])]. eexists. split; [vm_compute; reflexivity|reflexivity]. }
  by vm_compute.
Qed.
Print Assumptions C45_caught_refuted.
