(** Vocabulary for the properties of the logger and the summaries. *)
From Coq Require Import ZArith.
From stdpp Require Import list.
From Verif.Text Require Import Model.
From Verif.Log Require Import Model.

(** What is logged in an event, in order, with the nesting forgotten. *)
Fixpoint leaves (e : event) : list event :=
  match e with
  | Scope _ es => concat (map leaves es)
  | _ => [e]
  end.

Definition is_failure (e : event) : bool := match e with Fail _ | PerfFail _ => true | _ => false end.
Definition is_perf_failure (e : event) : bool := match e with PerfFail _ => true | _ => false end.
Definition is_critical (e : event) : bool := match e with Critical _ => true | _ => false end.
Definition is_check (e : event) : bool := match e with Check | PerfCheck => true | _ => false end.
Definition is_perf_check (e : event) : bool := match e with PerfCheck => true | _ => false end.
Definition is_caught (e : event) : bool := match e with Caught _ => true | _ => false end.

Definition count (p : event -> bool) (l : list event) : nat := length (List.filter p l).
Definition any (p : event -> bool) (l : list event) : bool := existsb p l.

(** The things logged within an outermost check, and within a whole test. *)
Definition in_check (c : text * list event) : list event := concat (map leaves (snd c)).
Definition in_test (cs : list (text * list event)) : list event := concat (map in_check cs).

(** An outermost check fails: some failure was logged (in false negative mode: none), and no critical one. *)
Definition fails (md : mode) (c : text * list event) : bool :=
  negb (any is_critical (in_check c)) &&
  match md with
  | FalseNegative => negb (any is_failure (in_check c))
  | _ => any is_failure (in_check c)
  end.

(** How many entries of the messages and of the diagnostics an outermost check leads to. *)
Definition message_entries (md : mode) (c : text * list event) : nat :=
  match md with
  | FalseNegative => count is_critical (in_check c) + (if fails md c then 1 else 0)
  | _ => count (fun e => is_failure e || is_critical e) (in_check c)
  end.
Definition diagnostics_entries (md : mode) (c : text * list event) : nat :=
  match md with
  | Standard => 0
  | FalsePositive => if any is_critical (in_check c) || any is_failure (in_check c) then 0 else 1
  | FalseNegative => count is_failure (in_check c)
  end.

(** [n k] entries for the [k]th check, counting from one, all labelled with [k]. *)
Definition labels (n : text * list event -> nat) (cs : list (text * list event)) : list nat :=
  concat (imap (fun k c => repeat (S k) (n c)) cs).

(** Performance checks stand alone: an outermost check with a performance check has just that one check, and
    at most one failure, which is then a performance failure; and no other check has performance failures. *)
Definition perf_alone (c : text * list event) : Prop :=
  let l := in_check c in
  (count is_perf_check l = 0 /\ count is_perf_failure l = 0) \/
  (count is_perf_check l = 1 /\ count is_check l = 1 /\ count is_failure l = count is_perf_failure l /\
   count is_perf_failure l <= 1 /\ any is_critical l = false).

(** The counters of a summary. *)
Definition counters (s : summary) : list Z :=
  [std_top_checks s; std_deep_checks s; std_perf_checks s; fp_checks s; fn_checks s; fp_perf_checks s; fn_perf_checks s;
   std_top_failures s; std_deep_failures s; std_perf_failures s; fp_failures s; fn_failures s; fp_perf_failures s;
   fn_perf_failures s; s_critical s].

(** All counters are 64-bit values. *)
Definition wf_summary (s : summary) : Prop := Forall (fun z => (0 <= z < 2 ^ 64)%Z) (counters s).
