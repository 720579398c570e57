(** Properties of what is logged about an exception which leaves a test. *)
From Coq Require Import Ascii String.
From stdpp Require Import list.
From Verif.Base Require Import Outcome.
From Verif.Text Require Import Model.
From Verif.Log Require Import Model Spec.
From Verif.Uncaught Require Import Model Spec Proofs.
Local Notation length := List.length.
Local Open Scope list_scope.
Local Notation "⌜ s ⌝" := (list_ascii_of_string s%string).

(** Two checks, the second one left by an exception. *)
Definition ex_steps : list step := [mk_step ⌜"Empty"⌝ [Check; Fail ⌜"not so"⌝] false 0; mk_step ⌜"Front"⌝ [Check] true 0].

(** A test which an exception leaves logs what it would log without, and then a critical failure in a check
    of its own, which says what was thrown and where. *)
Theorem C106_logged md file ss f :
  exists st, execute md file ss f = Ok st /\ run_test md (as_checks md file ss f) = Ok st.
Proof. exact (logged md file ss f). Qed.
Print Assumptions C106_logged.

Example C106_logged_ex : as_checks Standard ⌜"Foo.cpp"⌝ ex_steps (Leaves ⌜"oops"⌝) =
  [(⌜"Empty"⌝, [Check; Fail ⌜"not so"⌝]); (⌜"Front"⌝, [Check]);
   ([], [Critical (⌜"Error -- Unexpected Exception:"⌝ ++ [nl] ++ ⌜"oops"⌝ ++ [nl; nl] ++
     ⌜"Exception thrown during last check"⌝ ++ [nl] ++ ⌜"Last Recorded Message:"⌝ ++ [nl; nl] ++ ⌜"Front"⌝)])].
Proof. vm_compute. reflexivity. Qed.

(** Every exception which leaves a test is counted as one critical failure, and nothing else is. *)
Theorem C106_critical md file ss f st : execute md file ss f = Ok st ->
  critical_failures (res_of st) = count is_critical (in_test (map check_of ss)) + match thrown f with Some _ => 1 | None => 0 end /\
  top_level_checks (res_of st) = length ss + match thrown f with Some _ => 1 | None => 0 end.
Proof. exact (criticals md file ss f st). Qed.
Print Assumptions C106_critical.

Example C106_critical_ex : count is_critical (in_test (map check_of ex_steps)) = 0 /\
  thrown (Leaves ⌜"oops"⌝) = Some (⌜"Unexpected"⌝, ⌜"oops"⌝).
Proof. split; reflexivity. Qed.

(** The exception does not change how the earlier checks are counted. *)
Theorem C106_earlier md file ss f st st0 : execute md file ss Finishes = Ok st0 -> execute md file ss f = Ok st ->
  failures (res_of st) = failures (res_of st0) /\ top_level_failures (res_of st) = top_level_failures (res_of st0) /\
  deep_checks (res_of st) = deep_checks (res_of st0).
Proof. exact (earlier_kept md file ss f st st0). Qed.
Print Assumptions C106_earlier.

Example C106_earlier_ex :
  match execute Standard [] ex_steps Finishes with
  | Ok st => failures (res_of st) = 1 /\ top_level_failures (res_of st) = 1 /\ deep_checks (res_of st) = 2
  | _ => False
  end.
Proof. vm_compute. repeat split; reflexivity. Qed.

(** The message says rightly whether the exception was thrown before all checks, during the last one or after it.
    Partial: the checks have messages, and no exception is in flight at the end of the last check if the
    exception is thrown after it. *)
Theorem C106_where_partial md file inside ss : plausible inside ss ->
  Forall (fun s => message s <> []) ss ->
  (inside = false -> forall s, last ss = Some s -> flight s = 0) ->
  reported_place md file ss = true_place md file inside ss.
Proof. exact (place_right md file inside ss). Qed.
Print Assumptions C106_where_partial.

Example C106_where_ex : plausible true ex_steps /\ Forall (fun s => message s <> []) ex_steps.
Proof. split; [intros _; eexists; split; reflexivity|]. repeat apply Forall_cons_2; [discriminate..|apply Forall_nil_2]. Qed.

(** A check without message is overlooked: the exception is said to have been thrown before any check. *)
Theorem C106_silent_refuted : exists ss, ss <> [] /\
  forall md file, reported_place md file ss = Before_all file \/ md = FalseNegative.
Proof. exact silent. Qed.
Print Assumptions C106_silent_refuted.

(** If the test itself has caught an exception thrown in a check, one thrown after it is attributed to that check. *)
Theorem C106_caught_refuted : exists ss, plausible false ss /\ Forall (fun s => message s <> []) ss /\
  exists m, reported_place Standard [] ss = During m /\ true_place Standard [] false ss = After m.
Proof. exact caught_by_test. Qed.
Print Assumptions C106_caught_refuted.

(** In a test for false negatives the check left by the exception is counted as a failure as well. *)
Theorem C106_negative_refuted : exists s st, unwound s = true /\
  execute FalseNegative [] [s] (Leaves []) = Ok st /\
  top_level_failures (res_of st) = 1 /\ failures (res_of st) = 0 /\ critical_failures (res_of st) = 1.
Proof. exact negative_fails. Qed.
Print Assumptions C106_negative_refuted.

(** The exception is counted as a check. *)
Theorem C106_counted_refuted : exists ss st, execute Standard [] ss (Leaves []) = Ok st /\
  top_level_checks (res_of st) <> length ss.
Proof. exact counted. Qed.
Print Assumptions C106_counted_refuted.
