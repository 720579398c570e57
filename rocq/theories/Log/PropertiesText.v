(** C64: failures are reported with their surroundings; and the number of failures of a summary (C45). *)
From Coq Require Import ZArith Ascii String.
From stdpp Require Import list.
From Verif.Base Require Import Outcome.
From Verif.Text Require Import Model Spec.
From Verif.Log Require Import Model Spec SpecText Proofs ProofsText.

Local Notation "'txt' s" := (list_ascii_of_string s%string) (at level 0).

(** ** C64 *)

(** The texts of all entries of the three channels, for every test. *)
Theorem C64_messages md cs st : run_test md cs = Ok st ->
  map snd (failure_messages (res_of st)) = concat (map (check_messages md) cs) /\
  map snd (diagnostics_output (res_of st)) = concat (map (check_diagnostics md) cs) /\
  map snd (caught_exception_messages (res_of st)) = concat (map check_caught cs).
Proof. exact (run_test_text md cs st). Qed.
Print Assumptions C64_messages.

(** The summary has all of them, in order. *)
Theorem C64_summary md cs st nm delta : run_test md cs = Ok st ->
  let s := summarize nm (res_of st) md delta in
  s_failure_messages s = printed (concat (map (check_messages md) cs)) /\
  s_diagnostics s = printed (concat (map (check_diagnostics md) cs)) /\
  s_caught s = printed (concat (map check_caught cs)).
Proof. exact (summary_text md cs st nm delta). Qed.
Print Assumptions C64_summary.

(** Each scope with a message and a failure in it is named in exactly one of the blocks of its check: the first
    one within it.  [named seen l] are the numbers of the scopes
    whose messages [block] writes. *)
Theorem C64_named_once c n : List.length (List.filter (fun b => bool_decide (n ∈ b)) (named [] (located_in c))) =
  if existsb (fun p => failed (snd p) && bool_decide (n ∈ map fst (headed (fst p)))) (located_in c) then 1 else 0.
Proof. exact (named_once c n). Qed.
Print Assumptions C64_named_once.

Definition ex_cs : list (text * list event) :=
  [(txt "first", [Check; Scope [] [Scope (txt "in") [Fail (txt "a" ++ [nl] ++ txt "b"); Fail (txt "c")]; Fail (txt "d")]; Fail (txt "e")]);
   (txt "second", [Check; Caught (txt "oops"); Scope (txt "in") [Critical (txt "f")]]);
   (txt "third", [Check])].

Example C64_ex :
  (exists st, run_test Standard ex_cs = Ok st /\
    map snd (failure_messages (res_of st)) =
      [txt "first" ++ [nl] ++ txt "  in" ++ [nl] ++ txt "  a" ++ [nl] ++ txt "  b" ++ [nl];
       txt "  c" ++ [nl]; txt "d" ++ [nl];
       txt "e" ++ [nl; nl] ++ footer;
       txt "second" ++ [nl] ++ txt "  in" ++ [nl] ++ txt "  f" ++ [nl; nl] ++ footer] /\
    map snd (caught_exception_messages (res_of st)) = [txt "second" ++ [nl] ++ txt "oops" ++ [nl; nl] ++ footer]) /\
  (exists st, run_test FalseNegative ex_cs = Ok st /\
    map snd (failure_messages (res_of st)) =
      [txt "second" ++ [nl] ++ txt "  in" ++ [nl] ++ txt "  f" ++ [nl; nl] ++ footer;
       txt "False Negative Failure:" ++ [nl] ++ txt "third" ++ [nl; nl] ++ footer] /\
    List.length (diagnostics_output (res_of st)) = 4) /\
  List.length (List.filter (fun b => bool_decide (2 ∈ b)) (named [] (located_in (txt "first", snd (hd (txt "", []) ex_cs))))) = 1.
Proof.
  split; [|split].
  - destruct (run_test Standard ex_cs) as [st| | |] eqn:E; [|vm_compute in E; discriminate..].
    exists st. split; [done|]. vm_compute in E. injection E as <-. by vm_compute.
  - destruct (run_test FalseNegative ex_cs) as [st| | |] eqn:E; [|vm_compute in E; discriminate..].
    exists st. split; [done|]. vm_compute in E. injection E as <-. by vm_compute.
  - by vm_compute.
Qed.

(** ** C45 *)

(** The soft failures are those of all kinds. *)
Theorem C45_soft_failures_total s :
  soft_failures s = ((std_top_failures s + std_perf_failures s + fp_failures s + fp_perf_failures s +
    fn_failures s + fn_perf_failures s) mod 2 ^ 64)%Z.
Proof. exact (soft_failures_sum s). Qed.
Print Assumptions C45_soft_failures_total.

(** For a test: as many as there are outermost checks which fail. *)
Theorem C45_soft_failures_counted md cs st nm delta : run_test md cs = Ok st -> Forall perf_alone cs ->
  (Z.of_nat (List.length cs) < 2 ^ 64)%Z -> (Z.of_nat (List.length (in_test cs)) < 2 ^ 64)%Z ->
  soft_failures (summarize nm (res_of st) md delta) = Z.of_nat (List.length (List.filter (fails md) cs)).
Proof. exact (soft_failures_counted md cs st nm delta). Qed.
Print Assumptions C45_soft_failures_counted.

Definition ex_soft : list (text * list event) :=
  [(txt "a", [Check; Fail (txt "x")]); (txt "b", [PerfCheck; PerfFail (txt "y")]); (txt "c", [Check])].
Example C45_soft_failures_ex : Forall perf_alone ex_soft /\
  match run_test FalsePositive ex_soft with
  | Ok st => soft_failures (summarize [] (res_of st) FalsePositive 0) = 2%Z
  | _ => False
  end.
Proof.
  split; [|by vm_compute].
  unfold ex_soft. repeat (apply Forall_cons; split); [left|right|left|by apply Forall_nil]; vm_compute; repeat split; lia.
Qed.
