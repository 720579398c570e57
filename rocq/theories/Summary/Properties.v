(** Properties C85-C86: the texts of summaries. *)
From Coq Require Import Ascii String ZArith Lia.
From stdpp Require Import list.
From Verif.Base Require Import Outcome ListLemmas.
From Verif.Text Require Import Model Spec.
From Verif.Log Require Import Model Spec Properties.
From Verif.Summary Require Import Model Spec ProofsTime Proofs ProofsFailures.
Local Open Scope res_scope.
Local Notation "⌜ s ⌝" := (list_ascii_of_string s%string).
Local Notation length := List.length.

(** ** C85: durations *)

(** Below a microsecond the number of nanoseconds is shown. *)
Theorem C85_nanoseconds d : (0 <= d < 1000)%Z -> stringify d = (in_digits d, ⌜"ns"⌝).
Proof. exact (nanoseconds_ok d). Qed.
Print Assumptions C85_nanoseconds.
Example C85_nanoseconds_ex : stringify 987 = (⌜"987"⌝, ⌜"ns"⌝).
Proof. by vm_compute. Qed.

(** Otherwise, the largest unit below the duration is taken, and at most three digits are shown: the number shown is as close as
    three digits allow. (Up to 2^52 nanoseconds, 52 days.) *)
Theorem C85_nearest u t d j : (u, t) ∈ [(10 ^ 3, ⌜"us"⌝); (10 ^ 6, ⌜"ms"⌝); (10 ^ 9, ⌜"s"⌝)]%Z -> (u <= d)%Z -> (d < 1000 * u \/ u = 10 ^ 9 /\ d < 2 ^ 52)%Z ->
  (0 <= j)%Z -> (u * 10 ^ j <= d < u * 10 ^ (j + 1))%Z ->
  snd (stringify d) = t /\ short (fst (stringify d)) = true /\
  exists v k x, read_number (fst (stringify d)) = Some (v, k, x) /\ (0 <= k)%Z /\ (0 <= x)%Z /\ (200 * Z.abs (v * 10 ^ x * u - d * 10 ^ k) <= u * 10 ^ j * 10 ^ k)%Z.
Proof. exact (nearest_ok u t d j). Qed.
Print Assumptions C85_nearest.
Example C85_nearest_ex :
  stringify 1234567 = (⌜"1.23"⌝, ⌜"ms"⌝) /\ read_number ⌜"1.23"⌝ = Some (123, 2, 0)%Z /\ (10 ^ 6 * 10 ^ 0 <= 1234567 < 10 ^ 6 * 10 ^ (0 + 1))%Z
  /\ stringify 15150 = (⌜"15.2"⌝, ⌜"us"⌝) /\ stringify 20000000000 = (⌜"20"⌝, ⌜"s"⌝) /\ stringify 1234567890123456 = (⌜"1.23e+06"⌝, ⌜"s"⌝)
  /\ read_number ⌜"1.23e+06"⌝ = Some (123, 2, 6)%Z.
Proof. split_and!; try (by vm_compute); lia. Qed.

(** No exponent is shown below 999.5 units. *)
Theorem C85_plain u t d : (u, t) ∈ [(10 ^ 3, ⌜"us"⌝); (10 ^ 6, ⌜"ms"⌝); (10 ^ 9, ⌜"s"⌝)]%Z -> (u <= d)%Z -> (d < 1000 * u \/ u = 10 ^ 9 /\ d < 2 ^ 52)%Z ->
  (2 * d < 1999 * u -> "e"%char ∉ fst (stringify d))%Z /\ (1999 * u < 2 * d -> "e"%char ∈ fst (stringify d))%Z.
Proof. exact (exponents_ok u t d). Qed.
Print Assumptions C85_plain.
Example C85_plain_ex : stringify 999499 = (⌜"999"⌝, ⌜"us"⌝) /\ (2 * 999499 < 1999 * 10 ^ 3)%Z.
Proof. split; [by vm_compute|lia]. Qed.

(** Above, an exponent is shown although the next unit would do. *)
Theorem C85_exponent_refuted : exists d, stringify d = (⌜"1e+03"⌝, ⌜"ms"⌝) /\ stringify (d + 1) = (⌜"1"⌝, ⌜"s"⌝).
Proof. exists 999999999%Z. split; by vm_compute. Qed.
Print Assumptions C85_exponent_refuted.

(** ** C86: summaries *)

(** A summary consists of name and times, a line for each kind of checks (of which there are some, or else if wanted), the
    number of critical failures if there are any, and the messages if wanted. The numbers stand in columns. *)
Theorem C86_text log suffix dur v ind0 ind1 : exists w f,
  column 8 w (map (fun k => in_digits (snd (fst k))) (kinds log)) /\ column 2 f (map (fun k => in_digits (snd k)) (kinds log)) /\
  summarize_text log suffix dur v ind0 ind1
  = Ok (heading (name log) suffix ind0 (if timings v then Some (times (stringify <$> dur) (stringify (duration log))) else None)
        ++ table (absent_checks v) w f log (ind0 ++ ind1) ++ critical_text log
        ++ (if failure_messages_ v then messages_text (ind0 ++ ind1) (s_failure_messages log) else [])).
Proof. exact (summarize_ok log suffix dur v ind0 ind1). Qed.
Print Assumptions C86_text.
Definition log_ex : summary :=
  mk_summary ⌜"My Test"⌝ ⌜"oh"⌝ [] [] 1234567 1234568 0 0 123456789 0 0 12 12 0 0 345 0 0 2 0 1500000.
Example C86_text_ex :
  summarize_text log_ex ⌜":"⌝ None (mk_detail false true true) ⌜"-"⌝ ⌜"+"⌝
  = Ok (⌜"-My Test:"⌝ ++ [nl] ++ ⌜"-[Execution Time: 1.5ms]"⌝ ++ [nl]
        ++ ⌜"-+Standard Top Level Checks:            1234567;  Failures:  12  [Deep checks: 1234568]"⌝ ++ [nl]
        ++ ⌜"-+False Negative Checks:              123456789;  Failures: 345"⌝ ++ [nl; nl]
        ++ ⌜"******  Critical Failures:  2  ******"⌝ ++ [nl; nl; nl] ++ ⌜"-+oh"⌝)
  /\ column 8 9 (map (fun k => in_digits (snd (fst k))) (kinds log_ex)).
Proof.
  split; [by vm_compute|]. split; [lia|]. split; [|right; exists ⌜"123456789"⌝; split; [|done]].
  - vm_compute. repeat (apply Forall_cons; split; [lia|]). by apply Forall_nil.
  - vm_compute. do 4 right. left.
Qed.

(** The lines of a table are of the same length but for the number of deep checks. *)
Theorem C86_aligned ind w f label c n : length label <= 34 -> length c <= w -> length n <= f ->
  length (row ind w f label c n []) = length ind + 34 + 2 + w + length ⌜";  Failures: "⌝ + f + 1
  /\ (row ind w f label c n []) !! (length ind + 34 + 2 + w) = Some ";"%char.
Proof. exact (aligned ind w f label c n). Qed.
Print Assumptions C86_aligned.
Example C86_aligned_ex : row ⌜"-"⌝ 8 2 ⌜"False Negative Checks:"⌝ ⌜"17"⌝ ⌜"0"⌝ [] = ⌜"-False Negative Checks:                    17;  Failures:  0"⌝ ++ [nl].
Proof. by vm_compute. Qed.

(** In a summary of a test in which performance checks stand alone, every kind of checks with failures has checks: its line is
    shown. *)
Theorem C86_failures_partial md cs st nm delta : run_test md cs = Ok st -> Forall perf_alone cs ->
  (Z.of_nat (length cs) < 2 ^ 64)%Z -> (Z.of_nat (length (in_test cs)) < 2 ^ 64)%Z ->
  forall l c n, (l, c, n) ∈ kinds (summarize nm (res_of st) md delta) -> n <> 0%Z -> c <> 0%Z.
Proof. exact (failures_have_checks md cs st nm delta). Qed.
Print Assumptions C86_failures_partial.
Example C86_failures_partial_ex : exists st, run_test Standard ex_checks = Ok st /\ kinds (summarize ⌜"t"⌝ (res_of st) Standard 0)
  = [(⌜"Standard Top Level Checks:"⌝, 3, 1); (⌜"Standard Performance Checks:"⌝, 2, 1); (⌜"False Positive Checks:"⌝, 0, 0);
     (⌜"False Positive Performance Checks:"⌝, 0, 0); (⌜"False Negative Checks:"⌝, 0, 0); (⌜"False Negative Performance Checks:"⌝, 0, 0)]%Z.
Proof. eexists. split; [vm_compute; reflexivity|]. by vm_compute. Qed.

(** If not, failures may not be shown: here, of one check, in which a performance check succeeds but another check fails. *)
Theorem C86_failures_refuted : exists cs st,
  run_test Standard cs = Ok st /\ soft_failures (summarize ⌜"t"⌝ (res_of st) Standard 0) = 1%Z
  /\ summarize_text (summarize ⌜"t"⌝ (res_of st) Standard 0) [] None (mk_detail false false false) [] []
     = Ok (⌜"t"⌝ ++ [nl] ++ ⌜"Standard Performance Checks:               1;  Failures:  0"⌝ ++ [nl]).
Proof. exists [(⌜"x"⌝, [PerfCheck; Check; Fail ⌜"1 /= 2"⌝])]. eexists. split; [vm_compute; reflexivity|]. split; by vm_compute. Qed.
Print Assumptions C86_failures_refuted.

(** Without a name (as for the grand totals) the times are not indented, though the lines of the table are. *)
Theorem C86_indent_refuted : exists log ind,
  summarize_text log [] None (mk_detail false false true) ind []
  = Ok (⌜"[Execution Time: 5ns]"⌝ ++ [nl] ++ ind ++ ⌜"Standard Top Level Checks:                 1;  Failures:  0  [Deep checks: 1]"⌝ ++ [nl]) /\ ind = [tab].
Proof. exists (mk_summary [] [] [] [] 1 1 0 0 0 0 0 0 0 0 0 0 0 0 0 0 5), [tab]. split; [|done]. by vm_compute. Qed.
Print Assumptions C86_indent_refuted.
