(** Properties of the recovery and dump files. *)
From Coq Require Import Ascii String.
From stdpp Require Import list.
From Verif.Base Require Import Outcome.
From Verif.Text Require Import Model.
From Verif.Log Require Import Model Spec.
From Verif.Recovery Require Import Model Spec Proofs.
Local Notation length := List.length.
Local Notation concat := List.concat.
Local Open Scope list_scope.
Local Notation "⌜ s ⌝" := (list_ascii_of_string s%string).

(** Two tests: the first one is over, the second one is in its second check, two sentinels deep. *)
Definition ex_first : test := (Standard, [(⌜"one"⌝, [Check; Fail ⌜"bad"⌝]); (⌜"two"⌝, [Scope ⌜"size"⌝ [Check]])]).
Definition ex_second : test := (FalsePositive, [(⌜"three"⌝, [Critical ⌜"null"⌝])]).
Definition ex_progress : progress := Within [Check] ⌜"front"⌝ (Within [] ⌜"value"⌝ (Here [Check])).
Definition ex_last : option (test * option (text * progress)) := Some (ex_second, Some (⌜"four"⌝, ex_progress)).
Definition ex_files (l : option (test * option (text * progress))) : option files :=
  match files_at both nothing_there [ex_first] l with Ok f => Some f | _ => None end.

(** Writing the files leaves what is logged as it is, and running tests with the files always succeeds. *)
Theorem C105_same a md cs f :
  exists st g, run_test md cs = Ok st /\ record_events a md (map top cs) (fresh, f) = Ok (st, g).
Proof. exact (same_logger a md cs f). Qed.
Print Assumptions C105_same.

Example C105_same_ex : length (snd ex_first) = 2.
Proof. reflexivity. Qed.

(** A file whose option is not given is not touched. *)
Theorem C105_untouched old ts last a : exists f, files_at a old ts last = Ok f /\
  (recover a = false -> recovery_file f = recovery_file old) /\
  (dumping a = false -> dump_file f = dump_file old).
Proof. exact (inactive_untouched old ts last a). Qed.
Print Assumptions C105_untouched.

Example C105_untouched_ex :
  match files_at (mk_active false true) (mk_files (Some ⌜"old"⌝) (Some ⌜"old"⌝)) [ex_first] ex_last with
  | Ok f => recovery_file f = Some ⌜"old"⌝ /\ dump_file f <> Some ⌜"old"⌝
  | _ => False
  end.
Proof. vm_compute. split; [reflexivity|discriminate]. Qed.

(** If the program crashes within a check, the recovery file consists of the message of the outermost check
    and the critical failures in it so far. *)
Theorem C105_open a old ts t m p : recover a = true -> exists f,
  files_at a old ts (Some (t, Some (m, p))) = Ok f /\
  recovery_file f = Some (names_check m (progress_marks p)).
Proof. exact (recovery_open a old ts t m p). Qed.
Print Assumptions C105_open.

Example C105_open_ex : option_map recovery_file (ex_files ex_last) =
  Some (Some (⌜"Check started:"⌝ ++ [nl] ++ ⌜"four"⌝ ++ [nl])).
Proof. vm_compute. reflexivity. Qed.

(** Between the checks it is about the last one, with a final line unless it failed critically. *)
Theorem C105_over a old ts last cs c : recover a = true -> open_check last = None -> over ts last = cs ++ [c] ->
  exists f, files_at a old ts last = Ok f /\
  recovery_file f = Some (names_check (fst c) (check_marks c) ++
    if any is_critical (in_check c) then [] else ⌜"Check ended"⌝ ++ [nl]).
Proof. exact (recovery_over a old ts last cs c). Qed.
Print Assumptions C105_over.

Example C105_over_ex : option_map recovery_file (ex_files None) =
    Some (Some (⌜"Check started:"⌝ ++ [nl] ++ ⌜"two"⌝ ++ [nl] ++ ⌜"Check ended"⌝ ++ [nl])) /\
  option_map recovery_file (ex_files (Some (ex_second, None))) =
    Some (Some (⌜"Check started:"⌝ ++ [nl] ++ ⌜"three"⌝ ++ [nl] ++ [nl] ++ ⌜"Critical Failure:"⌝ ++ [nl] ++ ⌜"null"⌝ ++ [nl])).
Proof. vm_compute. split; reflexivity. Qed.

(** Before the first check there is no recovery file, whatever the previous run left. *)
Theorem C105_none a old ts last : recover a = true -> open_check last = None -> over ts last = [] ->
  exists f, files_at a old ts last = Ok f /\ recovery_file f = None.
Proof. exact (recovery_none a old ts last). Qed.
Print Assumptions C105_none.

Example C105_none_ex : over [(Standard, [])] (Some ((FalsePositive, []), None)) = [].
Proof. reflexivity. Qed.

(** Two crashes within checks free of critical failures leave the same recovery file only if the outermost
    checks have the same message. *)
Theorem C105_identifies a old1 old2 ts1 ts2 t1 t2 m1 m2 p1 p2 f1 f2 : recover a = true ->
  files_at a old1 ts1 (Some (t1, Some (m1, p1))) = Ok f1 ->
  files_at a old2 ts2 (Some (t2, Some (m2, p2))) = Ok f2 ->
  bad (progress_marks p1) = false -> bad (progress_marks p2) = false ->
  recovery_file f1 = recovery_file f2 -> m1 = m2.
Proof. exact (open_identified a old1 old2 ts1 ts2 t1 t2 m1 m2 p1 p2 f1 f2). Qed.
Print Assumptions C105_identifies.

Example C105_identifies_ex : bad (progress_marks ex_progress) = false /\ length (progress_marks ex_progress) = 2.
Proof. split; reflexivity. Qed.

(** The last line of the recovery file tells whether the check is over.  Partial: the message written last
    must not itself end with that line, and a check with a critical failure counts as one which is not over. *)
Theorem C105_told_apart_partial a old ts last f t :
  recover a = true -> files_at a old ts last = Ok f -> recovery_file f = Some t ->
  (forall m ks, current ts last = Some (m, ks) -> ~ ends_with_ended (last_text m ks)) ->
  (is_over t <-> open_check last = None /\
     exists cs c, over ts last = cs ++ [c] /\ any is_critical (in_check c) = false).
Proof. exact (told_apart a old ts last f t). Qed.
Print Assumptions C105_told_apart_partial.

Example C105_told_apart_ex : current [ex_first] None = Some (⌜"two"⌝, [Enters ⌜"size"⌝]) /\
  current [ex_first] ex_last = Some (⌜"four"⌝, [Enters ⌜"front"⌝; Enters ⌜"value"⌝]) /\
  last_text ⌜"four"⌝ [Enters ⌜"front"⌝; Enters ⌜"value"⌝] = ⌜"four"⌝.
Proof. vm_compute. repeat split; reflexivity. Qed.

(** The dump lists the messages of all sentinels in the order in which they were entered, with two blank
    lines after every outermost check which is over. *)
Theorem C105_dump a old ts last : dumping a = true -> exists f, files_at a old ts last = Ok f /\
  default [] (dump_file f) = concat (map dumped (over ts last)) ++
    match open_check last with
    | None => []
    | Some (m, p) => m ++ [nl] ++ entered (progress_marks p)
    end.
Proof. exact (dump_contents a old ts last). Qed.
Print Assumptions C105_dump.

Example C105_dump_ex : option_map dump_file (ex_files ex_last) =
  Some (Some (⌜"one"⌝ ++ [nl; nl; nl] ++ ⌜"two"⌝ ++ [nl] ++ ⌜"size"⌝ ++ [nl; nl; nl] ++ ⌜"three"⌝ ++ [nl; nl; nl]
    ++ ⌜"four"⌝ ++ [nl] ++ ⌜"front"⌝ ++ [nl] ++ ⌜"value"⌝ ++ [nl])).
Proof. vm_compute. reflexivity. Qed.

(** After a check which failed critically and is over, the file is the one which a crash within it leaves. *)
Theorem C105_critical_refuted : exists t m es p f g,
  files_at both nothing_there [] (Some ((t, [(m, es)]), None)) = Ok f /\
  files_at both nothing_there [] (Some ((t, []), Some (m, p))) = Ok g /\
  recovery_file f = recovery_file g.
Proof. exact critical_looks_open. Qed.
Print Assumptions C105_critical_refuted.

(** A check whose message ends with the final line looks as if it were over. *)
Theorem C105_message_refuted : exists m f t,
  files_at both nothing_there [] (Some ((Standard, []), Some (m, Here []))) = Ok f /\
  recovery_file f = Some t /\ is_over t.
Proof. exact open_looks_over. Qed.
Print Assumptions C105_message_refuted.

(** The files do not show which sentinels are still open. *)
Theorem C105_nesting_refuted : exists p1 p2 f g, p1 <> p2 /\
  files_at both nothing_there [] (Some ((Standard, []), Some ([], p1))) = Ok f /\
  files_at both nothing_there [] (Some ((Standard, []), Some ([], p2))) = Ok g /\
  dump_file f = dump_file g /\ recovery_file f = recovery_file g.
Proof. exact nesting_lost. Qed.
Print Assumptions C105_nesting_refuted.
