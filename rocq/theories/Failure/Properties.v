(** C48: failure output survives a round trip; C49: instability analysis. *)
From Coq Require Import Ascii String NArith.
From stdpp Require Import list sets.
From Verif.Base Require Import Outcome Compare.
From Verif.Text Require Import Model Spec.
From Verif.Failure Require Import Model Spec Proofs.

Local Notation "'txt' s" := (list_ascii_of_string s%string) (at level 0).

(** ** C48 *)

(** What is written is read back exactly if no line of a message consists of a dollar sign. *)
Theorem C48_round_trip_partial o : fits o -> (read_output (write_output o) [] = Ok o <-> clean o).
Proof. exact (round_trip o). Qed.
Print Assumptions C48_round_trip_partial.

(** As the instability analysis reads it, with every message indented. *)
Theorem C48_read_indented_partial o : fits o -> clean o ->
  read_output (write_output o) [tab] = Ok (map (fun i => (fst i, indented_message [tab] (snd i))) o).
Proof. exact (read_write [tab] o). Qed.
Print Assumptions C48_read_indented_partial.

(** So two outputs are read as equal exactly if they are equal. *)
Theorem C48_judged_equal_partial o o' : fits o -> clean o -> fits o' -> clean o' ->
  (read_output (write_output o) [tab] = read_output (write_output o') [tab] <-> o = o').
Proof.
  exact (fun F C F' C' => conj
    (fun E => tabbed_inj o o' (f_equal (fun r => match r with Ok l => l | _ => [] end)
        (eq_trans (eq_sym (read_write [tab] o F C)) (eq_trans E (read_write [tab] o' F' C')))))
    (fun E => f_equal (fun o => read_output (write_output o) [tab]) E)).
Qed.
Print Assumptions C48_judged_equal_partial.

Definition ex_out : list (N * text) := [(1%N, txt "a" ++ [nl; nl] ++ txt "$ b" ++ [nl]); (12%N, []); (3%N, [nl])].
Example C48_ex : fits ex_out /\ clean ex_out /\ read_output (write_output ex_out) [] = Ok ex_out /\
  read_output (write_output ex_out) [tab] =
    Ok [(1%N, [tab] ++ txt "a" ++ [nl; nl; tab] ++ txt "$ b" ++ [nl]); (12%N, []); (3%N, [nl])].
Proof.
  split; [|split; [|done]].
  - repeat constructor.
  - unfold clean, clean_message. apply (bool_decide_unpack _). by vm_compute.
Qed.

(** A dollar line: the rest of the message is refused; or, if it looks like a failure, taken for one. *)
Theorem C48_round_trip_refuted : exists o o',
  fits o /\ read_output (write_output o) [] = Throw RuntimeError /\
  fits o' /\ (exists r, read_output (write_output o') [] = Ok r /\ r <> o').
Proof.
  exists [(1%N, txt "$")], [(1%N, txt "x" ++ [nl] ++ txt "$" ++ [nl] ++ txt "$Check: 2" ++ [nl] ++ txt "y")].
  split; [by repeat constructor|]. split; [done|]. split; [by repeat constructor|].
  eexists. split; [vm_compute; reflexivity|]. done.
Qed.
Print Assumptions C48_round_trip_refuted.

(** ** C49 *)

(** The analysis of the outputs of one test never throws, reports an instability exactly if two runs differ, and
    gives the number of runs for each of the different outcomes. *)
Theorem C49_one_test outs : exists r, analyse_output (sort_by output_compare outs) = Ok r /\
  match r with
  | None => ~ unstable outs
  | Some (fr, _) => unstable outs /\ frequencies_of fr outs
  end.
Proof. exact (analyse_output_spec outs). Qed.
Print Assumptions C49_one_test.

Theorem C49_frequencies fr outs : frequencies_of fr outs -> list_sum fr = List.length outs.
Proof. exact (frequencies_sum fr outs). Qed.
Print Assumptions C49_frequencies.

Example C49_one_test_ex :
  analyse_output (sort_by output_compare [[(1%N, txt "b")]; []; [(1%N, txt "a")]; []; [(1%N, txt "a"); (2%N, txt "c")]; [(1%N, txt "a")]]) =
    Ok (Some ([2; 2; 1; 1],
      txt_no_failures ++ txt "a" ++ [nl] ++ txt_vs ++ txt "a" ++ [nl] ++ txt "c" ++ [nl] ++ txt_vs ++ txt "b")%list) /\
  analyse_output (sort_by output_compare [[(1%N, txt "b")]; [(1%N, txt "b")]]) = Ok None.
Proof. done. Qed.

(** The whole analysis, from the files of any tests with different folders, in whatever order the files come: it
    reports exactly the unstable tests, each once, with the frequencies of its outcomes. *)
Theorem C49_reports_partial tests trials outs files :
  2 <= trials -> NoDup (map dir_of tests) -> files ≡ₚ all_files tests trials outs ->
  (forall t k, t ∈ tests -> k < trials -> fits (outs t k) /\ clean (outs t k)) ->
  exists rs us, instability_reports trials files = Ok rs /\
    NoDup us /\ (forall t, t ∈ us <-> t ∈ tests /\ unstable (runs trials outs t)) /\
    Forall2 (fun t r => fst r = source_of (file_of t 0) /\ frequencies_of (fst (snd r)) (runs trials outs t)) us rs.
Proof. exact (instability_reports_spec tests trials outs files). Qed.
Print Assumptions C49_reports_partial.

Theorem C49_text percent trials files rs : 2 <= trials -> instability_reports trials files = Ok rs ->
  instability_analysis percent trials files =
  Ok (match rs with [] => txt_none_detected | _ => concat (map (fun r => report percent (fst r) (snd r)) rs) end).
Proof. exact (instability_analysis_spec percent trials files rs). Qed.
Print Assumptions C49_text.

(** A wrong number of files is noticed if it is not a multiple of the number of runs. *)
Theorem C49_wrong_number trials files : List.length files mod trials <> 0 -> instability_reports trials files = Throw RuntimeError.
Proof. exact (instability_reports_throws trials files). Qed.
Print Assumptions C49_wrong_number.

Definition ex_tests : list (text * text * text) :=
  [(txt "FooTest", txt ".cpp", txt "Unit Test"); (txt "BarTest", txt ".cpp", txt "Unit Test"); (txt "BarTest", txt ".cpp", txt "False Positive")].
Definition ex_outs (t : text * text * text) (k : nat) : list (N * text) :=
  if decide (fst (fst t) = txt "FooTest" /\ k = 10) then [(1%N, txt "late")] else
  if decide (snd t = txt "False Positive") then [(2%N, txt "always")] else [].
Example C49_reports_ex : NoDup (map dir_of ex_tests) /\
  (forall t k, t ∈ ex_tests -> k < 12 -> fits (ex_outs t k) /\ clean (ex_outs t k)) /\
  (exists m, instability_reports 12 (all_files ex_tests 12 ex_outs) = Ok [(txt "FooTest.cpp", ([11; 1], m))]).
Proof.
  split; [|split].
  - apply (bool_decide_unpack _). by vm_compute.
  - intros t k _ _. unfold ex_outs.
    destruct (decide _); [|destruct (decide _)].
    + split; [by repeat constructor|]. unfold clean, clean_message. apply (bool_decide_unpack _). by vm_compute.
    + split; [by repeat constructor|]. unfold clean, clean_message. apply (bool_decide_unpack _). by vm_compute.
    + split; constructor.
  - eexists. vm_compute. reflexivity.
Qed.

(** Two tests with the same name whose sources, in different folders, have the same file name write to the same
    files: here the first test fails in the second run only, and nothing is reported. *)
Theorem C49_same_file_name_refuted : exists (t : text * text * text) (first second : nat -> list (N * text)),
  unstable [first 0; first 1] /\
  instability_reports 2
    (write_file (write_file (write_file (write_file [] (file_of t 0) (first 0)) (file_of t 0) (second 0))
                                        (file_of t 1) (first 1)) (file_of t 1) (second 1)) = Ok [].
Proof.
  exists (txt "Utilities", txt ".cpp", txt "Unit Test").
  exists (fun k => match k with 0 => [] | _ => [(1%N, txt "late")] end), (fun _ => []).
  split; [|done]. exists [], [(1%N, txt "late")]. split; [|split; [|done]]; set_solver.
Qed.
Print Assumptions C49_same_file_name_refuted.

(** So do two tests of one source file whose names differ in that one has blanks where the other has underscores. *)
Theorem C49_similar_names_refuted : exists (t t' : text * text * text) (first second : nat -> list (N * text)),
  t <> t' /\ file_of t = file_of t' /\ unstable [first 0; first 1] /\
  instability_reports 2
    (write_file (write_file (write_file (write_file [] (file_of t 0) (first 0)) (file_of t' 0) (second 0))
                                        (file_of t 1) (first 1)) (file_of t' 1) (second 1)) = Ok [].
Proof.
  exists (txt "Utilities", txt ".cpp", txt "Unit Test"), (txt "Utilities", txt ".cpp", txt "Unit_Test").
  exists (fun k => match k with 0 => [] | _ => [(1%N, txt "late")] end), (fun _ => []).
  split; [done|]. split; [done|]. split; [|done]. exists [], [(1%N, txt "late")]. split; [|split; [|done]]; set_solver.
Qed.
Print Assumptions C49_similar_names_refuted.

(** Names which differ otherwise have different folders. *)
Theorem C49_different_names s e n n' : dir_of (s, e, n) = dir_of (s, e, n') ->
  Forall2 (fun c c' => c = c' \/ (c ∈ txt " _" /\ c' ∈ txt " _")) n n'.
Proof. exact (dir_of_names s e n n'). Qed.
Print Assumptions C49_different_names.

Example C49_different_names_ex : dir_of (txt "A", txt ".cpp", txt "a b_c") = dir_of (txt "A", txt ".cpp", txt "a_b c") /\
  dir_of (txt "A", txt ".cpp", txt "a b_c") <> dir_of (txt "A", txt ".cpp", txt "a_bc").
Proof. done. Qed.
