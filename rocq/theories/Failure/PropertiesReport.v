(** C49: the name of the source, and the messages, in the reports of instabilities. *)
From Coq Require Import Ascii String NArith.
From stdpp Require Import list.
From Verif.Base Require Import Outcome Compare.
From Verif.Text Require Import Model Spec.
From Verif.Failure Require Import Model Spec Proofs ProofsReport.

Local Notation "'txt' s" := (list_ascii_of_string s%string) (at level 0).

(** The source of the test, which [C49_reports_partial] says is in the report, is named as it is. *)
Theorem C49_source stem e name k : underscore ∉ e -> source_of (file_of (stem, "."%char :: e, name) k) = stem ++ "."%char :: e.
Proof. exact (source_named stem e name k). Qed.
Print Assumptions C49_source.

(** If there is one failure in each run, and all are different, each of the messages is shown once. *)
Theorem C49_messages_partial x y xs : (forall i a b, (x :: y :: xs) !! i = Some a -> (y :: xs) !! i = Some b -> a <> b) ->
  analyse_output (map (fun z => [z]) (x :: y :: xs)) =
    Ok (Some (repeat 1 (S (S (List.length xs))), snd x ++ concat (map (fun z => [nl] ++ txt "vs." ++ [nl; nl] ++ snd z) (y :: xs)))).
Proof. exact (single_messages x y xs). Qed.
Print Assumptions C49_messages_partial.

Example C49_source_ex : underscore ∉ (txt "cpp") /\
  source_of (file_of (txt "My_Test", txt ".cpp", txt "Free Test") 3) = txt "My_Test.cpp".
Proof. split; [|done]. apply (bool_decide_unpack _). by vm_compute. Qed.
Example C49_messages_ex :
  (forall i a b, [(1%N, txt "a"); (1%N, txt "b"); (2%N, txt "a")] !! i = Some a -> [(1%N, txt "b"); (2%N, txt "a")] !! i = Some b -> a <> b) /\
  analyse_output [[(1%N, txt "a")]; [(1%N, txt "b")]; [(2%N, txt "a")]] =
    Ok (Some ([1; 1; 1], txt "a" ++ [nl] ++ txt "vs." ++ [nl; nl] ++ txt "b" ++ [nl] ++ txt "vs." ++ [nl; nl] ++ txt "a")).
Proof. split; [|done]. intros [|[|i]] a b; cbn; intros H H'; by simplify_eq. Qed.
