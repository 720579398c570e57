(** What the texts of summaries are to be. *)
From Coq Require Import Ascii String ZArith.
From stdpp Require Import list.
From Verif.Base Require Import Outcome.
From Verif.Text Require Import Model Spec.
From Verif.Failure Require Import Model.
From Verif.Log Require Import Model.
Local Notation "⌜ s ⌝" := (list_ascii_of_string s%string).
Local Notation length := List.length.

(** ** Reading of numbers *)
Definition digit (c : char) : option Z :=
  if ((48 <=? code c) && (code c <=? 57))%nat then Some (Z.of_nat (code c) - 48)%Z else None.
Fixpoint digits_value (acc : Z) (l : text) : option Z :=
  match l with
  | [] => Some acc
  | c :: l' => match digit c with Some d => digits_value (10 * acc + d) l' | None => None end
  end.
(** What stands in front of the first [c], and behind it. *)
Fixpoint cut (c : char) (l : text) : text * option text :=
  match l with
  | [] => ([], None)
  | x :: l' => if decide (x = c) then ([], Some l') else let r := cut c l' in (x :: fst r, snd r)
  end.
(** [Some (v, k, e)]: the text reads [v * 10 ^ e / 10 ^ k], with [k] digits behind the point. *)
Definition read_number (l : text) : option (Z * Z * Z) :=
  let a := cut "e"%char l in
  let b := cut "."%char (fst a) in
  match fst b, snd b, digits_value 0 (fst b ++ default [] (snd b)), snd a with
  | [], _, _, _ => None
  | _, Some [], _, _ => None
  | _, f, Some v, None => Some (v, Z.of_nat (length (default [] f)), 0%Z)
  | _, f, Some v, Some (x :: ds) =>
      if decide (x = "+"%char) then
        match ds, digits_value 0 ds with
        | _ :: _ :: _, Some e => Some (v, Z.of_nat (length (default [] f)), e)
        | _, _ => None
        end
      else None
  | _, _, _, _ => None
  end.
(** No more than three digits are shown, none of them a zero at the end of the digits behind the point. *)
Definition short (l : text) : bool :=
  let b := cut "."%char (fst (cut "e"%char l)) in
  (length (fst b ++ default [] (snd b)) <=? 3)%nat && bool_decide (last (default [] (snd b)) <> Some "0"%char).

(** ** Summaries *)

(** [t] at the end of [w] columns. *)
Definition right_aligned (w : nat) (t : text) : text := replicate (w - length t) " "%char ++ t.
Definition left_aligned (w : nat) (t : text) : text := t ++ replicate (w - length t) " "%char.
(** The lines of a text with an indentation, apart from empty lines. *)
Definition indented (ind l : text) : text := join [nl] (map (indent_line ind) (lines l)).

(** A line of the table: label, number of checks, number of failures, and something behind; [w] and [f] are the widths of
    the columns of numbers. *)
Definition row (ind : text) (w f : nat) (label checks failures behind : text) : text :=
  ind ++ left_aligned 34 label ++ ⌜"  "⌝ ++ right_aligned w checks ++ ⌜";  Failures: "⌝ ++ right_aligned f failures ++ behind ++ [nl].
(** The width of a column: at least [least], and as small as the numbers allow. *)
Definition column (least : nat) (w : nat) (ts : list text) : Prop :=
  least <= w /\ Forall (fun t => length t <= w) ts /\ (w = least \/ exists t, t ∈ ts /\ length t = w).
(** [[name: time]] on a line *)
Definition time_line (what : text) (t : text * text) : text := ⌜"["⌝ ++ what ++ ⌜" Time: "⌝ ++ fst t ++ snd t ++ ⌜"]"⌝ ++ [nl].

(** The kinds of checks of a summary, with the numbers of checks and failures. *)
Definition kinds (s : summary) : list (text * Z * Z) :=
  [(⌜"Standard Top Level Checks:"⌝, std_top_checks s, std_top_failures s);
   (⌜"Standard Performance Checks:"⌝, std_perf_checks s, std_perf_failures s);
   (⌜"False Positive Checks:"⌝, fp_checks s, fp_failures s);
   (⌜"False Positive Performance Checks:"⌝, fp_perf_checks s, fp_perf_failures s);
   (⌜"False Negative Checks:"⌝, fn_checks s, fn_failures s);
   (⌜"False Negative Performance Checks:"⌝, fn_perf_checks s, fn_perf_failures s)].
Definition in_digits (z : Z) : text := decimal (Z.to_N z).
(** Only the first line has something behind, namely the number of deep checks. *)
Definition deep (s : summary) : text :=
  if decide (std_top_checks s = 0%Z) then [] else ⌜"  [Deep checks: "⌝ ++ in_digits (std_deep_checks s) ++ ⌜"]"⌝.
Definition table (everything : bool) (w f : nat) (s : summary) (ind : text) : text :=
  concat (imap (fun i k => match k with (l, c, n) =>
                  if everything || negb (bool_decide (c = 0%Z))
                  then row ind w f l (in_digits c) (in_digits n) (if decide (i = 0) then deep s else []) else [] end) (kinds s)).

(** The times, and name and times. *)
Definition times (total : option (text * text)) (execution : text * text) : text :=
  match total with Some t => time_line ⌜"Total Run"⌝ t | None => [] end ++ time_line ⌜"Execution"⌝ execution.
Definition heading (nm suffix ind : text) (ts : option text) : text :=
  match nm with
  | [] => default [nl] ts
  | _ => indented ind (nm ++ suffix) ++ [nl] ++ indented ind (default [] ts)
  end.
Definition critical_text (s : summary) : text :=
  if decide (s_critical s = 0%Z) then []
  else [nl] ++ ⌜"******  Critical Failures:  "⌝ ++ in_digits (s_critical s) ++ ⌜"  ******"⌝ ++ [nl; nl].
Definition messages_text (ind messages : text) : text :=
  match messages with [] => [] | _ => [nl] ++ indented ind messages end.
