(** Model of the text of summaries, [Source/sequoia/TestFramework/Summary.{hpp,cpp}].

    A duration is a count of nanoseconds (libstdc++'s [steady_clock]); it is a 64-bit integer in the code. The counts of a
    summary are those of [Log.Model.summary], below [2 ^ 64]. *)
From Coq Require Import Ascii String.
From stdpp Require Import list.
From Verif.Base Require Import Outcome.
From Verif.Text Require Import Model.
From Verif.Failure Require Import Model.
From Verif.Log Require Import Model.
Local Open Scope res_scope.
Local Notation "⌜ s ⌝" := (list_ascii_of_string s%string).
Local Notation length := List.length.

(** [std::to_string] of an unsigned number. *)
Definition number (z : Z) : text := decimal (Z.to_N z).

(** ** Durations *)

(** The integer next to [p / q]; from the middle, to the even one. *)
Definition nearest_even (p q : Z) : Z :=
  let r := (p / q)%Z in
  let t := (2 * (p mod q))%Z in
  if (t <? q)%Z then r else if (q <? t)%Z then (r + 1)%Z else if Z.even r then r else (r + 1)%Z.

(** The IEEE 754 double next to [n / d], for positive numbers: [(m, s)] stands for [m / 2 ^ s]. ([s] is negative for large
    quotients. The range of the exponent is not limited here: the quotients below are between 1 and [2 ^ 63].) *)
Definition double_scale (n d : Z) : Z :=
  let s := (52 - (Z.log2 n - Z.log2 d))%Z in
  if (n * 2 ^ Z.max 0 s <? 2 ^ 52 * d * 2 ^ Z.max 0 (- s))%Z then (s + 1)%Z else s.
Definition double_of (n d : Z) : Z * Z :=
  let s := double_scale n d in
  (nearest_even (n * 2 ^ Z.max 0 s) (d * 2 ^ Z.max 0 (- s)), s).
(** Numerator and denominator. *)
Definition num (x : Z * Z) : Z := (fst x * 2 ^ Z.max 0 (- snd x))%Z.
Definition den (x : Z * Z) : Z := (2 ^ Z.max 0 (snd x))%Z.

(** The exponent of the first decimal digit of [p / q >= 1]. *)
Fixpoint exponent (fuel : nat) (p q : Z) : nat :=
  match fuel with
  | 0 => 0
  | S fuel' => if (q * 10 <=? p)%Z then S (exponent fuel' p (q * 10)) else 0
  end.

(** Three digits and an exponent: [(m, e)] stands for [m * 10 ^ (e - 2)]. *)
Definition three_digits (p q : Z) : Z * nat :=
  let e := exponent 20 p q in
  let m := if (e <=? 2)%nat then nearest_even (p * 10 ^ (2 - Z.of_nat e)) q else nearest_even p (q * 10 ^ (Z.of_nat e - 2)) in
  if (m =? 1000)%Z then (100%Z, S e) else (m, e).

(** Trailing zeros, and then a point, are removed. *)
Fixpoint strip_zeros (l : text) : text :=
  match l with
  | c :: l' => if decide (c = "0"%char) then strip_zeros l' else if decide (c = "."%char) then l' else l
  | [] => []
  end.
Definition stripped (l : text) : text := reverse (strip_zeros (reverse l)).

(** [ss << std::setprecision(3) << x], for [x >= 1]: the format [%.3g] of [printf]. *)
Definition shown (p q : Z) : text :=
  let '(m, e) := three_digits p q in
  let ds := number m in
  if (e <=? 2)%nat then stripped (take (S e) ds ++ ⌜"."⌝ ++ drop (S e) ds)
  else stripped (take 1 ds ++ ⌜"."⌝ ++ drop 1 ds) ++ ⌜"e+"⌝ ++ (if (e <? 10)%nat then ⌜"0"⌝ else []) ++ number (Z.of_nat e).

(** Summary.cpp L21-29: [duration_cast<duration<double, Period>>(d)] converts the count to [double], then divides it by the
    number of nanoseconds of the period; both roundings are the ones above. *)
Definition to_string (unit_ d : Z) : text :=
  let x := double_of d 1 in
  let y := double_of (num x) (den x * unit_) in
  shown (num y) (den y).

(** Summary.cpp L33-42. [std::to_string] of a negative count (not met: durations are differences of a monotonic clock) is
    not modelled. *)
Definition stringify (d : Z) : text * text :=
  if (1000000000 <=? d)%Z then (to_string 1000000000 d, ⌜"s"⌝)
  else if (1000000 <=? d)%Z then (to_string 1000000 d, ⌜"ms"⌝)
  else if (1000 <=? d)%Z then (to_string 1000 d, ⌜"us"⌝)
  else (number d, ⌜"ns"⌝).

(** ** Summaries *)

(** Summary.cpp L45-58. *)
Definition report_time (log : summary) (dur : option Z) : text :=
  (match dur with
   | Some d => ⌜"[Total Run Time: "⌝ ++ fst (stringify d) ++ snd (stringify d) ++ ⌜"]"⌝ ++ [nl]
   | None => []
   end)
  ++ ⌜"[Execution Time: "⌝ ++ fst (stringify (duration log)) ++ snd (stringify (duration log)) ++ ⌜"]"⌝ ++ [nl].

(** Summary.hpp L33-44, L46-57; the ranges are not empty. *)
Definition longest (l : list text) : nat := foldr Nat.max 0 (map length l).
Definition pad_right (l : list text) (suffix : text) : list text :=
  map (fun s => s ++ replicate (longest l - length s) " "%char ++ suffix) l.
Definition pad_left (l : list text) (minChars : nat) : list text :=
  map (fun s => replicate (Nat.max (longest l) minChars - length s) " "%char ++ s) l.

(** Summary.hpp L23; the operators are those of [Core/Logic/Bitmask.hpp]. *)
Record detail := mk_detail { absent_checks : bool; failure_messages_ : bool; timings : bool }.

Definition labels : list text :=
  [⌜"Standard Top Level Checks:"⌝; ⌜"Standard Performance Checks:"⌝; ⌜"False Positive Checks:"⌝;
   ⌜"False Positive Performance Checks:"⌝; ⌜"False Negative Checks:"⌝; ⌜"False Negative Performance Checks:"⌝].
Definition checks_of (log : summary) : list Z :=
  [std_top_checks log; std_perf_checks log; fp_checks log; fp_perf_checks log; fn_checks log; fn_perf_checks log].
Definition failures_of (log : summary) : list Z :=
  [std_top_failures log; std_perf_failures log; fp_failures log; fp_perf_failures log; fn_failures log; fn_perf_failures log].

(** Summary.cpp L63-117: the six lines. *)
Definition rows (log : summary) (ind0 ind1 : text) : list text :=
  let minChars := 8 in
  let summaries := pad_right (map (fun s => (ind0 ++ ind1) ++ s) labels) ⌜"  "⌝ in
  let checkNums := pad_left (map number (checks_of log)) minChars in
  let len := 10 - Nat.min minChars (length (default [] (head checkNums))) in
  let summaries := zip_with (fun s n => s ++ (n ++ ⌜";"⌝) ++ replicate len " "%char ++ ⌜"Failures: "⌝) summaries checkNums in
  let failures := pad_left (map number (failures_of log)) 2 in
  let summaries := zip_with app summaries failures in
  match summaries with
  | s :: ss => (if (std_top_checks log =? 0)%Z then s else s ++ (⌜"  [Deep checks: "⌝ ++ number (std_deep_checks log) ++ ⌜"]"⌝)) :: ss
  | [] => []
  end.

(** Summary.cpp L61-166. *)
Definition summarize_text (log : summary) (namesuffix : text) (dur : option Z) (verbosity : detail) (ind0 ind1 : text) : res text :=
  let nm := match name log with [] => [] | _ => name log ++ namesuffix end in
  let? s := indent_ nm ind0 in
  let? s := if timings verbosity then append_indented_ s (report_time log dur) ind0 else Ok (s ++ [nl]) in
  let rs := rows log ind0 ind1 in
  let s :=
    if absent_checks verbosity then s ++ concat (map (fun r => r ++ [nl]) rs)
    else s ++ concat (zip_with (fun r n => if (n =? 0)%Z then [] else r ++ [nl]) rs (checks_of log)) in
  let s :=
    if (s_critical log =? 0)%Z then s
    else s ++ [nl] ++ ⌜"******  Critical Failures:  "⌝ ++ number (s_critical log) ++ ⌜"  ******"⌝ ++ [nl; nl] in
  if failure_messages_ verbosity then append_indented_ s (s_failure_messages log) (ind0 ++ ind1) else Ok s.
