(** Model of advice and of the texts of failed comparisons:
    Source/sequoia/TestFramework/Advice.hpp and Advice.cpp, BinaryRelationships.hpp, Output.hpp L106-L158, Output.cpp
    L313-L342, FreeCheckers.hpp L285-L297.

    Simplifications: the types which are compared, and the parameters of advisors, are arithmetic types; advisors have one
    function (Advice.hpp L76-L86), both parameters of which have the same type.  The texts of values ([to_string]) are given.
    Character types for wide and for Unicode characters, extended types and pointers are left out. *)
From Coq Require Import Ascii String ZArith.
From stdpp Require Import list.
From Verif.Base Require Import Outcome.
From Verif.Text Require Import Model.
From Verif.Log Require Model.
Local Open Scope res_scope.
Local Notation "⌜ s ⌝" := (list_ascii_of_string s%string).
Local Notation length := List.length.

(** ** Which types advisors are used for *)

(** Arithmetic types. *)
Inductive arith :=
  | Bool | Char | SChar | UChar | Short | UShort | Int | UInt | Long | ULong | LLong | ULLong | Float | Double | LDouble.
Global Instance arith_eq : EqDecision arith.
Proof. solve_decision. Defined.

(** What depends on the implementation: the signedness of char, and the numbers of bits. *)
Record platform := Platform { char_signed : bool; w_short : Z; w_int : Z; w_long : Z; w_llong : Z }.

Section platform.
  Context (p : platform).
  Local Open Scope Z_scope.

  Definition floating (t : arith) : bool := match t with Float | Double | LDouble => true | _ => false end.

  Definition is_signed (t : arith) : bool :=
    match t with
    | Char => char_signed p
    | SChar | Short | Int | Long | LLong => true
    | _ => false
    end.

  Definition width (t : arith) : Z :=
    match t with
    | Bool => 1
    | Char | SChar | UChar => 8
    | Short | UShort => w_short p
    | Int | UInt => w_int p
    | Long | ULong => w_long p
    | LLong | ULLong => w_llong p
    | Float | Double | LDouble => 0
    end.

  (** [conv.rank], of integers and of floating point types separately. *)
  Definition rank (t : arith) : Z :=
    match t with
    | Bool | Float => 0
    | Char | SChar | UChar | Double => 1
    | Short | UShort | LDouble => 2
    | Int | UInt => 3
    | Long | ULong => 4
    | LLong | ULLong => 5
    end.

  Definition half (t : arith) : Z := 2 ^ (width t - 1).
  Definition least (t : arith) : Z := if is_signed t then - half t else 0.
  Definition greatest (t : arith) : Z := if is_signed t then half t - 1 else 2 * half t - 1.

  (** [conv.prom]. *)
  Definition promote (t : arith) : arith :=
    if rank t <? rank Int then
      if (least Int <=? least t) && (greatest t <=? greatest Int) then Int else UInt
    else t.

  Definition unsigned_of (t : arith) : arith :=
    match t with Int => UInt | Long => ULong | LLong => ULLong | t => t end.

  (** [std::common_type_t]: that of a conditional expression, which is the type of both operands, or what the usual arithmetic
      conversions ([expr.arith.conv]) give. *)
  Definition common_type (a b : arith) : arith :=
    if decide (a = b) then a
    else if floating a then if floating b then if rank a <? rank b then b else a else a
    else if floating b then b
    else
      let a := promote a in
      let b := promote b in
      if decide (a = b) then a
      else if eqb (is_signed a) (is_signed b) then if rank a <? rank b then b else a
      else
        let s := if is_signed a then a else b in
        let u := if is_signed a then b else a in
        if rank s <=? rank u then u
        else if greatest u <=? greatest s then s
        else unsigned_of s.

  (** Advice.hpp L85, for an advisor with parameters of type [a] and values of type [t]: arithmetic types convert to each other, so
      that it can be called. *)
  Definition utilize (a t : arith) : bool := bool_decide (common_type a t = a).

  (** L136-L142: the value [z] of an integral type as the advisor sees it: converted to the type of its parameter ([conv.integral]). *)
  Definition seen (a : arith) (z : Z) : Z :=
    match a with
    | Bool => if z =? 0 then 0 else 1
    | _ =>
        let m := z mod (2 * half a) in
        if is_signed a && (half a <=? m) then m - 2 * half a else m
    end.
End platform.

(** ** Texts *)

(** Output.cpp L332-L336; append_lines is that of the model of the texts. *)
Definition prediction_message (obtained prediction : text) : res text :=
  Log.Model.append_lines_ (⌜"Obtained : "⌝ ++ obtained) [⌜"Predicted: "⌝ ++ prediction].

(** Output.cpp L314-L324. *)
Definition operator_message (op ret : text) : text := ⌜"operator"⌝ ++ op ++ ⌜" returned "⌝ ++ ret.
Definition equality_operator_failure_message : text := operator_message ⌜"=="⌝ ⌜"false"⌝.

(** The comparisons with a reporter; the text of the tolerance is given. *)
Inductive comparison := EqualTo | Less | LessEqual | Greater | GreaterEqual | Within (tol : text).

(** BinaryRelationships.hpp L103-L108. *)
Definition relational_failure_message (symbol obtained prediction : text) : res text :=
  prediction_message obtained (symbol ++ ⌜" "⌝ ++ prediction).

(** BinaryRelationships.hpp L79-L156 and, for equality, Output.hpp L142-L158. *)
Definition failure_reporter (final : bool) (c : comparison) (obtained prediction : text) : res text :=
  match c with
  | EqualTo =>
      if final then
        let? m := prediction_message obtained prediction in
        Log.Model.append_lines_ equality_operator_failure_message [m]
      else Ok equality_operator_failure_message
  | Less => relational_failure_message ⌜"<"⌝ obtained prediction
  | LessEqual => relational_failure_message ⌜"<="⌝ obtained prediction
  | Greater => relational_failure_message ⌜">"⌝ obtained prediction
  | GreaterEqual => relational_failure_message ⌜">="⌝ obtained prediction
  | Within tol =>
      let? m := prediction_message obtained prediction in
      Ok (m ++ ⌜" +/- "⌝ ++ tol)
  end.

(** Advice.hpp L181-L200: what the tutor says, and its prefix; both are empty if it cannot be used. *)
Record advice_data := Advice { advice : text; prefix : text }.
Definition no_advice : advice_data := Advice [] [].

(** Advice.cpp L16-L24. *)
Definition append_to (d : advice_data) (message : text) : res text :=
  match advice d with
  | [] => Ok message
  | _ =>
      let? m := Log.Model.append_lines_ message [prefix d] in
      Ok (m ++ advice d)
  end.

(** What is logged. *)
Inductive logged := LogCheck | LogFailure (message : text).

(** FreeCheckers.hpp L285-L297.  [holds]: the result of the comparison. *)
Definition binary_comparison (final : bool) (c : comparison) (holds : bool) (obtained prediction : text) (d : advice_data)
    : res (list logged) :=
  if holds then Ok [LogCheck]
  else
    let? message := failure_reporter final c obtained prediction in
    let? message := append_to d message in
    Ok [LogCheck; LogFailure message].

(** Advice.hpp L184-L194: the advice of a tutor for parameters of type [a], with the function [f] of two integers, for values [x] and
    [y] of the integral type [t]. *)
Definition make_advice (p : platform) (a t : arith) (f : Z -> Z -> text) (pre : text) (x y : Z) : advice_data :=
  if utilize p a t then Advice (f (seen p a x) (seen p a y)) pre else no_advice.

(** SemanticsCheckersDetails.hpp L372-L388: the check that the values [x] and [y] of type [t] are ordered as assumed.  What is compared is
    the result of the comparison of [x] and [y], which is to be true, and the parameters of the tutor have the type [t]; [to_string] and
    [text_of_bool] give the texts of values.  The description of the check is left out (C73). *)
Definition prerequisite (p : platform) (to_string : Z -> text) (text_of_bool : bool -> text) (t : arith) (less : bool) (x y : Z)
    : res (list logged) :=
  let cond := if less then (x <? y)%Z else (y <? x)%Z in
  let? says := prediction_message (to_string (seen p t (Z.b2z cond))) (to_string (seen p t 1%Z)) in
  let d := if utilize p t Bool then Advice says ⌜"Advice: "⌝ else no_advice in
  binary_comparison true EqualTo cond (text_of_bool cond) (text_of_bool true) d.
