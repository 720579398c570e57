(** Conversions of arithmetic types, and where texts begin and end. *)
From Coq Require Import Ascii String ZArith.
From stdpp Require Import list.
From Verif.Text Require Import Model.
From Verif.Advice Require Import Model.
Local Notation "⌜ s ⌝" := (list_ascii_of_string s%string).
Local Open Scope Z_scope.

(** An implementation: types of greater rank have at least as many bits. *)
Definition sane (p : platform) : Prop :=
  8 <= w_short p /\ w_short p <= w_int p /\ 16 <= w_int p /\ w_int p <= w_long p /\ w_long p <= w_llong p.

(** The platforms in use: that of 64 bits, and that of Windows. *)
Definition lp64 : platform := Platform true 16 32 64 64.
Definition llp64 : platform := Platform true 16 32 32 64.

(** The integers which an integral type holds. *)
Definition holds (p : platform) (t : arith) (z : Z) : Prop :=
  floating t = false /\
  if is_signed p t then - 2 ^ (width p t - 1) <= z < 2 ^ (width p t - 1) else 0 <= z < 2 ^ width p t.

(** Narrowing conversions, [dcl.init.list]: from floating point to integral types and conversely, to floating point types of less
    precision, and to integral types which do not hold all values. *)
Definition narrowing (p : platform) (from to : arith) : Prop :=
  if floating from then
    if floating to then
      match from, to with
      | LDouble, Double | LDouble, Float | Double, Float => True
      | _, _ => False
      end
    else True
  else if floating to then True
  else exists z, holds p from z /\ ~ holds p to z.

(** What is told apart by the first line. *)
Definition one_line (t : text) : Prop := nl ∉ t.

(** The relation as it is written. *)
Definition symbol (c : comparison) : option text :=
  match c with
  | Less => Some ⌜"<"⌝ | LessEqual => Some ⌜"<="⌝ | Greater => Some ⌜">"⌝ | GreaterEqual => Some ⌜">="⌝
  | _ => None
  end.

(** What a failed comparison says. *)
Definition predicted (c : comparison) (prediction : text) : text :=
  match c with
  | EqualTo => prediction
  | Within tol => prediction ++ ⌜" +/- "⌝ ++ tol
  | _ => match symbol c with Some s => s ++ ⌜" "⌝ ++ prediction | None => prediction end
  end.
Definition body (c : comparison) (obtained prediction : text) : text :=
  ⌜"Obtained : "⌝ ++ obtained ++ [nl] ++ ⌜"Predicted: "⌝ ++ predicted c prediction.
