(** What is expected of a comparison of strings. *)
From Coq Require Import Ascii String.
From stdpp Require Import list.
From Verif.Base Require Import Outcome.
From Verif.Text Require Import Model Spec.
From Verif.TextCheck Require Import Model.

(** The texts agree up to [p], where they do not. *)
Definition first_difference (a b : text) (p : nat) : Prop := take p a = take p b ∧ a !! p ≠ b !! p.

Definition differ_by (a b : text) (p : nat) (d : difference) : Prop :=
  match d with
  | Characters c c' => a !! p = Some c ∧ b !! p = Some c'
  | Missing c' => a !! p = None ∧ b !! p = Some c'
  | Excess c => a !! p = Some c ∧ b !! p = None
  end.

(** A piece of text as it is shown: a line break in front is written out, as is one more if there is nothing else. *)
Definition rendered (w : text) : text :=
  match w with
  | [] => []
  | c :: w' => if decide (c = nl) then escaped ++ (if decide (w' = [nl]) then escaped else w') else w
  end.

(** [s] shows the [n] characters of [l] from [i] on, with dots where something is left out; the position [p] is among
    them, or just behind them if it holds a line break or is the end of the text; there are at most 30 characters, and no line
    break, in front of it. *)
Definition shows (l : text) (p : nat) (s : text) (i n : nat) (t : bool) : Prop :=
  i <= p ∧ p - i <= 30 ∧ (∀ j, i < j < p → l !! j ≠ Some nl) ∧
  (p < i + n ∨ p = i + n ∧ (l !! p = Some nl ∨ l !! p = None)) ∧ i + n <= List.length l ∧
  s = (if decide (0 < i) then dots else []) ++ rendered (take n (drop i l)) ++ (if t then dots else []) ∧
  (i + n < List.length l → t = true) ∧ (t = true → i + n < List.length l ∨ take n (drop i l) = [nl; nl]).

(** What is shown begins at the start of the text, 30 characters in front of the first difference, or with the line break in front of
    it; or with the difference if it is a line break, and there is none in front in case both texts go on. *)
Definition context (a b : text) (p i : nat) : Prop :=
  i = 0 ∨ p - i = 30 ∨ i < p ∧ a !! i = Some nl ∨
  i = p ∧ (a !! p = Some nl ∨ b !! p = Some nl) ∧ (is_Some (a !! p) → is_Some (b !! p) → ∀ j, j < p → a !! j ≠ Some nl).
