(** Names of types as written by the compilers. *)
From Coq Require Import Ascii String.
From stdpp Require Import list.
From Verif.Text Require Import Model Spec.
From Verif.Names Require Import Spec.
Local Notation "⌜ s ⌝" := (list_ascii_of_string s%string).

(** What MSVC writes in front of a type which is not built in *)
Inductive keyword := Built_in | Struct | Class | Enum.

(** A type - possibly a template with arguments -, or, as an argument, a number with the suffix its type calls
    for, or a truth value *)
Inductive ty := Ty (k : keyword) (name : text) (args : list ty) | Number (digits suffix : text) | Truth (b : bool).

Definition keyword_text (k : keyword) : text :=
  match k with Built_in => [] | Struct => ⌜"struct "⌝ | Class => ⌜"class "⌝ | Enum => ⌜"enum "⌝ end.

(** gcc and clang: "foo<bar<3ul>, true>" with no blank between closing brackets *)
Fixpoint gcc_text (t : ty) : text :=
  match t with
  | Ty _ n [] => n
  | Ty _ n args => n ++ ⌜"<"⌝ ++ join ⌜", "⌝ (map gcc_text args) ++ ⌜">"⌝
  | Number d s => d ++ s
  | Truth b => if b then ⌜"true"⌝ else ⌜"false"⌝
  end.

(** A closing bracket is set apart from another one. *)
Definition close (l : text) : text := if decide (last l = Some ">"%char) then ⌜" >"⌝ else ⌜">"⌝.

(** MSVC: "struct foo<class bar<3>,1>" with a blank between closing brackets *)
Fixpoint msvc_text (t : ty) : text :=
  match t with
  | Ty k n [] => keyword_text k ++ n
  | Ty k n args => keyword_text k ++ n ++ ⌜"<"⌝ ++ let inner := join ⌜","⌝ (map msvc_text args) in inner ++ close inner
  | Number d _ => d
  | Truth b => if b then ⌜"1"⌝ else ⌜"0"⌝
  end.

(** The common form: "foo<bar<3>, 1>" *)
Fixpoint common_text (t : ty) : text :=
  match t with
  | Ty _ n [] => n
  | Ty _ n args => n ++ ⌜"<"⌝ ++ let inner := join ⌜", "⌝ (map common_text args) in inner ++ close inner
  | Number d _ => d
  | Truth b => if b then ⌜"1"⌝ else ⌜"0"⌝
  end.

(** Names made of letters, underscores and colons, none of them reserved for the implementation, and without
    the words which are treated specially *)
Definition name_char (c : char) : Prop := a_letter c \/ c = underscore \/ c = ":"%char.
Definition treated : list text := [⌜"__"⌝; ⌜"_V"⌝; ⌜"_A"⌝; ⌜"::span"⌝; ⌜"long"⌝; ⌜"true"⌝; ⌜"false"⌝].
Definition name_ok (n : text) : Prop := n <> [] /\ Forall name_char n /\ Forall (fun p => ~ occurs p n) treated.

Fixpoint ty_ok (t : ty) : Prop :=
  match t with
  | Ty _ n args => name_ok n /\ foldr (fun a P => ty_ok a /\ P) True args
  | Number d s => d <> [] /\ Forall a_digit d /\ Forall a_letter s /\ head s <> Some "x"%char
  | Truth _ => True
  end.

Definition is_type (t : ty) : Prop := match t with Ty _ _ _ => True | _ => False end.
