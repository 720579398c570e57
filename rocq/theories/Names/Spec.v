(** Vocabulary for the properties of the tidying of names. *)
From Coq Require Import Ascii String.
From stdpp Require Import list.
From Verif.Text Require Import Model Spec.
Local Notation "⌜ s ⌝" := (list_ascii_of_string s%string).
Local Notation length := List.length.

Definition a_digit (c : char) : Prop := c ∈ ⌜"0123456789"⌝.
Global Instance a_digit_dec c : Decision (a_digit c).
Proof. unfold a_digit. apply _. Defined.
Definition a_letter (c : char) : Prop := is_lower c \/ is_upper c.

(** A text in brackets: it starts with an opening bracket which is closed by its last character. *)
Definition group (g : text) : Prop :=
  head g = Some "("%char /\ depth "(" ")" g = 0%Z /\ forall k, 0 < k < length g -> (0 < depth "(" ")" (take k g))%Z.

(** One cast less: a text in brackets directly in front of a digit is gone. *)
Definition uncast (l l' : text) : Prop :=
  exists pre g d post, l = pre ++ g ++ d :: post /\ group g /\ a_digit d /\ l' = pre ++ d :: post.

(** Every opening bracket is closed. *)
Definition all_closed (l : text) : Prop :=
  forall pre post, l = pre ++ "("%char :: post -> exists g rest, "("%char :: post = g ++ rest /\ group g.

(** What should be left of a text in brackets, given what follows. *)
Definition kept (g after : text) : text :=
  match after with
  | d :: _ => if decide (a_digit d) then [] else g
  | [] => g
  end.

(** Numbers with a suffix, each after a text of its own. *)
Record literal := Literal { before : text; digits : text; suffix : text }.

Definition opens (l : text) : Prop := "<"%char ∈ l \/ " "%char ∈ l.
Definition closing (c : char) : Prop := c = ","%char \/ c = ">"%char.

Definition literal_ok (x : literal) : Prop :=
  Forall (fun c => ascii7 c /\ ~ a_digit c) (before x) /\
  (exists l c, before x = l ++ [c] /\ ~ a_letter c /\ c <> underscore /\ c <> "["%char) /\
  (digits x <> [] /\ Forall a_digit (digits x)) /\
  (Forall (fun c => ascii7 c /\ ~ closing c) (suffix x)) /\
  match suffix x with [] => True | c :: _ => a_letter c /\ c <> "x"%char end.

(** The text before the second and later numbers, and the text behind the last, start with a comma or a
    closing bracket. *)
Definition follows (l : text) : Prop := exists c l', l = c :: l' /\ closing c.
Definition literals_ok (xs : list literal) (tail : text) : Prop :=
  Forall literal_ok xs /\
  (forall x xs', xs = x :: xs' -> opens (before x)) /\
  (forall x xs', xs = x :: xs' -> Forall (fun y => follows (before y) /\ opens (List.tail (before y))) xs') /\
  Forall (fun c => ascii7 c /\ ~ a_digit c) tail /\ (xs <> [] -> follows tail).

Definition with_suffixes (xs : list literal) (tail : text) : text :=
  concat (map (fun x => before x ++ digits x ++ suffix x) xs) ++ tail.
Definition without_suffixes (xs : list literal) (tail : text) : text :=
  concat (map (fun x => before x ++ digits x) xs) ++ tail.

(** Texts in brackets, each followed by a text without opening brackets. *)
Definition segments (segs : list (text * text)) : text := concat (map (fun s => s.1 ++ s.2) segs).
Definition kept_segments (segs : list (text * text)) : text := concat (map (fun s => kept s.1 s.2 ++ s.2) segs).
Definition segment_ok (s : text * text) : Prop := group s.1 /\ "("%char ∉ s.2.

(** Each cast is no longer than the text between it and the next bracket. *)
Fixpoint gaps (segs : list (text * text)) : Prop :=
  match segs with
  | [] | [_] => True
  | (g, t) :: rest => (kept g t = g \/ length g <= length t) /\ gaps rest
  end.
