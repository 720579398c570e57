(** Vocabulary for the properties of the text functions. *)
From Coq Require Import Ascii.
From stdpp Require Import list.
From Verif.Text Require Import Model.

(** [from] occurs in [l] at position [i]. *)
Definition occurs_at (from l : text) (i : nat) : Prop :=
  exists pre post, l = pre ++ from ++ post /\ length pre = i.
Definition occurs (from l : text) : Prop := exists i, occurs_at from l i.

(** [i] is the first position of [from] in [l]. *)
Definition first_at (from l : text) (i : nat) : Prop :=
  occurs_at from l i /\ forall j, occurs_at from l j -> i <= j.

(** [out] is [l] with the leftmost non-overlapping occurrences of [from] replaced by [to]. *)
Inductive replaced (from to : text) : text -> text -> Prop :=
  | replaced_none l : ~ occurs from l -> replaced from to l l
  | replaced_step pre post out :
      first_at from (pre ++ from ++ post) (length pre) ->
      replaced from to post out ->
      replaced from to (pre ++ from ++ post) (pre ++ to ++ out).

(** The same for those occurrences whose neighbours (in the given text) satisfy the predicates; the
    neighbour beyond an end of the text is the null character.  [prev] is the character before the
    text. *)
Definition last_or (d : char) (l : text) : char := default d (last l).
Definition head_or (d : char) (l : text) : char := default d (head l).

Inductive replaced_if (lp rp : char -> bool) (from to : text) : char -> text -> text -> Prop :=
  | replaced_if_none prev l : ~ occurs from l -> replaced_if lp rp from to prev l l
  | replaced_if_yes prev pre post out :
      first_at from (pre ++ from ++ post) (length pre) ->
      lp (last_or prev pre) = true -> rp (head_or zero post) = true ->
      replaced_if lp rp from to (last_or prev (pre ++ from)) post out ->
      replaced_if lp rp from to prev (pre ++ from ++ post) (pre ++ to ++ out)
  | replaced_if_no prev pre post out :
      first_at from (pre ++ from ++ post) (length pre) ->
      lp (last_or prev pre) = false \/ rp (head_or zero post) = false ->
      replaced_if lp rp from to (last_or prev (pre ++ from)) post out ->
      replaced_if lp rp from to prev (pre ++ from ++ post) (pre ++ from ++ out).

(** No two occurrences of [from] overlap or touch. *)
Definition apart (from l : text) : Prop :=
  forall i j, occurs_at from l i -> occurs_at from l j -> i < j -> i + length from < j.

(** Pieces glued together with [sep] between them. *)
Fixpoint join (sep : text) (ws : list text) : text :=
  match ws with
  | [] => []
  | [w] => w
  | w :: ws' => w ++ sep ++ join sep ws'
  end.

(** The 7-bit characters. *)
Definition ascii7 (c : char) : Prop := nat_of_ascii c < 128.
Definition is_lower (c : char) : Prop := 97 <= nat_of_ascii c <= 122.
Definition is_upper (c : char) : Prop := 65 <= nat_of_ascii c <= 90.

(** [u] is the upper case form of [c]. *)
Definition upper_of (c u : char) : Prop :=
  (is_lower c /\ nat_of_ascii u + 32 = nat_of_ascii c) \/ (~ is_lower c /\ u = c).
Definition lower_of (c u : char) : Prop :=
  (is_upper c /\ nat_of_ascii u = nat_of_ascii c + 32) \/ (~ is_upper c /\ u = c).

(** [v] is the word [w] with its first character in upper case. *)
Definition capitalized (w v : text) : Prop :=
  match w, v with
  | [], [] => True
  | c :: w', u :: v' => upper_of c u /\ v' = w'
  | _, _ => False
  end.

(** The lines of a text: the pieces between line breaks (at least one; the last may be empty). *)
Fixpoint lines (l : text) : list text :=
  match l with
  | [] => [[]]
  | c :: l' => if decide (c = nl) then [] :: lines l'
               else match lines l' with
                    | [] => [[c]]
                    | w :: ws => (c :: w) :: ws
                    end
  end.

(** Every line but the empty ones is prefixed. *)
Definition indent_line (ind w : text) : text := match w with [] => [] | _ => ind ++ w end.

(** Remove a prefix if it is there. *)
Definition unindent_line (ind w : text) : text :=
  if decide (take (length ind) w = ind) then drop (length ind) w else w.

(** [l] ends with at least [n] line breaks. *)
Definition ends_with_breaks (n : nat) (l : text) : Prop := exists l', l = l' ++ repeat nl n.

(** Nesting depth gained over a stretch of text. *)
Definition depth (o c : char) (l : text) : Z :=
  foldr (fun x d => ((if decide (x = o) then 1 else if decide (x = c) then -1 else 0) + d)%Z) 0%Z l.

(** Substitution of a text for a character. *)
Definition subst_char (c : char) (to l : text) : text :=
  concat (map (fun x => if decide (x = c) then to else [x]) l).

(** If no replacement can create an occurrence at or before the place of the replacement, the result
    is free of the pattern. *)
Definition settles (from to : text) : Prop :=
  forall x y, first_at from (x ++ from) (length x) ->
    forall i, occurs_at from (x ++ to ++ y) i -> length x < i.

(** Put [s] between any two adjacent [c]. *)
Fixpoint spread (c s : char) (l : text) : text :=
  match l with
  | [] => []
  | x :: l' => x :: (match l' with
                     | [] => []
                     | y :: _ => if decide (x = c /\ y = c) then [s] else []
                     end) ++ spread c s l'
  end.

Global Instance is_lower_dec c : Decision (is_lower c).
Proof. unfold is_lower. apply _. Defined.
Global Instance is_upper_dec c : Decision (is_upper c).
Proof. unfold is_upper. apply _. Defined.

(** The text with [sep] before every capital, the capitals changed by [f]. *)
Definition at_capitals (sep : text) (f : char -> char) (l : text) : text :=
  concat (map (fun c => if decide (is_upper c) then sep ++ [f c] else [c]) l).

(** A word of a name in snake case: a lower case letter and then anything but capitals and underscores. *)
Definition snake_word (w : text) : Prop :=
  match w with
  | [] => False
  | c :: w' => is_lower c /\ Forall (fun x => ascii7 x /\ ~ is_upper x /\ x <> underscore) w'
  end.

(** A name in camel case is a list of words which each start with a capital and go on without. *)
Definition camel_word (w : text) : Prop :=
  match w with
  | [] => False
  | c :: w' => is_upper c /\ Forall (fun x => ascii7 x /\ ~ is_upper x /\ x <> underscore) w'
  end.
