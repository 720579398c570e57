(** Vocabulary for what is logged about an exception which leaves a test. *)
From Coq Require Import Ascii String.
From stdpp Require Import list.
From Verif.Text Require Import Model Spec.
From Verif.Log Require Import Model Spec SpecText.
From Verif.Uncaught Require Import Model.
Local Notation length := List.length.
Local Notation concat := List.concat.
Local Open Scope list_scope.
Local Notation "⌜ s ⌝" := (list_ascii_of_string s%string).

(** The check made by a step *)
Definition check_of (s : step) : text * list event := (message s, events s).

(** Lines; the empty ones are left out *)
Definition in_lines (l : list text) : text := join [nl] (List.filter given l).

(** Where an exception was thrown *)
Inductive place := Before_all (file : text) | During (check : text) | After (check : text).
Definition place_text (p : place) : list text :=
  match p with
  | Before_all file => [⌜"Exception thrown before any checks performed in file"⌝; file]
  | During m => [⌜"Exception thrown during last check"⌝; ⌜"Last Recorded Message:"⌝ ++ [nl]; m]
  | After m => [⌜"Exception thrown after check completed"⌝; ⌜"Last Recorded Message:"⌝ ++ [nl]; m]
  end.
Definition report_text (tag what : text) (p : place) : text :=
  in_lines ((in_lines [⌜"Error -- "⌝ ++ tag ++ ⌜" Exception:"⌝; what] ++ [nl]) :: place_text p).

(** The exception and its tag *)
Definition thrown (f : finish) : option (text * text) :=
  match f with
  | Finishes => None
  | Leaves w => Some (⌜"Unexpected"⌝, w)
  | Leaves_otherwise => Some (⌜"Unknown"⌝, [])
  end.

(** The message of a check once it is over: that of a check which should have failed has this appended. *)
Definition final_message (md : mode) (c : text * list event) : text :=
  fst c ++ match md with FalseNegative => if fails md c then no_failure c else [] | _ => [] end.

(** The place which is reported. *)
Definition reported_place (md : mode) (file : text) (ss : list step) : place :=
  match last ss with
  | None => Before_all file
  | Some s =>
      let m := final_message md (check_of s) in
      if decide (m = []) then Before_all file
      else if decide (flight s = 0) then After m else During m
  end.

(** The place where the exception was thrown; [inside]: within the last check. *)
Definition true_place (md : mode) (file : text) (inside : bool) (ss : list step) : place :=
  match last ss with
  | None => Before_all file
  | Some s => if inside then During (final_message md (check_of s)) else After (final_message md (check_of s))
  end.

(** [inside] is as it can be: the last check has been left by an exception. *)
Definition plausible (inside : bool) (ss : list step) : Prop :=
  inside = true -> exists s, last ss = Some s /\ unwound s = true.

(** The checks of a test, with the exception as a check of its own. *)
Definition as_checks (md : mode) (file : text) (ss : list step) (f : finish) : list (text * list event) :=
  map check_of ss ++
  match thrown f with
  | None => []
  | Some (tag, w) => [([], [Critical (report_text tag w (reported_place md file ss))])]
  end.
