(** Vocabulary for the properties of the recovery and dump files. *)
From Coq Require Import Ascii String.
From stdpp Require Import list.
From Verif.Text Require Import Model.
From Verif.Log Require Import Model Spec.
From Verif.Recovery Require Import Model.
Local Notation length := List.length.
Local Notation concat := List.concat.
Local Open Scope list_scope.
Local Notation "⌜ s ⌝" := (list_ascii_of_string s%string).

(** Events with their nesting flattened out: the sentinels entered and the critical failures, in order. *)
Inductive mark := Enters (message : text) | Fails_badly (message : text).

Fixpoint marks (e : event) : list mark :=
  match e with
  | Scope m es => Enters m :: concat (map marks es)
  | Critical m => [Fails_badly m]
  | _ => []
  end.

Fixpoint progress_marks (p : progress) : list mark :=
  match p with
  | Here es => concat (map marks es)
  | Within es m p' => concat (map marks es) ++ Enters m :: progress_marks p'
  end.

(** What a critical failure adds to the recovery file, and a sentinel to the dump. *)
Definition critical_text (k : mark) : text :=
  match k with
  | Fails_badly m => [nl] ++ ⌜"Critical Failure:"⌝ ++ [nl] ++ m ++ [nl]
  | Enters _ => []
  end.
Definition entered_text (k : mark) : text :=
  match k with
  | Enters m => m ++ [nl]
  | Fails_badly _ => []
  end.

Definition criticals (ks : list mark) : text := concat (map critical_text ks).
Definition entered (ks : list mark) : text := concat (map entered_text ks).
Definition bad (ks : list mark) : bool := existsb (fun k => match k with Fails_badly _ => true | _ => false end) ks.

(** The marks within an outermost check *)
Definition check_marks (c : text * list event) : list mark := concat (map marks (snd c)).

(** The recovery file which names the check with the message [m]. *)
Definition names_check (m : text) (ks : list mark) : text :=
  ⌜"Check started:"⌝ ++ [nl] ++ m ++ [nl] ++ criticals ks.

(** What is dumped for an outermost check which is over. *)
Definition dumped (c : text * list event) : text :=
  fst c ++ [nl] ++ entered (check_marks c) ++ [nl; nl].

Definition all_checks (ts : list test) : list (text * list event) := concat (map snd ts).

(** The outermost checks which are over *)
Definition over (ts : list test) (last : option (test * option (text * progress))) : list (text * list event) :=
  all_checks ts ++ match last with None => [] | Some (t, _) => snd t end.
Definition open_check (last : option (test * option (text * progress))) : option (text * progress) :=
  match last with Some (_, o) => o | None => None end.

(** The last line of a recovery file says that its check is over. *)
Definition is_over (t : text) : Prop := exists u, t = u ++ [nl] ++ ⌜"Check ended"⌝ ++ [nl].

(** The last line of a message is the one which ends a check. *)
Definition ends_with_ended (m : text) : Prop := exists u, [nl] ++ m = u ++ [nl] ++ ⌜"Check ended"⌝.

(** The message written last to the recovery file: that of the last critical failure, otherwise that of
    the check. *)
Fixpoint last_text (m : text) (ks : list mark) : text :=
  match ks with
  | [] => m
  | Fails_badly x :: ks' => last_text x ks'
  | Enters _ :: ks' => last_text m ks'
  end.

(** The check which the recovery file is about: the open one, otherwise the last one which is over. *)
Definition current (ts : list test) (last : option (test * option (text * progress))) : option (text * list mark) :=
  match open_check last with
  | Some (m, p) => Some (m, progress_marks p)
  | None => match stdpp.list.last (over ts last) with
            | Some c => Some (fst c, check_marks c)
            | None => None
            end
  end.
