(** Model of [check_exception_thrown], Source/sequoia/TestFramework/FreeCheckers.hpp L208-L233, L296-L359: what it logs, as an event
    of Log/Model.v, and what it returns. *)
From Coq Require Import Ascii String.
From stdpp Require Import list.
From Verif.Base Require Import Outcome.
From Verif.Text Require Import Model.
From Verif.Log Require Import Model.
Local Open Scope res_scope.
Local Open Scope list_scope.
Local Notation "⌜ s ⌝" := (list_ascii_of_string s%string).
Local Notation length := List.length.

(** Something thrown: its class, what it says (if it is a [std::exception]; virtual), and how it is serialized as an object of a
    given class *)
Record thrown := Thrown { cls : nat; what : text; serialized : nat -> text }.
(** How the function under test ends *)
Inductive ending := Returns | Throws (t : thrown).

Section checks.
  (** [isa c d]: [c] is [d] or derived from it (publicly, and not ambiguously); the number of [std::exception] *)
  Context (isa : nat -> nat -> bool) (std_exception : nat).

  (** exception_message_extractor, L219-L233 *)
  Definition extracted (E : nat) (t : thrown) : text := if isa E std_exception then what t else serialized t E.

  (** default_exception_message_postprocessor, L296-L310 *)
  Definition postprocessed (root m : text) : text :=
    match find_first root m with
    | Some p => take p m ++ drop (p + (length root + 1)) m
    | None => m
    end.

  (** L316-L359, with the default postprocessor.  [body]: what the function logs before it ends; [name]: the information about the
      type [E].  That the descriptions are moved from is not modelled. *)
  Definition check_exception_thrown (root : text) (E : nat) (name description : text) (body : list event) (e : ending) : res (bool * event) :=
    let? message := append_lines_ description [⌜"Expected Exception Type:"⌝; name] in
    match e with
    | Returns => Ok (false, Scope message (Check :: body ++ [Fail ⌜"No exception thrown"⌝]))
    | Throws t =>
      if isa (cls t) E then Ok (true, Scope message (Check :: body ++ [Caught (postprocessed root (extracted E t))]))
      else if isa (cls t) std_exception then
        let? msg := append_lines_ ⌜"Unexpected exception thrown (caught by std::exception&):"⌝ [⌜""""⌝] in
        Ok (false, Scope message (Check :: body ++ [Fail (msg ++ what t ++ [""""%char; nl])]))
      else Ok (false, Scope message (Check :: body ++ [Fail (⌜"Unknown exception thrown"⌝ ++ [nl])]))
    end.
End checks.
