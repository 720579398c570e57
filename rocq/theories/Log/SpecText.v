(** Vocabulary for the text of the messages of the logger. *)
From Coq Require Import Ascii.
From stdpp Require Import list.
From Verif.Text Require Import Model Spec.
From Verif.Log Require Import Model Spec.

Definition given (l : text) : bool := match l with [] => false | _ => true end.

(** A scope: its number, in the order in which the scopes of a check are opened, and its message. *)
Definition scope : Type := nat * text.

(** What is logged, each with the scopes around it, outermost first; and the number of the next scope. *)
Fixpoint located (here : list scope) (n : nat) (e : event) : list (list scope * event) * nat :=
  match e with
  | Scope m es =>
      (fix go es k := match es with
                      | [] => ([], k)
                      | e :: es' => let (l, k1) := located (here ++ [(n, m)]) k e in
                                    let (l', k2) := go es' k1 in (l ++ l', k2)
                      end) es (S n)
  | _ => ([(here, e)], n)
  end.
Definition located_in (c : text * list event) : list (list scope * event) := fst (located [] 0 (Scope (fst c) (snd c))).

Definition failing (e : event) : option text :=
  match e with Fail m | PerfFail m | Critical m => Some m | _ => None end.

(** Text on lines of its own, [depth] steps of two blanks to the right. *)
Definition at_depth (depth : nat) (l : text) : text :=
  join [nl] (map (indent_line (repeat " "%char (2 * depth))) (lines l)).

(** A failure with message [m] below the scopes [here], when the scopes [seen] have been reported before: the
    messages of the scopes which have one and have not been seen, each to the right of the enclosing one, and
    [m], as far to the right as the innermost of them. *)
Definition headed (here : list scope) : list scope := List.filter (fun s => given (snd s)) here.
Definition headings (seen : list nat) (here : list scope) : list text :=
  omap (fun x => x) (imap (fun depth (s : scope) => if decide (fst s ∈ seen) then None else Some (at_depth depth (snd s))) (headed here)).
Definition block (seen : list nat) (here : list scope) (m : text) : text :=
  join [nl] (headings seen here ++ List.filter given [at_depth (length (headed here) - 1) m]).

(** The failures, each with its text. *)
Fixpoint blocks (seen : list nat) (l : list (list scope * event)) : list (event * text) :=
  match l with
  | [] => []
  | (here, e) :: l' =>
      match failing e with
      | Some m => (e, block seen here m) :: blocks (seen ++ map fst here) l'
      | None => blocks seen l'
      end
  end.

(** The scopes named in each of the blocks. *)
Definition failed (e : event) : bool := match failing e with Some _ => true | None => false end.
Fixpoint named (seen : list nat) (l : list (list scope * event)) : list (list nat) :=
  match l with
  | [] => []
  | (here, e) :: l' =>
      if failed e then List.filter (fun n => negb (bool_decide (n ∈ seen))) (map fst (headed here)) :: named (seen ++ map fst here) l'
      else named seen l'
  end.

(** Each failure ends a line; the last one of a check is followed by an empty line and the footer. *)
Definition end_line (l : text) : text := end_block l 1 [].
Definition end_check (l : text) : text := end_block l 2 footer.
Fixpoint ended (l : list text) : list text :=
  match l with
  | [] => []
  | [x] => [end_check x]
  | x :: l' => x :: ended l'
  end.
Definition texts (p : event -> bool) (c : text * list event) : list text :=
  map (fun b => end_line (snd b)) (List.filter (fun b => p (fst b)) (blocks [] (located_in c))).

(** What is said about a check which should have failed and did not, or did not as wanted. *)
Definition no_failure (c : text * list event) : text :=
  end_check (join [nl] (List.filter given [txt_false_negative; fst c])).

Definition check_messages (md : mode) (c : text * list event) : list text :=
  match md with
  | FalseNegative => ended (texts is_critical c) ++ (if fails md c then [no_failure c] else [])
  | _ => ended (texts (fun e => is_failure e || is_critical e) c)
  end.
Definition check_diagnostics (md : mode) (c : text * list event) : list text :=
  match md with
  | Standard => []
  | FalsePositive => if any is_critical (in_check c) || any is_failure (in_check c) then [] else [no_failure c]
  | FalseNegative => (if any is_critical (in_check c) then texts is_failure c else ended (texts is_failure c))
  end.
Definition check_caught (c : text * list event) : list text :=
  omap (fun e => match e with Caught m => Some (end_check (fst c ++ [nl] ++ m)) | _ => None end) (in_check c).

(** The messages of a list, one after the other, each followed by a line break. *)
Definition printed (l : list text) : text := concat (map (fun m => m ++ [nl]) (List.filter given l)).
