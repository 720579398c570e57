(** Outcomes of modelled C++ calls.

    This file models no particular source file: it fixes the vocabulary in which the
    result of a call is described throughout the development. *)
From stdpp Require Import list.

(** The kinds of C++ exceptions the modelled code throws itself. *)
Inductive exn :=
  | LogicError      (* std::logic_error *)
  | OutOfRange      (* std::out_of_range *)
  | DomainError     (* std::domain_error *)
  | RuntimeError    (* std::runtime_error *)
  | UserError.      (* thrown by a user supplied operation *)

Global Instance exn_eq_dec : EqDecision exn.
Proof. solve_decision. Defined.

(** [Ok a]: normal return.  [Throw e]: an exception propagates.  [UB]: undefined behaviour
    has been reached.  [NoFuel]: the model's recursion bound was exhausted (never identified
    with a normal result; theorems show it does not occur, or that it always does). *)
Inductive res (A : Type) :=
  | Ok (a : A)
  | Throw (e : exn)
  | UB
  | NoFuel.
Global Arguments Ok {A} a.
Global Arguments Throw {A} e.
Global Arguments UB {A}.
Global Arguments NoFuel {A}.

Definition rbind {A B} (m : res A) (f : A -> res B) : res B :=
  match m with
  | Ok a => f a
  | Throw e => Throw e
  | UB => UB
  | NoFuel => NoFuel
  end.

Declare Scope res_scope.
Delimit Scope res_scope with res.
Notation "'let?' x ':=' m 'in' f" := (rbind m (fun x => f))
  (at level 200, x pattern, m at level 100, f at level 200, right associativity) : res_scope.

(** Reading an element of a sequence: outside the sequence is undefined behaviour. *)
Definition rget {A} (l : list A) (i : nat) : res A :=
  match l !! i with
  | Some x => Ok x
  | None => UB
  end.

(** Writing an element of a sequence: outside the sequence is undefined behaviour. *)
Definition rset {A} (l : list A) (i : nat) (x : A) : res (list A) :=
  match l !! i with
  | Some _ => Ok (<[i := x]> l)
  | None => UB
  end.

(** [std::ranges::iter_swap] on two positions of one sequence. *)
Definition rswap {A} (l : list A) (i j : nat) : res (list A) :=
  match l !! i, l !! j with
  | Some x, Some y => Ok (<[i := y]> (<[j := x]> l))
  | _, _ => UB
  end.

Lemma rbind_ok {A B} (m : res A) (f : A -> res B) b :
  rbind m f = Ok b <-> exists a, m = Ok a /\ f a = Ok b.
Proof. destruct m; simpl; split; try (intros (?&?&?)); intros; eauto; try congruence. Qed.
