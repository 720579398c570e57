(** Abstract containers: a bounded FIFO list, a bounded LIFO list, a bounded bag (C05-C07). *)
From stdpp Require Import list.
From Verif.Base Require Import Outcome.
From Verif.StaticDS Require Import Model.

(** A FIFO list of at most [n] elements, oldest first.  Reading from an empty queue is undefined;
    popping an empty queue does nothing. *)
Definition fifo_call {T} (n : nat) (l : list T) (c : call T) : option (list T) * obs T :=
  match c with
  | Push v => if decide (length l < n) then (Some (l ++ [v]), Done) else (Some l, Raised LogicError)
  | Pop => (Some (tail l), Done)
  | Peek => match head l with Some v => (Some l, Value v) | None => (None, Undefined) end
  | PeekBack => match last l with Some v => (Some l, Value v) | None => (None, Undefined) end
  | Size => (Some l, Count (length l))
  | IsEmpty => (Some l, Flag (bool_decide (l = [])))
  end.

(** A LIFO list of at most [n] elements, newest first.  Reading from or popping an empty stack is
    undefined. *)
Definition lifo_call {T} (n : nat) (l : list T) (c : call T) : option (list T) * obs T :=
  match c with
  | Push v => if decide (length l < n) then (Some (v :: l), Done) else (Some l, Raised LogicError)
  | Pop => match l with _ :: l' => (Some l', Done) | [] => (None, Undefined) end
  | Peek | PeekBack => match l with v :: _ => (Some l, Value v) | [] => (None, Undefined) end
  | Size => (Some l, Count (length l))
  | IsEmpty => (Some l, Flag (bool_decide (l = [])))
  end.

(** [x] is an element of the bag which no element outranks. *)
Definition maximal {T} (comp : T -> T -> bool) (bag : list T) (x : T) : Prop :=
  x ∈ bag /\ forall y, y ∈ bag -> comp x y = false.

(** A bag of at most [n] elements: which histories a priority queue may exhibit.  The bag is a list
    up to permutation. *)
Inductive bag_history {T} (comp : T -> T -> bool) (n : nat) :
    list T -> list (call T) -> list (obs T) -> Prop :=
  | bag_stop bag : bag_history comp n bag [] []
  | bag_push bag v bag' cs os :
      length bag < n -> bag' ≡ₚ v :: bag -> bag_history comp n bag' cs os ->
      bag_history comp n bag (Push v :: cs) (Done :: os)
  | bag_full bag v cs os :
      length bag = n -> bag_history comp n bag cs os ->
      bag_history comp n bag (Push v :: cs) (Raised LogicError :: os)
  | bag_pop bag x bag' cs os :
      maximal comp bag x -> bag ≡ₚ x :: bag' -> bag_history comp n bag' cs os ->
      bag_history comp n bag (Pop :: cs) (Done :: os)
  | bag_pop_empty cs : bag_history comp n [] (Pop :: cs) [Undefined]
  | bag_top bag x cs os c :
      c = Peek \/ c = PeekBack ->
      maximal comp bag x -> bag_history comp n bag cs os ->
      bag_history comp n bag (c :: cs) (Value x :: os)
  | bag_top_empty cs c : c = Peek \/ c = PeekBack -> bag_history comp n [] (c :: cs) [Undefined]
  | bag_size bag cs os :
      bag_history comp n bag cs os ->
      bag_history comp n bag (Size :: cs) (Count (length bag) :: os)
  | bag_is_empty bag cs os :
      bag_history comp n bag cs os ->
      bag_history comp n bag (IsEmpty :: cs) (Flag (bool_decide (bag = [])) :: os).

(** The state after a history of calls, [None] once behaviour is undefined. *)
Definition after {S T} (step : S -> call T -> option S * obs T) (s : S) (cs : list (call T)) : option S :=
  fold_left (fun o c => o ≫= fun s => (step s c).1) cs (Some s).
