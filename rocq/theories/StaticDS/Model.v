(** Model of Source/sequoia/Core/ContainerUtilities/ArrayUtilities.hpp (to_array) and of
    Source/sequoia/Core/DataStructures/{StaticQueue, StaticStack, StaticPriorityQueue}.hpp.

    [std::array<T, N>] is a list of length N; [std::size_t] is nat. *)
From stdpp Require Import list.
From Verif.Base Require Import Outcome.
From Verif.Algo Require Import Model.
Local Open Scope res_scope.

Section array.
  Context {I T : Type} (fn : I -> T).

  (** ArrayUtilities.hpp L26-42, [impl::to_element].  [dflt] is [Some d] when the element type
      is default constructible, [d] being the value-initialized element (L33), [None] otherwise
      (L37-40). *)
  Definition to_element (dflt : option I) (l : list I) (i : nat) : res T :=
    match dflt with
    | Some d =>
      if decide (i < length l) then let? x := rget l i in Ok (fn x)         (* L33 *)
      else Ok (fn d)
    | None =>
      if decide (length l < i) then Throw LogicError                        (* L37-38 *)
      else let? x := rget l i in Ok (fn x)                                  (* L40 *)
    end.

  (** ArrayUtilities.hpp L44-50, [impl::to_array]: the elements of the braced list are evaluated
      from left to right. *)
  Fixpoint to_elements (dflt : option I) (l : list I) (i k : nat) : res (list T) :=
    match k with
    | O => Ok []
    | S k' =>
      let? x := to_element dflt l i in
      let? xs := to_elements dflt l (i + 1) k' in
      Ok (x :: xs)
    end.

  (** ArrayUtilities.hpp L53-63, [to_array<T, N>(list, fn)]. *)
  Definition to_array (dflt : option I) (n : nat) (l : list I) : res (list T) :=
    if decide (n < length l) then Throw OutOfRange                          (* L58-60 *)
    else to_elements dflt l 0 n.                                            (* L62 *)
End array.

(** ** static_queue *)
Section queue.
  Context {T : Type}.

  (** StaticQueue.hpp L142-144: the data members. *)
  Record queue := Queue { q_arr : list T; q_front : nat; q_back : nat }.

  (** StaticQueue.hpp L29-34: the constructor. *)
  Definition queue_make (dflt : option T) (n : nat) (l : list T) : res queue :=
    let? a := to_array (fun x => x) dflt n l in                             (* L30 *)
    Ok (Queue a (if decide (length l = 0) then n else 0)                    (* L31 *)
              (if decide (length l = 0) then n else length l - 1)).         (* L32 *)

  (** StaticQueue.hpp L94-98. *)
  Definition queue_empty (n : nat) (q : queue) : bool := bool_decide (q_front q = n).

  (** StaticQueue.hpp L100-115. *)
  Definition queue_size (n : nat) (q : queue) : nat :=
    if queue_empty n q then 0
    else if decide (q_front q <= q_back q) then q_back q + 1 - q_front q
    else n + 1 - (q_front q - q_back q).

  (** StaticQueue.hpp L43-67, [push].  The exception is thrown before any member is changed. *)
  Definition queue_push (n : nat) (q : queue) (v : T) : res queue :=
    if decide (0 < n) then                                                  (* L45 *)
      if decide (queue_size n q = n) then Throw LogicError                  (* L47-50 *)
      else
        let f := if decide (q_front q = n) then 0 else q_front q in         (* L51-53 *)
        let b := if decide (q_front q = n) then 0                           (* L54 *)
                 else (q_back q + 1) `mod` n in                             (* L58 *)
        let? a := rset (q_arr q) b v in                                     (* L61 *)
        Ok (Queue a f b)
    else Throw LogicError.                                                  (* L65 *)

  (** StaticQueue.hpp L69-79. *)
  Definition queue_back (q : queue) : res T := rget (q_arr q) (q_back q).
  Definition queue_front (q : queue) : res T := rget (q_arr q) (q_front q).

  (** StaticQueue.hpp L81-92, [pop]. *)
  Definition queue_pop (n : nat) (q : queue) : queue :=
    if decide (q_front q = q_back q) then Queue (q_arr q) n n               (* L83-86 *)
    else Queue (q_arr q) ((q_front q + 1) `mod` n) (q_back q).              (* L90 *)

  (** StaticQueue.hpp L125-132: the loop of [operator==]; [k] iterations remain. *)
  Fixpoint queue_eq_loop (eqb : T -> T -> bool) (n : nat) (a b : list T) (l r k : nat) : res bool :=
    match k with
    | O => Ok true                                                          (* L134 *)
    | S k' =>
      let? x := rget a l in
      let? y := rget b r in
      if negb (eqb x y) then Ok false                                       (* L128 *)
      else queue_eq_loop eqb n a b ((l + 1) `mod` n) ((r + 1) `mod` n) k'   (* L130-131 *)
    end.

  (** StaticQueue.hpp L117-140, [operator==]. *)
  Definition queue_eq (eqb : T -> T -> bool) (n : nat) (p q : queue) : res bool :=
    if decide (0 < n) then                                                  (* L120 *)
      let sz := queue_size n p in                                           (* L122 *)
      if decide (sz = queue_size n q) then                                  (* L123 *)
        queue_eq_loop eqb n (q_arr p) (q_arr q) (q_front p) (q_front q) sz
      else Ok false
    else Ok true.                                                           (* L138 *)
End queue.
Arguments queue : clear implicits.

(** ** static_stack *)
Section stack.
  Context {T : Type}.

  (** StaticStack.hpp L80-83: the data members. *)
  Record stack := Stack { s_arr : list T; s_end : nat }.

  (** StaticStack.hpp L29-33: the constructor. *)
  Definition stack_make (dflt : option T) (n : nat) (l : list T) : res stack :=
    let? a := to_array (fun x => x) dflt n l in
    Ok (Stack a (length l)).

  (** StaticStack.hpp L42-49, [push]. *)
  Definition stack_push (n : nat) (s : stack) (v : T) : res stack :=
    if decide (s_end s = n) then Throw LogicError                           (* L44-45 *)
    else
      let? a := rset (s_arr s) (s_end s) v in                               (* L47 *)
      Ok (Stack a (s_end s + 1)).                                           (* L48 *)

  (** StaticStack.hpp L51-55, [top]: on an empty stack the index wraps to the largest size_t,
      which is outside the array. *)
  Definition stack_top (s : stack) : res T :=
    if decide (s_end s = 0) then UB else rget (s_arr s) (s_end s - 1).

  (** StaticStack.hpp L57-60, [pop].  Simplification: popping an empty stack wraps [m_End] around
      (after which any access is out of bounds); the model reports UB at once. *)
  Definition stack_pop (s : stack) : res stack :=
    if decide (s_end s = 0) then UB else Ok (Stack (s_arr s) (s_end s - 1)).

  (** StaticStack.hpp L62-72. *)
  Definition stack_empty (s : stack) : bool := bool_decide (s_end s = 0).
  Definition stack_size (s : stack) : nat := s_end s.

  (** [std::ranges::equal] of two ranges, by its standard specification. *)
  Fixpoint ranges_equal (eqb : T -> T -> bool) (a b : list T) : bool :=
    match a, b with
    | [], [] => true
    | x :: a', y :: b' => eqb x y && ranges_equal eqb a' b'
    | _, _ => false
    end.

  (** StaticStack.hpp L74-79, [operator==]. *)
  Definition stack_eq (eqb : T -> T -> bool) (s t : stack) : bool :=
    bool_decide (s_end s = s_end t)
    && ranges_equal eqb (take (s_end s) (s_arr s)) (take (s_end t) (s_arr t)).
End stack.
Arguments stack : clear implicits.

(** ** static_priority_queue *)
Section pqueue.
  Context {T : Type} (comp : T -> T -> bool).

  (** StaticPriorityQueue.hpp L95-97: the data members ([m_Compare] is the section variable). *)
  Record pqueue := PQueue { pq_arr : list T; pq_end : nat }.

  (** StaticPriorityQueue.hpp L101-107, [make_Q]: note that the whole array is made a heap. *)
  Definition make_Q (dflt : option T) (n : nat) (l : list T) : res (list T) :=
    let? q := to_array (fun x => x) dflt n l in                             (* L103 *)
    make_heap comp (fun x => x) q (length q).                               (* L104 *)

  (** StaticPriorityQueue.hpp L35-44: the constructors from a list. *)
  Definition pq_make (dflt : option T) (n : nat) (l : list T) : res pqueue :=
    let? a := make_Q dflt n l in
    Ok (PQueue a (length l)).

  (** StaticPriorityQueue.hpp L31, L33: the default constructor value-initializes the array (L95). *)
  Definition pq_default (d : T) (n : nat) : pqueue := PQueue (replicate n d) 0.

  (** StaticPriorityQueue.hpp L54-62, [push]. *)
  Definition pq_push (n : nat) (q : pqueue) (v : T) : res pqueue :=
    if decide (pq_end q = n) then Throw LogicError                          (* L56-57 *)
    else
      let? a := rset (pq_arr q) (pq_end q) v in                             (* L59 *)
      let? a' := bubble_up comp (fun x => x) a (pq_end q + 1 - 1) in        (* L61 *)
      Ok (PQueue a' (pq_end q + 1)).

  (** StaticPriorityQueue.hpp L64-68, [top].  Simplification: on an empty queue the code reads a
      stale element of the array (or outside it when N = 0); the model reports UB. *)
  Definition pq_top (q : pqueue) : res T :=
    if decide (pq_end q = 0) then UB else rget (pq_arr q) 0.

  (** StaticPriorityQueue.hpp L70-75, [pop]; on an empty queue L72 forms an iterator before the
      array: UB. *)
  Definition pq_pop (q : pqueue) : res pqueue :=
    if decide (pq_end q = 0) then UB
    else
      let? a := rswap (pq_arr q) 0 (pq_end q - 1) in                        (* L72 *)
      let? a' := make_heap comp (fun x => x) a (pq_end q - 1) in            (* L73-74 *)
      Ok (PQueue a' (pq_end q - 1)).

  (** StaticPriorityQueue.hpp L77-87. *)
  Definition pq_empty (q : pqueue) : bool := bool_decide (pq_end q = 0).
  Definition pq_size (q : pqueue) : nat := pq_end q.
End pqueue.
Arguments pqueue : clear implicits.

(** ** Client histories *)

(** The calls a client may make on a queue, stack or priority queue ([Peek] is front()/top(),
    [PeekBack] is back(), queue only). *)
Inductive call (T : Type) :=
  | Push (v : T)
  | Pop
  | Peek
  | PeekBack
  | Size
  | IsEmpty.
Arguments Push {T} v.
Arguments Pop {T}.
Arguments Peek {T}.
Arguments PeekBack {T}.
Arguments Size {T}.
Arguments IsEmpty {T}.

(** What the client observes of a call. *)
Inductive obs (T : Type) :=
  | Done
  | Raised (e : exn)
  | Value (v : T)
  | Count (n : nat)
  | Flag (b : bool)
  | Undefined.
Arguments Done {T}.
Arguments Raised {T} e.
Arguments Value {T} v.
Arguments Count {T} n.
Arguments Flag {T} b.
Arguments Undefined {T}.

(** A call on a state gives an observation and, unless behaviour is undefined, a next state.
    After an exception the state is the one before the call (all three [push]es throw before
    changing any member: StaticQueue.hpp L47-50, StaticStack.hpp L44-45,
    StaticPriorityQueue.hpp L56-57). *)
Definition upd {S T} (s : S) (r : res S) : option S * obs T :=
  match r with
  | Ok s' => (Some s', Done)
  | Throw e => (Some s, Raised e)
  | UB | NoFuel => (None, Undefined)
  end.
Definition val {S T} (s : S) (r : res T) : option S * obs T :=
  match r with
  | Ok v => (Some s, Value v)
  | Throw e => (Some s, Raised e)
  | UB | NoFuel => (None, Undefined)
  end.

(** The public interface of static_queue (StaticQueue.hpp L43-115), as calls. *)
Definition queue_call {T} (n : nat) (q : queue T) (c : call T) : option (queue T) * obs T :=
  match c with
  | Push v => upd q (queue_push n q v)
  | Pop => (Some (queue_pop n q), Done)
  | Peek => val q (queue_front q)
  | PeekBack => val q (queue_back q)
  | Size => (Some q, Count (queue_size n q))
  | IsEmpty => (Some q, Flag (queue_empty n q))
  end.

(** The public interface of static_stack (StaticStack.hpp L42-72), as calls. *)
Definition stack_call {T} (n : nat) (s : stack T) (c : call T) : option (stack T) * obs T :=
  match c with
  | Push v => upd s (stack_push n s v)
  | Pop => upd s (stack_pop s)
  | Peek | PeekBack => val s (stack_top s)
  | Size => (Some s, Count (stack_size s))
  | IsEmpty => (Some s, Flag (stack_empty s))
  end.

(** The public interface of static_priority_queue (StaticPriorityQueue.hpp L54-87), as calls. *)
Definition pq_call {T} (comp : T -> T -> bool) (n : nat) (q : pqueue T) (c : call T)
  : option (pqueue T) * obs T :=
  match c with
  | Push v => upd q (pq_push comp n q v)
  | Pop => upd q (pq_pop comp q)
  | Peek | PeekBack => val q (pq_top q)
  | Size => (Some q, Count (pq_size q))
  | IsEmpty => (Some q, Flag (pq_empty q))
  end.

(** A history of calls; it stops at undefined behaviour. *)
Fixpoint history {S T} (step : S -> call T -> option S * obs T) (s : S) (cs : list (call T))
  : list (obs T) :=
  match cs with
  | [] => []
  | c :: cs' =>
    match step s c with
    | (Some s', o) => o :: history step s' cs'
    | (None, o) => [o]
    end
  end.
