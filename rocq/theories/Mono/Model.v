(** Model of Source/sequoia/Maths/Sequences/MonotonicSequence.hpp.

    The container [m_Sequence] (L219) is a list; an iterator is an index into it.  An iterator
    outside [begin, end] is undefined behaviour. *)
From stdpp Require Import list.
From Verif.Base Require Import Outcome.
From Verif.StaticDS Require Import Model.
Local Open Scope res_scope.

Section mono.
  Context {T : Type} (comp : T -> T -> bool).

  (** MonotonicSequence.hpp L236-240: the loop of [check]; [k] iterations remain, at index [i]. *)
  Fixpoint check_loop (s : list T) (i k : nat) : res unit :=
    match k with
    | O => Ok tt
    | S k' =>
      let? x := rget s (i - 1) in
      let? y := rget s i in
      if comp x y then Throw LogicError                                     (* L238-239 *)
      else check_loop s (i + 1) k'
    end.

  (** MonotonicSequence.hpp L232-242, [check]. *)
  Definition check (s : list T) : res unit :=
    if decide (1 < length s) then check_loop s 1 (length s - 1) else Ok tt.

  (** MonotonicSequence.hpp L37-43, L135-139, L221-224: construction from a list or container. *)
  Definition mono_make (l : list T) : res (list T) :=
    let? _ := check l in Ok l.

  (** MonotonicSequence.hpp L226-230: construction when the storage is a [std::array] of [n]
      elements (static_monotonic_sequence, L301-306). *)
  Definition static_mono_make (dflt : option T) (n : nat) (l : list T) : res (list T) :=
    let? a := to_array (fun x => x) dflt n l in
    let? _ := check a in Ok a.

  (** MonotonicSequence.hpp L95-98: the first loop of [mutate]; [k] iterations remain.  [op] may
      throw. *)
  Fixpoint mutate_loop (op : T -> res T) (tmp : list T) (i k : nat) : res (list T) :=
    match k with
    | O => Ok tmp
    | S k' =>
      let? x := rget tmp i in
      let? y := op x in
      let? tmp' := rset tmp i y in
      mutate_loop op tmp' (i + 1) k'
    end.

  (** MonotonicSequence.hpp L103-109: the second loop of [mutate]; [k] is [l - f]. *)
  Fixpoint mutate_check (tmp : list T) (f k : nat) : res unit :=
    match k with
    | O => Ok tt
    | S k' =>
      if decide (f + 1 = length tmp) then Ok tt                             (* L103 *)
      else
        let? x := rget tmp f in
        let? y := rget tmp (f + 1) in
        if comp x y then Throw LogicError                                   (* L105-106 *)
        else mutate_check tmp (f + 1) k'
    end.

  (** MonotonicSequence.hpp L86-113, [mutate].  [first, last) not being a range of the sequence is
      undefined behaviour. *)
  Definition mutate (s : list T) (first last : nat) (op : T -> res T) : res (list T) :=
    if decide (first <= last /\ last <= length s) then
      if decide (first = last) then Ok s                                    (* L89 *)
      else
        let? tmp := mutate_loop op s first (last - first) in                (* L91-98 *)
        let f := if decide (first = 0) then first else first - 1 in         (* L100 *)
        let l := if decide (last = length tmp) then last else last + 1 in   (* L101 *)
        let? _ := mutate_check tmp f (l - f) in
        Ok tmp                                                              (* L111 *)
    else UB.

  (** MonotonicSequence.hpp L115-123, [mutate] with [unsafe_t].  The result is the list as it is left,
      and whether [op] threw. *)
  Fixpoint mutate_unsafe_loop (op : T -> res T) (s : list T) (i k : nat) : list T * res unit :=
    match k with
    | O => (s, Ok tt)
    | S k' =>
      match rget s i with
      | Ok x =>
        match op x with
        | Ok y => mutate_unsafe_loop op (<[i:=y]> s) (i + 1) k'
        | Throw e => (s, Throw e)
        | UB => (s, UB)
        | NoFuel => (s, NoFuel)
        end
      | _ => (s, UB)
      end
    end.
  Definition mutate_unsafe (s : list T) (first last : nat) (op : T -> res T) : list T * res unit :=
    mutate_unsafe_loop op s first (last - first).

  (** MonotonicSequence.hpp L168-174, [push_back]. *)
  Definition push_back (s : list T) (v : T) : res (list T) :=
    match last s with
    | Some b => if comp b v then Throw LogicError else Ok (s ++ [v])
    | None => Ok (s ++ [v])
    end.

  (** MonotonicSequence.hpp L176-184, [insert]; [std::vector::insert] before index [pos]. *)
  Definition insert (s : list T) (pos : nat) (v : T) : res (list T) :=
    if decide (pos <= length s) then
      let? b1 := (if decide (pos = length s) then Ok false
                  else let? x := rget s pos in Ok (comp v x)) in
      let? b2 := (if b1 then Ok true
                  else if decide (pos = 0) then Ok false
                  else let? x := rget s (pos - 1) in Ok (comp x v)) in
      if b2 : bool then Throw LogicError                                    (* L178-181 *)
      else Ok (take pos s ++ v :: drop pos s)                               (* L183 *)
    else UB.

  (** MonotonicSequence.hpp L186-189, [erase(pos)]. *)
  Definition erase (s : list T) (pos : nat) : res (list T) :=
    if decide (pos < length s) then Ok (take pos s ++ drop (pos + 1) s) else UB.

  (** MonotonicSequence.hpp L191-194, [erase(first, last)]. *)
  Definition erase_range (s : list T) (first last : nat) : res (list T) :=
    if decide (first <= last /\ last <= length s) then Ok (take first s ++ drop last s) else UB.

  (** The (checked) modifying interface of monotonic_sequence, L86, L168-194, L211; [Clear] is
      L211-214. *)
  Inductive mcall :=
    | MPushBack (v : T)
    | MInsert (pos : nat) (v : T)
    | MErase (pos : nat)
    | MEraseRange (first last : nat)
    | MClear
    | MMutate (first last : nat) (op : T -> res T).

  Definition mono_call (s : list T) (c : mcall) : res (list T) :=
    match c with
    | MPushBack v => push_back s v
    | MInsert pos v => insert s pos v
    | MErase pos => erase s pos
    | MEraseRange f l => erase_range s f l
    | MClear => Ok []
    | MMutate f l op => mutate s f l op
    end.

  (** A history of calls.  Every member changes [m_Sequence] only once all checks have passed (L111,
      L173, L183), so after an exception the sequence is the one before the call. *)
  Fixpoint mono_run (s : list T) (cs : list mcall) : res (list T) :=
    match cs with
    | [] => Ok s
    | c :: cs' =>
      match mono_call s c with
      | Ok s' => mono_run s' cs'
      | Throw _ => mono_run s cs'
      | UB => UB
      | NoFuel => NoFuel
      end
    end.
End mono.
Arguments mcall : clear implicits.
