(** Model of Source/sequoia/Core/DataStructures/PartitionedData.hpp.

    [std::size_t] is nat.  A (const_)partition_iterator is a base iterator, here an index into the
    underlying container, together with a partition index ([None] is [npos]); two iterators are
    compared through their base iterators only (ContainerUtilities/Iterator.hpp L365-368).
    Allocation failure, [reserve] and capacities are not modelled. *)
From stdpp Require Import list.
From Verif.Base Require Import Outcome.
From Verif.StaticDS Require Import Model.
From Verif.Mono Require Import Model.
Local Open Scope res_scope.

(** Standard library operations on vectors, by their standard specification. *)
Definition vec_insert {A} (l : list A) (i : nat) (x : A) : res (list A) :=
  if decide (i <= length l) then Ok (take i l ++ x :: drop i l) else UB.
Definition vec_erase {A} (l : list A) (first last : nat) : res (list A) :=
  if decide (first <= last /\ last <= length l) then Ok (take first l ++ drop last l) else UB.
(** [std::ranges::rotate(first, middle, last)]. *)
Definition vec_rotate {A} (l : list A) (first middle last : nat) : res (list A) :=
  if decide (first <= middle /\ middle <= last /\ last <= length l) then
    Ok (take first l ++ take (last - middle) (drop middle l)
        ++ take (middle - first) (drop first l) ++ drop last l)
  else UB.

(** The calls a client may make.  [PEraseIter p k] is the iterator overload of erase_from_partition
    with the iterator [begin_partition(p) + k]; likewise [PEraseRange p k q m] with the iterators
    [begin_partition(p) + k] and [begin_partition(q) + m]. *)
Inductive pcall (T : Type) :=
  | PAddSlot
  | PInsertSlot (pos : nat)
  | PEraseSlot (n : nat)
  | PSwap (i j : nat)
  | PPush (p : nat) (v : T)
  | PInsert (p pos : nat) (v : T)
  | PErase (p pos : nat)
  | PEraseIter (p k : nat)
  | PEraseRange (p k q m : nat)
  | PClear
  | PSize
  | PNumPartitions
  | PSizeOf (p : nat)
  | PContents (p : nat).
Arguments PAddSlot {T}.
Arguments PInsertSlot {T} pos.
Arguments PEraseSlot {T} n.
Arguments PSwap {T} i j.
Arguments PPush {T} p v.
Arguments PInsert {T} p pos v.
Arguments PErase {T} p pos.
Arguments PEraseIter {T} p k.
Arguments PEraseRange {T} p k q m.
Arguments PClear {T}.
Arguments PSize {T}.
Arguments PNumPartitions {T}.
Arguments PSizeOf {T} p.
Arguments PContents {T} p.

(** What the client observes: nothing, an exception, an iterator (its partition and its distance from
    the beginning of that partition, or [npos]), a number, or the elements of a range. *)
Inductive pobs (T : Type) :=
  | PDone
  | PRaised (e : exn)
  | PIter (p k : nat)
  | PNpos
  | PNum (n : nat)
  | PElems (l : list T)
  | PUndefined.
Arguments PDone {T}.
Arguments PRaised {T} e.
Arguments PIter {T} p k.
Arguments PNpos {T}.
Arguments PNum {T} n.
Arguments PElems {T} l.
Arguments PUndefined {T}.

Section outcome.
  Context {S T : Type}.
  (** A modifying call: an exception leaves the container as it was before the call, since all
      checks precede the modifications. *)
  Definition pres (s : S) (r : res (S * pobs T)) : option S * pobs T :=
    match r with
    | Ok (s', o) => (Some s', o)
    | Throw e => (Some s, PRaised e)
    | UB | NoFuel => (None, PUndefined)
    end.
  Definition pdone (r : res S) : res (S * pobs T) := let? s := r in Ok (s, PDone).
End outcome.

(** A history of calls; it stops at undefined behaviour. *)
Fixpoint phistory {S T} (step : S -> pcall T -> option S * pobs T) (s : S) (cs : list (pcall T))
  : list (pobs T) :=
  match cs with
  | [] => []
  | c :: cs' =>
    match step s c with
    | (Some s', o) => o :: phistory step s' cs'
    | (None, o) => [o]
    end
  end.

(** ** bucketed_sequence *)
(** PartitionedData.hpp L444: the data member. *)
Notation bucketed T := (list (list T)).

Section bucketed.
  Context {T : Type}.

  (** PartitionedData.hpp L464-467. *)
  Definition b_check_for_empty (s : (bucketed T)) : res unit :=
    if decide (length s = 0) then Throw OutOfRange else Ok tt.
  (** PartitionedData.hpp L446-452. *)
  Definition b_check_range (s : (bucketed T)) (i : nat) : res unit :=
    if decide (length s <= i) then Throw OutOfRange else Ok tt.
  (** PartitionedData.hpp L454-462. *)
  Definition b_check_range_pos (s : (bucketed T)) (i pos : nat) : res unit :=
    let? _ := b_check_range s i in
    let? b := rget s i in
    if decide (length b < pos) then Throw OutOfRange else Ok tt.

  (** PartitionedData.hpp L185-188, L190-201, L203-209, L171-177, L251-254. *)
  Definition b_add_slot (s : (bucketed T)) : (bucketed T) := s ++ [[]].
  Definition b_insert_slot (s : (bucketed T)) (pos : nat) : res (bucketed T) :=
    if decide (pos < length s) then vec_insert s pos [] else Ok (b_add_slot s).
  Definition b_erase_slot (s : (bucketed T)) (n : nat) : res (bucketed T) :=
    if decide (n < length s) then vec_erase s n (n + 1) else Ok s.
  Definition b_swap_partitions (s : (bucketed T)) (i j : nat) : res (bucketed T) :=
    if decide (i < length s /\ j < length s) then
      if decide (i = j) then Ok s else rswap s i j
    else Ok s.

  (** PartitionedData.hpp L257-262. *)
  Definition b_push_back (s : (bucketed T)) (i : nat) (v : T) : res (bucketed T) :=
    let? _ := b_check_range s i in
    let? b := rget s i in
    rset s i (b ++ [v]).

  (** PartitionedData.hpp L265-273: with the iterator at position [k] of partition [p]. *)
  Definition b_insert_iter (s : (bucketed T)) (p k : nat) (v : T) : res ((bucketed T) * pobs T) :=
    let? _ := b_check_range s p in                                          (* L268 *)
    let? b := rget s p in
    let? b' := vec_insert b k v in                                          (* L270 *)
    let? s' := rset s p b' in
    Ok (s', PIter p k).                                                     (* L272 *)

  (** PartitionedData.hpp L276-280; [std::ranges::next] with a bound stops at the end. *)
  Definition b_insert (s : (bucketed T)) (p pos : nat) (v : T) : res ((bucketed T) * pobs T) :=
    let? _ := b_check_range_pos s p pos in                                  (* L278 *)
    let? b := rget s p in
    b_insert_iter s p (Nat.min pos (length b)) v.

  (** PartitionedData.hpp L333-338 and L470-479: the iterator for an out of range partition is
      [{m_Buckets.back().end(), npos}]. *)

  (** PartitionedData.hpp L282-296; [it] is the iterator's partition and position. *)
  Definition b_erase_iter (s : (bucketed T)) (it : option (nat * nat)) : res ((bucketed T) * pobs T) :=
    match it with
    | None => let? _ := b_check_for_empty s in Ok (s, PNpos)                (* L285-288, L336-337 *)
    | Some (p, k) =>
      if decide (length s <= p) then let? _ := b_check_for_empty s in Ok (s, PNpos)
      else
        let? b := rget s p in
        if decide (k = length b) then Ok (s, PIter p (length b))            (* L289-292 *)
        else
          let? b' := vec_erase b k (k + 1) in                               (* L294 *)
          let? s' := rset s p b' in
          Ok (s', PIter p k)                                                (* L295 *)
    end.

  (** PartitionedData.hpp L298-318, both iterators with partition and position. *)
  Definition b_erase_range (s : (bucketed T)) (p k q m : nat) : res ((bucketed T) * pobs T) :=
    if decide (length s <= p /\ length s <= q) then                         (* L301-304 *)
      let? _ := b_check_for_empty s in Ok (s, PNpos)
    else if decide (q = p) then                                             (* L305 *)
      if decide (k < m) then                                                (* L307 *)
        let? b := rget s p in
        let? b' := vec_erase b k m in                                       (* L309 *)
        let? s' := rset s p b' in
        Ok (s', PIter p k)
      else Ok (s, PIter p k)                                                (* L313 *)
    else Throw DomainError.                                                 (* L316-317 *)

  (** PartitionedData.hpp L320-324. *)
  Definition b_erase (s : (bucketed T)) (p pos : nat) : res ((bucketed T) * pobs T) :=
    let? _ := b_check_for_empty s in                                        (* L322 *)
    if decide (p < length s) then
      let? b := rget s p in
      b_erase_iter s (Some (p, Nat.min pos (length b)))                     (* L323 *)
    else b_erase_iter s None.

  (** PartitionedData.hpp L407-414. *)
  Definition b_partition (s : (bucketed T)) (p : nat) : res (list T) :=
    let? _ := b_check_for_empty s in
    if decide (p < length s) then rget s p else Ok [].

  (** PartitionedData.hpp L153-160, L162-169. *)
  Definition b_size (s : (bucketed T)) : nat := foldl (fun n b => n + length b) 0 s.
  Definition b_size_of (s : (bucketed T)) (p : nat) : res nat :=
    let? l := b_partition s p in Ok (length l).

  (** PartitionedData.hpp L148-151. *)
  Definition b_empty (s : (bucketed T)) : bool := bool_decide (length s = 0).

  (** PartitionedData.hpp L88-103: construction. *)
  Definition b_make (ls : list (list T)) : res (bucketed T) :=
    foldl (fun r l =>
        let? s := r in
        let d := length s in                                                (* L96 *)
        foldl (fun r v => let? s := r in b_push_back s d v) (Ok (b_add_slot s)) l)
      (Ok []) ls.

  (** Is [begin_partition(p) + k] a valid iterator?  If not, using it is undefined. *)
  Definition b_valid (s : (bucketed T)) (p k : nat) : bool :=
    match s !! p with Some b => bool_decide (k <= length b) | None => false end.

  Definition b_call (s : (bucketed T)) (c : pcall T) : option (bucketed T) * pobs T :=
    match c with
    | PAddSlot => pres s (pdone (Ok (b_add_slot s)))
    | PInsertSlot pos => pres s (pdone (b_insert_slot s pos))
    | PEraseSlot n => pres s (pdone (b_erase_slot s n))
    | PSwap i j => pres s (pdone (b_swap_partitions s i j))
    | PPush p v => pres s (pdone (b_push_back s p v))
    | PInsert p pos v => pres s (b_insert s p pos v)
    | PErase p pos => pres s (b_erase s p pos)
    | PEraseIter p k => pres s (if b_valid s p k then b_erase_iter s (Some (p, k)) else UB)
    | PEraseRange p k q m =>
      pres s (if b_valid s p k && b_valid s q m then b_erase_range s p k q m else UB)
    | PClear => (Some [], PDone)
    | PSize => (Some s, PNum (b_size s))
    | PNumPartitions => (Some s, PNum (length s))
    | PSizeOf p => pres s (let? n := b_size_of s p in Ok (s, PNum n))
    | PContents p => pres s (let? l := b_partition s p in Ok (s, PElems l))
    end.
End bucketed.

(** ** partitioned_sequence *)
Section partitioned.
  Context {T : Type}.

  (** PartitionedData.hpp L881-882: the data members. *)
  Record pseq := PSeq { p_parts : list nat; p_data : list T }.

  (** The comparison of the partitions, std::ranges::greater (L989). *)
  Definition gtb (x y : nat) : bool := Nat.ltb y x.

  (** PartitionedData.hpp L521. *)
  Definition p_num (s : pseq) : nat := length (p_parts s).

  (** PartitionedData.hpp L955-960, for a forward iterator: offset and partition index. *)
  Definition p_begin (s : pseq) (i : nat) : res (nat * option nat) :=
    let index := if decide (p_num s <= i) then None else Some i in          (* L957 *)
    let? offset := (if decide (0 < i /\ i < p_num s) then rget (p_parts s) (i - 1) else Ok 0) in
    Ok (offset, index).

  (** PartitionedData.hpp L964-982, for a forward iterator; [index_type] is [size_t], so that L969
      does not throw. *)
  Definition p_end (s : pseq) (i : nat) : res (nat * option nat) :=
    if decide (i < p_num s) then                                            (* L975-979 *)
      let? offset := rget (p_parts s) i in Ok (offset, Some i)
    else Ok (length (p_data s), None).

  (** PartitionedData.hpp L935-941. *)
  Definition p_check_range (s : pseq) (i : option nat) : res unit :=
    match i with
    | Some i => if decide (p_num s <= i) then Throw OutOfRange else Ok tt
    | None => Throw OutOfRange
    end.

  (** PartitionedData.hpp L919-925 and L927-933. *)
  Definition p_increment (s : pseq) (first : nat) : res (list nat) :=
    let '(parts, r) := mutate_unsafe (p_parts s) (Nat.min first (p_num s)) (p_num s)
                         (fun x => Ok (x + 1)) in
    let? _ := r in Ok parts.
  Definition p_decrement (s : pseq) (first last num : nat) : res (list nat) :=
    let '(parts, r) := mutate_unsafe (p_parts s) (Nat.min first (p_num s)) (Nat.min last (p_num s))
                         (fun x => Ok (x - num)) in
    let? _ := r in Ok parts.

  (** PartitionedData.hpp L726-729. *)
  Definition p_add_slot (s : pseq) : res pseq :=
    let? parts := push_back gtb (p_parts s) (length (p_data s)) in
    Ok (PSeq parts (p_data s)).

  (** PartitionedData.hpp L731-743. *)
  Definition p_insert_slot (s : pseq) (pos : nat) : res pseq :=
    if decide (pos < p_num s) then
      let? bound := (if decide (pos = 0) then Ok 0 else rget (p_parts s) (pos - 1)) in  (* L736 *)
      let? parts := insert gtb (p_parts s) pos bound in                                 (* L737 *)
      Ok (PSeq parts (p_data s))
    else p_add_slot s.

  (** PartitionedData.hpp L745-759. *)
  Definition p_erase_slot (s : pseq) (n : nat) : res pseq :=
    if decide (n < p_num s) then
      let? offset := (if decide (0 < n) then rget (p_parts s) (n - 1) else Ok 0) in     (* L750 *)
      let? bound := rget (p_parts s) n in
      let erased := if decide (0 < bound) then bound - offset else 0 in                 (* L749, L753 *)
      let? data := (if decide (0 < bound) then vec_erase (p_data s) offset bound        (* L754 *)
                    else Ok (p_data s)) in
      let? parts := erase (p_parts s) n in                                              (* L756 *)
      let '(parts', r) := mutate_unsafe parts n (length parts) (fun x => Ok (x - erased)) in  (* L757 *)
      let? _ := r in
      Ok (PSeq parts' data)
    else Ok s.

  (** PartitionedData.hpp L623-626: the loop of [swap_partitions]; [k] iterations remain. *)
  Fixpoint p_swap_loop (d : list T) (i j k : nat) : res (list T) :=
    match k with
    | O => Ok d
    | S k' => let? d' := rswap d i j in p_swap_loop d' (i + 1) (j + 1) k'
    end.

  (** PartitionedData.hpp L610-646. *)
  Definition p_swap_partitions (s : pseq) (i j : nat) : res pseq :=
    if decide (i < p_num s /\ j < p_num s) then                             (* L612 *)
      if decide (i = j) then Ok s                                           (* L614 *)
      else
        let lo := if decide (j < i) then j else i in                        (* L616 *)
        let hi := if decide (j < i) then i else j in
        let? bi := p_begin s lo in
        let? ei := p_end s lo in
        let? bj := p_begin s hi in
        let? ej := p_end s hi in
        let len_i := ei.1 - bi.1 in                                         (* L618-619 *)
        let len_j := ej.1 - bj.1 in
        let? d := p_swap_loop (p_data s) bi.1 bj.1 (Nat.min len_i len_j) in (* L623-626 *)
        let? d' := (if decide (len_j < len_i) then
                      vec_rotate d (bi.1 + len_j) (bi.1 + len_i) ej.1       (* L630 *)
                    else if decide (len_i < len_j) then
                      vec_rotate d (bi.1 + len_i) (bj.1 + len_i) ej.1       (* L634 *)
                    else Ok d) in
        if decide (len_i = len_j) then Ok (PSeq (p_parts s) d')
        else
          let '(parts, r) := mutate_unsafe (p_parts s) lo hi
                               (fun x => Ok (x + len_j - len_i)) in         (* L639-642 *)
          let? _ := r in
          Ok (PSeq parts d')
    else Ok s.

  (** PartitionedData.hpp L796-812. *)
  Definition p_push_back (s : pseq) (i : nat) (v : T) : res pseq :=
    let? _ := p_check_range s (Some i) in                                   (* L798 *)
    let? d := (if decide (i = p_num s - 1) then Ok (p_data s ++ [v])        (* L801-803 *)
               else let? b := rget (p_parts s) i in vec_insert (p_data s) b v) in  (* L808 *)
    let? parts := p_increment s i in                                        (* L811 *)
    Ok (PSeq parts d).

  (** The iterator handed back to the client: its partition and its distance from the beginning of
      that partition. *)
  Definition p_iter (s : pseq) (it : nat * option nat) : res (pseq * pobs T) :=
    match it.2 with
    | Some p => let? b := p_begin s p in Ok (s, PIter p (it.1 - b.1))
    | None => Ok (s, PNpos)
    end.

  (** PartitionedData.hpp L815-824. *)
  Definition p_insert_iter (s : pseq) (it : nat * option nat) (v : T) : res (pseq * pobs T) :=
    let? _ := p_check_range s it.2 in                                       (* L818 *)
    let? d := vec_insert (p_data s) it.1 v in                               (* L820 *)
    match it.2 with
    | Some source =>
      let? parts := p_increment s source in                                 (* L821 *)
      p_iter (PSeq parts d) it                                              (* L823 *)
    | None => UB
    end.

  (** [std::ranges::next(it, n, bound)] for random access iterators. *)
  Definition p_next (it bound : nat * option nat) (n : nat) : nat * option nat :=
    if decide (bound.1 - it.1 <= n) then (bound.1, it.2) else (it.1 + n, it.2).

  (** PartitionedData.hpp L827-830. *)
  Definition p_insert (s : pseq) (i pos : nat) (v : T) : res (pseq * pobs T) :=
    let? b := p_begin s i in
    let? e := p_end s i in
    p_insert_iter s (p_next b e pos) v.

  (** PartitionedData.hpp L832-848. *)
  Definition p_erase_iter (s : pseq) (it : nat * option nat) : res (pseq * pobs T) :=
    match it.2 with
    | None => Ok (s, PNpos)                                                 (* L835-838 *)
    | Some p =>
      if decide (p_num s <= p) then Ok (s, PNpos)
      else
        let? e := p_end s p in
        if decide (it.1 = e.1) then p_iter s e                              (* L839-842 *)
        else
          let? d := vec_erase (p_data s) it.1 (it.1 + 1) in                 (* L844 *)
          let? parts := p_decrement s p (p_num s) 1 in                      (* L845 *)
          p_iter (PSeq parts d) it                                          (* L847 *)
    end.

  (** PartitionedData.hpp L850-872. *)
  Definition p_erase_range (s : pseq) (first last : nat * option nat) : res (pseq * pobs T) :=
    let out i := match i with Some p => bool_decide (p_num s <= p) | None => true end in
    if out first.2 && out last.2 then Ok (s, PNpos)                         (* L853-856 *)
    else if decide (last.2 = first.2) then                                  (* L857 *)
      if decide (first.1 < last.1) then                                     (* L859 *)
        let? d := vec_erase (p_data s) first.1 last.1 in                    (* L861 *)
        match first.2 with
        | Some p =>
          let? parts := p_decrement s p (p_num s) (last.1 - first.1) in     (* L862 *)
          p_iter (PSeq parts d) first                                       (* L864 *)
        | None => UB
        end
      else p_iter s first                                                   (* L867 *)
    else Throw DomainError.                                                 (* L870-871 *)

  (** PartitionedData.hpp L874-877. *)
  Definition p_erase (s : pseq) (i pos : nat) : res (pseq * pobs T) :=
    let? b := p_begin s i in
    let? e := p_end s i in
    p_erase_iter s (p_next b e pos).

  (** PartitionedData.hpp L596-602: the elements of [partition(i)]. *)
  Definition p_partition (s : pseq) (i : nat) : res (list T) :=
    let? b := p_begin s i in
    let? e := p_end s i in
    if decide (b.1 <= e.1 /\ e.1 <= length (p_data s)) then
      Ok (take (e.1 - b.1) (drop b.1 (p_data s)))
    else UB.

  (** PartitionedData.hpp L514-518. *)
  Definition p_size_of (s : pseq) (i : nat) : res nat :=
    let? b := p_begin s i in
    let? e := p_end s i in
    Ok (e.1 - b.1).

  (** PartitionedData.hpp L509. *)
  Definition p_empty (s : pseq) : bool := bool_decide (length (p_data s) = 0).

  (** PartitionedData.hpp L889-902: construction. *)
  Definition p_make (ls : list (list T)) : res pseq :=
    foldl (fun r l =>
        let? s := r in
        let d := p_num s in                                                 (* L896 *)
        foldl (fun r v => let? s := r in p_push_back s d v) (p_add_slot s) l)
      (Ok (PSeq [] [])) ls.

  (** Is [begin_partition(p) + k] an iterator of partition [p]?  If not, using it is undefined. *)
  Definition p_iterator (s : pseq) (p k : nat) : res (nat * option nat) :=
    if decide (p < p_num s) then
      let? b := p_begin s p in
      let? e := p_end s p in
      if decide (b.1 + k <= e.1) then Ok (b.1 + k, Some p) else UB
    else UB.

  Definition p_call (s : pseq) (c : pcall T) : option pseq * pobs T :=
    match c with
    | PAddSlot => pres s (pdone (p_add_slot s))
    | PInsertSlot pos => pres s (pdone (p_insert_slot s pos))
    | PEraseSlot n => pres s (pdone (p_erase_slot s n))
    | PSwap i j => pres s (pdone (p_swap_partitions s i j))
    | PPush p v => pres s (pdone (p_push_back s p v))
    | PInsert p pos v => pres s (p_insert s p pos v)
    | PErase p pos => pres s (p_erase s p pos)
    | PEraseIter p k => pres s (let? it := p_iterator s p k in p_erase_iter s it)
    | PEraseRange p k q m =>
      pres s (let? f := p_iterator s p k in let? l := p_iterator s q m in p_erase_range s f l)
    | PClear => (Some (PSeq [] []), PDone)
    | PSize => (Some s, PNum (length (p_data s)))
    | PNumPartitions => (Some s, PNum (p_num s))
    | PSizeOf p => pres s (let? n := p_size_of s p in Ok (s, PNum n))
    | PContents p => pres s (let? l := p_partition s p in Ok (s, PElems l))
    end.
End partitioned.
Arguments pseq : clear implicits.
