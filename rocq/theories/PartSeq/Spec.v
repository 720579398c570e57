(** Abstract partitioned data: a list of lists (C09-C11). *)
From stdpp Require Import list.
From Verif.Base Require Import Outcome.
From Verif.PartSeq Require Import Model.

Section spec.
  Context {T : Type}.
  Implicit Types ls : list (list T).

  (** Edits of partition [p] of a list of lists. *)
  Definition insert_at (l : list T) (k : nat) (v : T) : list T := take k l ++ v :: drop k l.
  Definition remove (l : list T) (k m : nat) : list T := take k l ++ drop m l.

  (** The two containers are specified to differ in two places only. *)
  Record policy := Policy {
    clamp : bool;              (** insertion beyond the end of a partition goes to its end, rather than throwing *)
    bad_partition : list (list T) -> res (list T);   (** the range for an out of range partition *)
    bad_erase : list (list T) -> pobs T              (** erasing from an out of range partition *)
  }.

  (** bucketed_sequence: out of range positions throw; an out of range partition is empty, unless
      there are no partitions at all. *)
  Definition bucket_policy : policy :=
    Policy false (fun ls => match ls with [] => Throw OutOfRange | _ => Ok [] end)
                 (fun ls => match ls with [] => PRaised OutOfRange | _ => PNpos end).

  (** partitioned_sequence: out of range positions are clamped; an out of range partition is the range
      of all elements. *)
  Definition contiguous_policy : policy :=
    Policy true (fun ls => Ok (mjoin ls)) (fun _ => PNpos).

  Definition elems (pol : policy) ls (p : nat) : res (list T) :=
    match ls !! p with Some l => Ok l | None => bad_partition pol ls end.

  Definition lol_call (pol : policy) ls (c : pcall T) : option (list (list T)) * pobs T :=
    match c with
    | PAddSlot => (Some (ls ++ [[]]), PDone)
    | PInsertSlot pos => (Some (take pos ls ++ [] :: drop pos ls), PDone)
    | PEraseSlot n => (Some (take n ls ++ drop (S n) ls), PDone)
    | PSwap i j =>
      match ls !! i, ls !! j with
      | Some x, Some y => (Some (<[i:=y]> (<[j:=x]> ls)), PDone)
      | _, _ => (Some ls, PDone)
      end
    | PPush p v =>
      match ls !! p with
      | Some l => (Some (<[p:=l ++ [v]]> ls), PDone)
      | None => (Some ls, PRaised OutOfRange)
      end
    | PInsert p pos v =>
      match ls !! p with
      | Some l =>
        if decide (pos <= length l) then (Some (<[p:=insert_at l pos v]> ls), PIter p pos)
        else if clamp pol then (Some (<[p:=l ++ [v]]> ls), PIter p (length l))
        else (Some ls, PRaised OutOfRange)
      | None => (Some ls, PRaised OutOfRange)
      end
    | PErase p pos =>
      match ls !! p with
      | Some l =>
        (Some (<[p:=remove l pos (S pos)]> ls), PIter p (Nat.min pos (length l)))
      | None => (Some ls, bad_erase pol ls)
      end
    | PEraseIter p k =>
      match ls !! p with
      | Some l => if decide (k <= length l)
                  then (Some (<[p:=remove l k (S k)]> ls), PIter p k)
                  else (None, PUndefined)
      | None => (None, PUndefined)
      end
    | PEraseRange p k q m =>
      match ls !! p, ls !! q with
      | Some l, Some l' =>
        if decide (k <= length l /\ m <= length l') then
          if decide (p = q) then
            (Some (if decide (k < m) then <[p:=remove l k m]> ls else ls), PIter p k)
          else (Some ls, PRaised DomainError)
        else (None, PUndefined)
      | _, _ => (None, PUndefined)
      end
    | PClear => (Some [], PDone)
    | PSize => (Some ls, PNum (length (mjoin ls)))
    | PNumPartitions => (Some ls, PNum (length ls))
    | PSizeOf p =>
      match elems pol ls p with
      | Ok l => (Some ls, PNum (length l))
      | Throw e => (Some ls, PRaised e)
      | _ => (None, PUndefined)
      end
    | PContents p =>
      match elems pol ls p with
      | Ok l => (Some ls, PElems l)
      | Throw e => (Some ls, PRaised e)
      | _ => (None, PUndefined)
      end
    end.
End spec.
Arguments policy : clear implicits.

(** ** C11 *)
(** The calls whose partition (and position) exist. *)
Definition in_range {T} (ls : list (list T)) (c : pcall T) : bool :=
  match c with
  | PInsert p pos _ =>
    match ls !! p with Some l => bool_decide (pos <= length l) | None => true end
  | PErase p _ | PSizeOf p | PContents p => bool_decide (p < length ls)
  | _ => true
  end.

(** A history of calls all of which are in range, for a list of lists. *)
Fixpoint all_in_range {T} (ls : list (list T)) (cs : list (pcall T)) : Prop :=
  match cs with
  | [] => True
  | c :: cs' =>
    in_range ls c = true /\
    match lol_call bucket_policy ls c with
    | (Some ls', _) => all_in_range ls' cs'
    | (None, _) => True
    end
  end.

(** ** C12 *)
(** The calls static_partitioned_sequence supports. *)
Definition static_call {T} (c : pcall T) : bool :=
  match c with
  | PSwap _ _ | PSize | PNumPartitions | PSizeOf _ | PContents _ => true
  | _ => false
  end.

(** The state after a history without undefined behaviour. *)
Fixpoint pafter {S T} (step : S -> pcall T -> option S * pobs T) (s : S) (cs : list (pcall T)) : option S :=
  match cs with
  | [] => Some s
  | c :: cs' => match (step s c).1 with Some s' => pafter step s' cs' | None => None end
  end.
