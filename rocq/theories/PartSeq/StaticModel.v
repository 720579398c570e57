(** Model of static_partitioned_sequence, Source/sequoia/Core/DataStructures/PartitionedData.hpp
    L1053-1171.

    [upper] is the greatest value of the (unsigned) IndexType; [std::size_t] is nat.  Once built, the
    object is a partitioned_sequence_base: its queries and [swap_partitions] are those of
    PartSeq/Model.v, with the default-constructed container (L1111) not modelled. *)
From stdpp Require Import list.
From Verif.Base Require Import Outcome.
From Verif.StaticDS Require Import Model.
From Verif.Mono Require Import Model.
From Verif.PartSeq Require Import Model.
Local Open Scope res_scope.

Section static.
  Context {T : Type}.

  (** PartitionedData.hpp L1068-1077: [to_array] with a function which may throw.  The list has
      exactly as many entries as the array (tested at L1134), so that no padding takes place. *)
  Fixpoint sp_sizes (upper : nat) (ls : list (list T)) : res (list nat) :=
    match ls with
    | [] => Ok []
    | l :: ls' =>
      if decide (upper < length l) then Throw OutOfRange                    (* L1070-1071 *)
      else let? ns := sp_sizes upper ls' in Ok (length l :: ns)
    end.

  (** PartitionedData.hpp L1080-1088: the loop over the sizes; [k] iterations remain. *)
  Fixpoint sp_accumulate (upper : nat) (a : list nat) (i k : nat) : res (list nat) :=
    match k with
    | O => Ok a
    | S k' =>
      let? prev := rget a (i - 1) in
      let? curr := rget a i in
      if decide (upper - prev < curr) then Throw OutOfRange                 (* L1084 *)
      else
        let? a' := rset a i (curr + prev) in                                (* L1087 *)
        sp_accumulate upper a' (i + 1) k'
    end.

  (** PartitionedData.hpp L1065-1092; the result is converted to a static_monotonic_sequence, whose
      constructor checks it (MonotonicSequence.hpp L301-306). *)
  Definition sp_make_partitions (upper : nat) (ls : list (list T)) : res (list nat) :=
    let? sizes := sp_sizes upper ls in
    let? a := sp_accumulate upper sizes 1 (length sizes - 1) in
    static_mono_make gtb (Some 0) (length a) a.

  (** PartitionedData.hpp L1161-1165: the loop advancing [partitionIndex], whose type is IndexType so
      that it wraps. *)
  Fixpoint sp_advance (fuel upper : nat) (parts : list nat) (i pidx : nat) : res nat :=
    match fuel with
    | O => NoFuel
    | S fuel' =>
      let? boundary := rget parts pidx in
      if decide (i = boundary) then
        sp_advance fuel' upper parts i (if decide (pidx = upper) then 0 else pidx + 1)
      else Ok pidx
    end.

  (** PartitionedData.hpp L1159-1170: the element, and the updated [partitionIndex]; the subtraction
      is one of sizes, hence modular: a negative index is undefined. *)
  Definition sp_make_element (fuel upper : nat) (ls : list (list T)) (parts : list nat) (i pidx : nat)
      : res (T * nat) :=
    let? pidx' := sp_advance fuel upper parts i pidx in
    let? prev := (if decide (pidx' = 0) then Ok 0 else rget parts (pidx' - 1)) in   (* L1167 *)
    if decide (i < prev) then UB
    else
      let? l := rget ls pidx' in                                            (* L1169 *)
      let? x := rget l (i - prev) in
      Ok (x, pidx').

  (** PartitionedData.hpp L1149: the braced list is evaluated from left to right. *)
  Fixpoint sp_elements (fuel upper : nat) (ls : list (list T)) (parts : list nat) (i k pidx : nat)
      : res (list T) :=
    match k with
    | O => Ok []
    | S k' =>
      let? e := sp_make_element fuel upper ls parts i pidx in
      let? xs := sp_elements fuel upper ls parts (i + 1) k' e.2 in
      Ok (e.1 :: xs)
    end.

  (** PartitionedData.hpp L1132-1155. *)
  Definition sp_make (fuel upper np ne : nat) (ls : list (list T)) : res (pseq T) :=
    if decide (length ls <> np) then Throw LogicError                       (* L1134-1136 *)
    else
      let? parts := sp_make_partitions upper ls in                          (* L1138 *)
      let total := foldl (fun n l => n + length l) 0 ls in                  (* L1140 *)
      if decide (total <> ne) then Throw LogicError                         (* L1142-1144 *)
      else
        let? d := sp_elements fuel upper ls parts 0 ne 0 in                 (* L1146-1154 *)
        Ok (PSeq parts d).
End static.
