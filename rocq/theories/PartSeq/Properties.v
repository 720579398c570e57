(** C09-C12: the property theorems about the partitioned containers. *)
From stdpp Require Import list.
From Verif.Base Require Import Outcome Order ListLemmas.
From Verif.Mono Require Import Spec.
From Verif.PartSeq Require Import Model StaticModel Spec ProofsBucket ProofsFlat ProofsPart ProofsStatic.

(** C09.  Built from [ls], a bucketed_sequence has every history of the list of lists [ls]. *)
Theorem bucketed_sequence_is_list_of_lists :
  forall (T : Type) (ls : list (list T)),
    exists s, b_make ls = Ok s /\
      forall cs, phistory b_call s cs = phistory (lol_call bucket_policy) ls cs.
Proof. exact @b_make_history. Qed.
Print Assumptions bucketed_sequence_is_list_of_lists.

(** C09: a call that throws leaves every observation unchanged. *)
Theorem bucketed_sequence_throwing_call_changes_nothing :
  forall (T : Type) (s : bucketed T) (c : pcall T) (e : exn) s',
    b_call s c = (s', PRaised e) -> s' = Some s.
Proof. exact @b_call_throw. Qed.
Print Assumptions bucketed_sequence_throwing_call_changes_nothing.

(** C10.  Built from [ls], a partitioned_sequence has every history of the list of lists [ls]. *)
Theorem partitioned_sequence_is_list_of_lists :
  forall (T : Type) (ls : list (list T)),
    exists s, p_make ls = Ok s /\
      forall cs, phistory p_call s cs = phistory (lol_call contiguous_policy) ls cs.
Proof. exact @p_make_history. Qed.
Print Assumptions partitioned_sequence_is_list_of_lists.

(** C10: after any history the offsets are monotonic and the last one is the number of elements. *)
Theorem partitioned_sequence_offsets :
  forall (T : Type) (ls : list (list T)) (cs : list (pcall T)) s s',
    p_make ls = Ok s -> pafter p_call s cs = Some s' ->
    monotonic gtb (p_parts s') /\
    (forall n, last (p_parts s') = Some n -> n = length (p_data s')) /\
    (p_parts s' = [] -> p_data s' = []).
Proof. exact @p_offsets. Qed.
Print Assumptions partitioned_sequence_offsets.

(** A history exercising every call, on partitions of several sizes including empty ones. *)
Example partitioned_example :
  let ls := [[1;2;3];[];[4]] in
  let cs := [PSwap 0 2; PContents 0; PContents 1; PContents 2; PInsertSlot 1; PPush 1 9; PPush 3 8;
             PInsert 3 1 7; PErase 3 0; PEraseIter 0 0; PEraseRange 3 0 3 2; PEraseRange 0 0 3 1;
             PContents 3; PEraseSlot 1; PSize; PNumPartitions; PSizeOf 2; PPush 7 0; PErase 0 0] in
  let os := [PDone; PElems [4]; PElems []; PElems [1;2;3]; PDone; PDone; PDone;
             PIter 3 1; PIter 3 0; PIter 0 0; PIter 3 0; PRaised DomainError;
             PElems [3; 8]; PDone; PNum 2; PNum 3; PNum 2; PRaised OutOfRange; PIter 0 0] in
  exists b p, b_make ls = Ok b /\ p_make ls = Ok p /\ all_in_range ls cs /\
    phistory b_call b cs = os /\ phistory p_call p cs = os.
Proof. do 2 eexists. do 2 (split; [reflexivity|]). split; [by repeat split|]. by vm_compute. Qed.

(** C11, as far as it goes: the same observations as long as the partitions addressed exist and
    insertions are not beyond the end.  Missing: all other calls, see below. *)
Theorem partitioned_containers_interchangeable_partial :
  forall (T : Type) (ls : list (list T)) (cs : list (pcall T)),
    all_in_range ls cs ->
    exists b p, b_make ls = Ok b /\ p_make ls = Ok p /\
      phistory b_call b cs = phistory p_call p cs.
Proof. exact @interchangeable. Qed.
Print Assumptions partitioned_containers_interchangeable_partial.

(** C11 fails: inserting beyond the end of a partition throws in one container and is clamped in
    the other. *)
Theorem interchangeable_on_far_insertion_refuted :
  exists (ls : list (list nat)) (b : bucketed nat) (p : pseq nat) (pos v : nat),
    b_make ls = Ok b /\ p_make ls = Ok p /\
    (b_call b (PInsert 0 pos v)).2 = PRaised OutOfRange /\
    (p_call p (PInsert 0 pos v)).2 = PIter 0 1.
Proof. exists [[1]]. do 2 eexists. exists 5, 9. repeat split. Qed.
Print Assumptions interchangeable_on_far_insertion_refuted.

(** C11 fails: the range of a partition that does not exist is empty in one container and holds all
    the elements in the other. *)
Theorem interchangeable_on_missing_partition_refuted :
  exists (ls : list (list nat)) (b : bucketed nat) (p : pseq nat),
    b_make ls = Ok b /\ p_make ls = Ok p /\
    (b_call b (PContents 5)).2 = PElems [] /\
    (p_call p (PContents 5)).2 = PElems [1;2;3].
Proof. exists [[1;2];[3]]. do 2 eexists. repeat split. Qed.
Print Assumptions interchangeable_on_missing_partition_refuted.

(** C11 fails: [empty()] is about partitions in one container and about elements in the other. *)
Theorem interchangeable_on_empty_refuted :
  exists (ls : list (list nat)) (b : bucketed nat) (p : pseq nat),
    b_make ls = Ok b /\ p_make ls = Ok p /\ b_empty b = false /\ p_empty p = true.
Proof. exists [[];[]]. do 2 eexists. repeat split. Qed.
Print Assumptions interchangeable_on_empty_refuted.

(** C12.  Given lists of the right shape, and provided the index type can count the elements and
    number the partitions, construction succeeds and the object is that list of lists, before and
    after exchanging partitions.  Missing: index types that are too small, see below. *)
Theorem static_partitioned_sequence_holds_lists_partial :
  forall (T : Type) (upper : nat) (ls : list (list T)),
    length (mjoin ls) <= upper -> length ls <= upper + 1 ->
    exists s, (forall fuel, length ls <= fuel ->
                 sp_make fuel upper (length ls) (length (mjoin ls)) ls = Ok s) /\
      forall cs, Forall (fun c => static_call c = true) cs ->
        phistory p_call s cs = phistory (lol_call contiguous_policy) ls cs.
Proof. exact @static_sequence. Qed.
Print Assumptions static_partitioned_sequence_holds_lists_partial.

(** C12: lists of any other shape are refused, as are more elements than the index type can count. *)
Theorem static_partitioned_sequence_refuses_other_shapes :
  forall (T : Type) (fuel upper np ne : nat) (ls : list (list T)),
    (length ls <> np -> sp_make fuel upper np ne ls = Throw LogicError) /\
    (length ls = np -> length (mjoin ls) <= upper -> length (mjoin ls) <> ne ->
       sp_make fuel upper np ne ls = Throw LogicError) /\
    (length ls = np -> upper < length (mjoin ls) -> sp_make fuel upper np ne ls = Throw OutOfRange).
Proof. exact @sp_make_shape. Qed.
Print Assumptions static_partitioned_sequence_refuses_other_shapes.

Example static_partitioned_example :
  let ls := [[];[1;2];[];[];[3];[]] in
  length (mjoin ls) <= 255 /\ length ls <= 256 /\
  exists s, sp_make 6 255 6 3 ls = Ok s /\
    phistory p_call s [PContents 1; PContents 2; PSwap 0 1; PContents 0; PContents 4; PContents 5; PSize] =
      [PElems [1;2]; PElems []; PDone; PElems [1;2]; PElems [3]; PElems []; PNum 3] /\
    sp_make 6 255 6 4 ls = Throw LogicError /\ sp_make 6 255 5 3 ls = Throw LogicError /\
    sp_make 6 2 6 3 ls = Throw OutOfRange.
Proof. cbn -[sp_make Nat.le phistory]. split; [lia|]. split; [lia|]. eexists. split; [reflexivity|]. by vm_compute. Qed.

(** C12 fails: a list of the right shape on which construction does not end, whatever the number of
    steps allowed: 257 partitions with an 8-bit index type, the last one holding the only element.
    The search for the first element's partition (L1162-1165) wraps round. *)
Theorem static_partitioned_sequence_holds_lists_refuted :
  exists (upper : nat) (ls : list (list nat)),
    length (mjoin ls) <= upper /\
    forall fuel, sp_make fuel upper (length ls) (length (mjoin ls)) ls = NoFuel.
Proof. exact sp_make_wraps_8bit. Qed.
Print Assumptions static_partitioned_sequence_holds_lists_refuted.
