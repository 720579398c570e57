(** C30, C31: the property theorems about compile-time type lists. *)
From stdpp Require Import list.
From Verif.Base Require Import Outcome Order.
From Verif.Algo Require Import Spec.
From Verif.StaticDS Require Import ProofsTop.
From Verif.Meta Require Import Model Spec Proofs.

(** C30: sorted, and a permutation.  Missing: stability, see below. *)
Theorem meta_stable_sort_sorts_partial :
  forall (A : Type) (comp : A -> A -> bool), strict_weak comp ->
    forall ts : list A, exists l, stable_sort comp ts = Some l /\ l ≡ₚ ts /\ sorted_by comp l.
Proof. exact @stable_sort_spec. Qed.
Print Assumptions meta_stable_sort_sorts_partial.

(** C30: merging sorted lists gives a sorted list with the same elements. *)
Theorem meta_merge_merges :
  forall (A : Type) (comp : A -> A -> bool), strict_weak comp ->
    forall ts us : list A, sorted_by comp ts -> sorted_by comp us ->
      exists l, merge_types comp ts us = Some l /\ l ≡ₚ ts ++ us /\ sorted_by comp l.
Proof. exact @merge_types_spec. Qed.
Print Assumptions meta_merge_merges.

Definition by_first (x y : nat * nat) : bool := Nat.ltb x.1 y.1.

Example meta_sort_example :
  strict_weak Nat.ltb /\ stable_sort Nat.ltb [5;3;9;1;3;7] = Some [1;3;3;5;7;9] /\
  merge_types Nat.ltb [1;4;6] [2;3;9] = Some [1;2;3;4;6;9].
Proof. split; [exact ltb_strict_weak|]. by vm_compute. Qed.

(** C30 fails: two equivalent types are exchanged (TypeAlgorithms.hpp L253-257). *)
Theorem meta_stable_sort_is_stable_refuted :
  exists (comp : nat * nat -> nat * nat -> bool) (ts l : list (nat * nat)),
    strict_weak comp /\ stable_sort comp ts = Some l /\ ~ stable comp ts l.
Proof.
  exists by_first, [(0,1);(0,2)], [(0,2);(0,1)]. split; [|split; [by vm_compute|]].
  - pose proof ltb_strict_weak as H. split; unfold by_first; intros.
    + apply (sw_irrefl _ H).
    + by eapply (sw_trans _ H).
    + by eapply (sw_incomp _ H).
  - intros H. specialize (H (0,1)). by vm_compute in H.
Qed.
Print Assumptions meta_stable_sort_is_stable_refuted.

(** C30: nor is the order of equivalent types kept when three or more are merged into a list
    (the 0 at TypeAlgorithms.hpp L290). *)
Theorem meta_merge_is_stable_refuted :
  exists (comp : nat * nat -> nat * nat -> bool) (ts us l : list (nat * nat)),
    strict_weak comp /\ sorted_by comp ts /\ sorted_by comp us /\
    merge_types comp ts us = Some l /\ ~ stable comp (ts ++ us) l.
Proof.
  exists by_first, [(0,1);(0,2);(0,3)], [(1,0);(1,1)], [(0,2);(0,3);(0,1);(1,0);(1,1)].
  split; [|split; [|split; [|split; [by vm_compute|]]]].
  - pose proof ltb_strict_weak as H. split; unfold by_first; intros.
    + apply (sw_irrefl _ H).
    + by eapply (sw_trans _ H).
    + by eapply (sw_incomp _ H).
  - intros [|[|[|i]]] [|[|[|j]]] x y Hij Hi Hj; cbn in Hi, Hj; try done; by injection Hi as <-; injection Hj as <-.
  - intros [|[|i]] [|[|j]] x y Hij Hi Hj; cbn in Hi, Hj; try done; by injection Hi as <-; injection Hj as <-.
  - intros H. specialize (H (0,1)). by vm_compute in H.
Qed.
Print Assumptions meta_merge_is_stable_refuted.

(** C31.  Each type-list algorithm is the list function of its name; [None] is an ill-formed
    instantiation. *)
Theorem type_list_drop_keep :
  forall (A : Type) (ts : list A) (n : nat),
    drop_types ts n = Some (drop n ts) /\ keep_types ts n = Some (take n ts).
Proof. exact (fun A ts n => conj (drop_types_spec ts n) (keep_types_spec ts n)). Qed.
Print Assumptions type_list_drop_keep.

Theorem type_list_insert_erase :
  forall (A : Type) (ts : list A) (t : A) (i : nat),
    insert_type ts t i = (if decide (i <= length ts) then Some (take i ts ++ t :: drop i ts) else None) /\
    erase_type ts i = (if decide (i < length ts) then Some (take i ts ++ drop (S i) ts) else None).
Proof. exact (fun A ts t i => conj (insert_type_spec ts t i) (erase_type_spec ts i)). Qed.
Print Assumptions type_list_insert_erase.

Theorem type_list_filter :
  forall (A : Type) (excluded : A -> bool) (ts : list A),
    filter_by_trait excluded ts = Some (filter (fun t => excluded t = false) ts).
Proof. exact @filter_by_trait_spec. Qed.
Print Assumptions type_list_filter.

(** [filter] with an index sequence selects the elements at these indices, and is ill-formed if any
    is out of range. *)
Theorem type_list_select :
  forall (A : Type) (ts : list A) (is : list nat),
    (Forall (fun i => i < length ts) is ->
       exists l, filter_types ts is = Some l /\ length l = length is /\
         forall k i, is !! k = Some i -> l !! k = ts !! i) /\
    (~ Forall (fun i => i < length ts) is -> filter_types ts is = None).
Proof. exact (fun A ts is => conj (elements_some ts is) (elements_none ts is)). Qed.
Print Assumptions type_list_select.

Theorem type_list_reverse :
  forall (A : Type) (ts : list A), reverse_types ts = reverse ts.
Proof. exact @reverse_types_spec. Qed.
Print Assumptions type_list_reverse.

(** The first position whose type is not ordered before [t]. *)
Theorem type_list_lower_bound :
  forall (A : Type) (comp : A -> A -> bool), strict_weak comp ->
    forall (ts : list A) (t : A), sorted_by comp ts ->
      exists pos, lower_bound comp ts t = Some pos /\ pos <= length ts /\
        (forall i x, i < pos -> ts !! i = Some x -> comp x t = true) /\
        (forall i x, pos <= i -> ts !! i = Some x -> comp x t = false).
Proof. exact @lower_bound_spec. Qed.
Print Assumptions type_list_lower_bound.

(** The first position satisfying the predicate, or the length. *)
Theorem type_list_find :
  forall (A : Type) (p : A -> bool) (ts : list A),
    (forall j t, j < find_if p ts -> ts !! j = Some t -> p t = false) /\
    (find_if p ts = length ts \/ exists t, ts !! find_if p ts = Some t /\ p t = true).
Proof. exact @find_if_spec. Qed.
Print Assumptions type_list_find.

(** Every type once, in order of first occurrence.  The first argument must not itself be a
    [type_list] (unless it is alone). *)
Theorem faithful_type_list_removes_duplicates_partial :
  forall args : list ty,
    match args with t :: _ :: _ => is_type_list t = false | _ => True end ->
    dedup_of args (faithful_type_list args).
Proof. exact faithful_spec. Qed.
Print Assumptions faithful_type_list_removes_duplicates_partial.

(** Otherwise its elements are taken instead of it. *)
Theorem faithful_type_list_removes_duplicates_refuted :
  exists args : list ty, ~ dedup_of args (faithful_type_list args).
Proof.
  exists [TList [TBase 0]; TBase 1]. intros (_ & H & _).
  apply (not_elem_of_nil (A := ty) (TBase 0)).
  specialize (H (TBase 0)). destruct H as [H _].
  assert (TBase 0 ∈ [TList [TBase 0]; TBase 1]) as Hc by (apply H; left).
  repeat (apply elem_of_cons in Hc as [Hc|Hc]; [done|]). done.
Qed.
Print Assumptions faithful_type_list_removes_duplicates_refuted.

Theorem type_list_contains :
  forall (A : Type) (same : A -> A -> bool) (u : A) (ts : list A),
    contains same ts u = true <-> exists t, t ∈ ts /\ same u t = true.
Proof. exact @contains_spec. Qed.
Print Assumptions type_list_contains.

(** A union of at least two lists has every type once, in order of first occurrence, if none of them is itself a
    [type_list]. *)
Theorem type_list_union_partial :
  forall (us vs : list ty) (args : list (list ty)),
    Forall (Forall (fun t => is_type_list t = false)) (us :: vs :: args) ->
    dedup_of (concat (us :: vs :: args)) (type_list_union us (vs :: args)).
Proof. exact union_all. Qed.
Print Assumptions type_list_union_partial.

Example type_list_union_example :
  Forall (Forall (fun t => is_type_list t = false)) [[TBase 1; TBase 2]; [TBase 2; TBase 2]; [TBase 3; TBase 1]] /\
  type_list_union [TBase 1; TBase 2] [[TBase 2; TBase 2]; [TBase 3; TBase 1]] = [TBase 1; TBase 2; TBase 3].
Proof. by split; [repeat constructor|]. Qed.

(** The union of one list is that list. *)
Theorem type_list_union_refuted :
  exists us : list ty, ~ NoDup (type_list_union us []).
Proof.
  exists [TBase 0; TBase 0]. cbn. intros H. apply NoDup_cons in H as [H _]. apply H. left.
Qed.
Print Assumptions type_list_union_refuted.

(** C31, index sequences. *)
Theorem index_sequence_operations :
  forall (s : list nat) (seqs : list (list nat)),
    concat_sequences s seqs = s ++ mjoin seqs /\
    reverse_sequence s = reverse s /\
    rotate_sequence s = drop 1 s ++ take 1 s.
Proof.
  exact (fun s seqs => conj (concat_sequences_spec s seqs)
    (conj (reverse_sequence_spec s) (rotate_sequence_spec s))).
Qed.
Print Assumptions index_sequence_operations.

Theorem index_sequence_shift :
  forall (s : list nat) (n i : nat), shift_sequence s n !! i = Nat.add n <$> s !! i.
Proof. exact shift_sequence_spec. Qed.
Print Assumptions index_sequence_shift.

Theorem index_sequence_partial_sum :
  forall s : list nat,
    length (sequence_partial_sum s) = length s /\
    forall k, k < length s -> sequence_partial_sum s !! k = Some (foldr Nat.add 0 (take (S k) s)).
Proof. exact partial_sum_spec. Qed.
Print Assumptions index_sequence_partial_sum.

(** The indices of the types that are not excluded, in order. *)
Theorem index_sequence_filtered :
  forall (A : Type) (excluded : A -> bool) (ts : list A),
    make_filtered_sequence excluded ts =
      filter (fun i => excluded <$> ts !! i = Some false) (seq 0 (length ts)).
Proof. exact @make_filtered_sequence_spec. Qed.
Print Assumptions index_sequence_filtered.

Example type_list_example :
  drop_types [1;2;3] 1 = Some [2;3] /\ erase_type [1;2;3] 1 = Some [1;3] /\ erase_type [1;2;3] 3 = None /\
  insert_type [1;2;3] 9 3 = Some [1;2;3;9] /\ filter_by_trait Nat.even [1;2;3;4] = Some [1;3] /\
  lower_bound Nat.ltb [1;3;3;5] 3 = Some 1 /\ sequence_partial_sum [3;0;4] = [3;3;7] /\
  make_filtered_sequence Nat.even [1;2;3;4] = [0;2] /\
  faithful_type_list [TBase 1; TBase 2; TBase 1; TList [TBase 1]; TBase 2] = [TBase 1; TBase 2; TList [TBase 1]].
Proof. by vm_compute. Qed.
