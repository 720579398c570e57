(** C87: copy assignment of types with allocators. *)
From Coq Require Import Lia.
From stdpp Require Import list.
From Verif.Propagation Require Import Model Spec Proofs.

(** Accepted exactly if what propagates is alike for all allocators. *)
Theorem C87_accepted {A T} `{EqDecision A} (ss : list (slot A)) (to from : list (cont A T)) budget :
  assign ss to from budget = None <-> ~ alike ss.
Proof. exact (assign_none ss to from budget). Qed.
Print Assumptions C87_accepted.

(** If copies keep their allocators: either all is copied, with the right allocators, or an exception is thrown and nothing changed;
    the latter only if memory runs out. *)
Theorem C87_assign {A T} `{EqDecision A} (ss : list (slot A)) (to from : list (cont A T)) budget :
  length to = length ss -> length from = length ss -> (forall s, s ∈ ss -> keeps s) -> alike ss ->
  exists st r left_, assign ss to from budget = Some (st, r, left_) /\
    ((st = Completed /\ all_assigned ss to from r) \/ (st = Thrown /\ r = to)) /\ (length ss <= budget -> st = Completed).
Proof. exact (assign_spec ss to from budget). Qed.
Print Assumptions C87_assign.

(** If nothing propagates, then whatever copies do: all is copied, and the allocators stay, if there is memory enough. *)
Theorem C87_stays {A T} `{EqDecision A} (ss : list (slot A)) (to from : list (cont A T)) budget :
  length to = length ss -> length from = length ss -> (forall s, s ∈ ss -> stays s) -> alike ss -> 2 * length ss <= budget ->
  exists r left_, assign ss to from budget = Some (Completed, r, left_) /\ all_assigned ss to from r.
Proof. exact (assign_stay ss to from budget). Qed.
Print Assumptions C87_stays.

(** Graphs with node weights: the same, except that the program may be terminated. *)
Theorem C87_graph_partial {A T} `{EqDecision A} (ss : list (slot A)) nodes (to from : list (cont A T) * cont A T) budget :
  length (fst to) = length ss -> length (fst from) = length ss -> (forall s, s ∈ ss -> keeps s) -> alike ss ->
  exists st r, assign_graph ss nodes to from budget = Some (st, r) /\
    ((st = Completed /\ all_assigned ss (fst to) (fst from) (fst r) /\ items (snd r) = items (snd from)
        /\ right_allocator nodes (alloc_of (snd to)) (alloc_of (snd from)) (alloc_of (snd r)))
     \/ (st = Thrown /\ r = to) \/ (st = Terminated /\ items (snd from) <> [])).
Proof. exact (graph_spec ss nodes to from budget). Qed.
Print Assumptions C87_graph_partial.

(** ** Examples *)

(** An allocator which propagates on copying only, for both containers of a contiguous edge storage. *)
Definition copies_only : traits nat := mk_traits true false false false id.
Definition contiguous (tr : traits nat) : list (slot nat) := [mk_slot tr true; mk_slot tr false].
Example C87_ex_alike : alike (contiguous copies_only) /\ (forall s, s ∈ contiguous copies_only -> keeps s).
Proof.
  split.
  - right. intros s s' Hs Hs'. unfold contiguous in *. rewrite !elem_of_cons, elem_of_nil in Hs, Hs'. by destruct_or! Hs; destruct_or! Hs'; subst.
  - intros s Hs a. unfold contiguous in *. rewrite !elem_of_cons, elem_of_nil in Hs. by destruct_or! Hs; subst.
Qed.
Example C87_ex_reset :
  assign (contiguous copies_only) [mk_cont 1 [10]; mk_cont 2 [11]] [mk_cont 3 [20; 21]; mk_cont 4 [22]] 2
    = Some (Completed, [mk_cont 3 [20; 21]; mk_cont 4 [22]], 0)
  /\ assign (contiguous copies_only) [mk_cont 1 [10]; mk_cont 2 [11]] [mk_cont 3 [20; 21]; mk_cont 4 [22]] 1
    = Some (Thrown, [mk_cont 1 [10]; mk_cont 2 [11]], 1).
Proof. by vm_compute. Qed.
Definition never (f : nat -> nat) : traits nat := mk_traits false false false false f.
Example C87_ex_stays :
  (forall s, s ∈ contiguous (never (fun _ => 0)) -> stays s)
  /\ assign (contiguous (never (fun _ => 0))) [mk_cont 1 [10]; mk_cont 2 [11]] [mk_cont 3 [20; 21]; mk_cont 4 [22]] 4
     = Some (Completed, [mk_cont 1 [20; 21]; mk_cont 2 [22]], 1).
Proof.
  split; [|by vm_compute]. intros s Hs. unfold contiguous in *. rewrite !elem_of_cons, elem_of_nil in Hs. by destruct_or! Hs; subst.
Qed.
Example C87_ex_graph :
  assign_graph (contiguous copies_only) copies_only ([mk_cont 1 [10]; mk_cont 2 [11]], mk_cont 5 [1]) ([mk_cont 3 [20; 21]; mk_cont 4 [22]], mk_cont 6 [2]) 3
    = Some (Completed, ([mk_cont 3 [20; 21]; mk_cont 4 [22]], mk_cont 6 [2])).
Proof. by vm_compute. Qed.

(** ** What does not hold *)

(** Allocators of which nothing propagates and copies of which are default constructed, like [std::pmr::polymorphic_allocator]:
    the program is terminated, rather than an exception thrown, if memory runs out after the copy has been made. *)
Theorem C87_terminates_refuted : exists (ss : list (slot nat)) (to from : list (cont nat nat)) budget,
  (forall s, s ∈ ss -> stays s) /\ alike ss /\ exists r left_, assign ss to from budget = Some (Terminated, r, left_).
Proof.
  exists [mk_slot (never (fun _ => 0)) true], [mk_cont 1 [10]], [mk_cont 2 [20]], 1. split; [|split].
  - by intros s ->%elem_of_list_singleton.
  - right. intros s s' Hs Hs'. apply elem_of_list_singleton in Hs as ->, Hs' as ->. done.
  - by eexists _, _.
Qed.
Print Assumptions C87_terminates_refuted.

(** If copies change the allocator and moving propagates, then copy assignment changes the allocator of the target though copying
    does not propagate; and if copying propagates, the allocator is not that of the source. *)
Theorem C87_selected_refuted :
  (exists (ss : list (slot nat)) (to from : list (cont nat nat)) budget r left_,
    (forall s, s ∈ ss -> pocca (traits_of s) = false) /\ assign ss to from budget = Some (Completed, r, left_) /\ map alloc_of r <> map alloc_of to) /\
  (exists (ss : list (slot nat)) (to from : list (cont nat nat)) budget r left_,
    (forall s, s ∈ ss -> pocca (traits_of s) = true) /\ assign ss to from budget = Some (Completed, r, left_) /\ map alloc_of r <> map alloc_of from).
Proof.
  split.
  - exists [mk_slot (mk_traits false true false false (fun _ => 0)) true], [mk_cont 1 [10]], [mk_cont 2 [20]], 1, [mk_cont 0 [20]], 0.
    split; [by intros s ->%elem_of_list_singleton|]. split; [by vm_compute|]. by vm_compute.
  - exists [mk_slot (mk_traits true true true false (fun _ => 0)) true], [mk_cont 1 [10]], [mk_cont 2 [20]], 1, [mk_cont 0 [20]], 0.
    split; [by intros s ->%elem_of_list_singleton|]. split; [by vm_compute|]. by vm_compute.
Qed.
Print Assumptions C87_selected_refuted.

(** The constructor which copies with an allocator does not use that allocator. *)
Theorem C87_extended_refuted : exists (s : slot nat) (c : cont nat nat) a r left_,
  extended_copy s c a 1 = Some (r, left_) /\ alloc_of r <> a.
Proof. exists (mk_slot (never (fun _ => 0)) true), (mk_cont 1 [10]), 2, (mk_cont 0 [10]), 0. by vm_compute. Qed.
Print Assumptions C87_extended_refuted.

(** The standard allocator for the edges, and another one, which does not propagate, for the partitions: not accepted, although either by itself is. *)
Theorem C87_mixed_refuted : exists (s s' : slot nat) (to from : list (cont nat nat)) budget,
  alike [s] /\ alike [s'] /\ assign [s; s'] to from budget = None.
Proof.
  exists (mk_slot (mk_traits false true false true id) true), (mk_slot (never id) false), [mk_cont 1 [10]; mk_cont 2 [11]], [mk_cont 1 [10]; mk_cont 2 [11]], 4.
  split; [left; by intros s ->%elem_of_list_singleton|]. split; [|by vm_compute].
  right. intros s s' Hs Hs'. apply elem_of_list_singleton in Hs as ->, Hs' as ->. done.
Qed.
Print Assumptions C87_mixed_refuted.

(** Whatever the allocators, the copy assignment of a graph terminates the program if its node weights cannot be copied. *)
Theorem C87_graph_refuted : exists (ss : list (slot nat)) nodes (to from : list (cont nat nat) * cont nat nat) budget r,
  (forall s, s ∈ ss -> keeps s) /\ alike ss /\ assign_graph ss nodes to from budget = Some (Terminated, r).
Proof.
  pose (std := mk_traits false true false true (@id nat)).
  exists [mk_slot std true], std, ([mk_cont 0 [10]], mk_cont 0 [1]), ([mk_cont 0 [20]], mk_cont 0 [2]), 1, ([mk_cont 0 [20]], mk_cont 0 [1]).
  split; [by intros s ->%elem_of_list_singleton|]. split; [left; by intros s ->%elem_of_list_singleton|by vm_compute].
Qed.
Print Assumptions C87_graph_refuted.
