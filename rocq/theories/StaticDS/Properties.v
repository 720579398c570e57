(** C05-C07, C29: the property theorems about to_array and the static containers. *)
From stdpp Require Import list.
From Verif.Base Require Import Outcome Order ListLemmas.
From Verif.Algo Require Import Model.
From Verif.StaticDS Require Import Model Spec Proofs ProofsTop.

(** C29, default constructible elements: the list, then value-initialized padding; a list which is
    too long is refused. *)
Theorem to_array_copies :
  forall (I T : Type) (fn : I -> T) (d : I) (n : nat) (l : list I),
    (length l <= n -> to_array fn (Some d) n l = Ok (fmap fn l ++ replicate (n - length l) (fn d))) /\
    (n < length l -> to_array fn (Some d) n l = Throw OutOfRange).
Proof. exact @to_array_copies_lemma. Qed.
Print Assumptions to_array_copies.

(** C29, elements without a default constructor: right when the list has exactly [n] elements... *)
Theorem to_array_copies_nondefault_partial :
  forall (I T : Type) (fn : I -> T) (l : list I),
    to_array fn None (length l) l = Ok (fmap fn l).
Proof. exact @to_array_full. Qed.
Print Assumptions to_array_copies_nondefault_partial.

(** ... but whenever the list is too short the code reads one past its end instead of throwing:
    the test at ArrayUtilities.hpp L37 is [i > l.size()], not [>=]. *)
Theorem to_array_short_list_undefined :
  forall (I T : Type) (fn : I -> T) (n : nat) (l : list I),
    length l < n -> to_array fn None n l = UB.
Proof. exact @to_array_short. Qed.
Print Assumptions to_array_short_list_undefined.

Theorem to_array_throws_on_short_list_refuted :
  exists (n : nat) (l : list nat),
    length l < n /\ ~ (exists e, to_array (fun x => x) None n l = Throw e).
Proof. exists 3, [7;8]. split; [cbn; lia|]. intros [e H]. vm_compute in H. discriminate. Qed.
Print Assumptions to_array_throws_on_short_list_refuted.

Example to_array_example :
  to_array S (Some 0) 4 [5;6] = Ok [6;7;1;1] /\ to_array S None 2 [5;6] = Ok [6;7].
Proof. by vm_compute. Qed.

(** C06.  Every history of a static_queue is that of a FIFO list of at most [n] elements. *)
Theorem static_queue_is_fifo :
  forall (T : Type) (dflt : option T) (n : nat) (l : list T),
    length l <= n -> (dflt = None -> length l = n) ->
    exists q, queue_make dflt n l = Ok q /\
      forall cs, history (queue_call n) q cs = history (fifo_call n) l cs.
Proof. exact @static_queue_is_fifo_lemma. Qed.
Print Assumptions static_queue_is_fifo.

(** C06, [operator==]: equality of the lists, wherever the queues start in their arrays. *)
Theorem static_queue_equality :
  forall (T : Type) (eqb : T -> T -> bool) (dflt : option T) (n : nat) (l m : list T) cs ds p q p' q',
    (forall x y, eqb x y = true <-> x = y) ->
    queue_make dflt n l = Ok p -> queue_make dflt n m = Ok q ->
    after (queue_call n) p cs = Some p' -> after (queue_call n) q ds = Some q' ->
    exists l' m' b,
      after (fifo_call n) l cs = Some l' /\ after (fifo_call n) m ds = Some m' /\
      queue_eq eqb n p' q' = Ok b /\ (b = true <-> l' = m').
Proof. exact @static_queue_equality_lemma. Qed.
Print Assumptions static_queue_equality.

Example queue_example :
  let cs := [Push 1; Push 2; Push 3; Push 4; Peek; Pop; Push 5; Peek; PeekBack; Size; Pop; Pop; Pop;
             Pop; IsEmpty; Push 6; Peek] in
  exists q, queue_make (Some 0) 3 [] = Ok q /\
    history (queue_call 3) q cs =
      [Done; Done; Done; Raised LogicError; Value 1; Done; Done; Value 2; Value 5; Count 3; Done; Done;
       Done; Done; Flag true; Done; Value 6].
Proof. eexists. split; [reflexivity|]. by vm_compute. Qed.

Example queue_equality_example :
  exists p q p' q', queue_make (Some 0) 3 [] = Ok p /\ queue_make (Some 0) 3 [2;3] = Ok q /\
    after (queue_call 3) p [Push 9; Push 2; Pop; Push 3] = Some p' /\
    after (queue_call 3) q [] = Some q' /\ q_front p' <> q_front q' /\
    queue_eq Nat.eqb 3 p' q' = Ok true.
Proof. do 4 eexists. do 4 (split; [reflexivity|]). split; [by vm_compute|reflexivity]. Qed.

(** C07.  Every history of a static_stack is that of a LIFO list of at most [n] elements. *)
Theorem static_stack_is_lifo :
  forall (T : Type) (dflt : option T) (n : nat) (l : list T),
    length l <= n -> (dflt = None -> length l = n) ->
    exists s, stack_make dflt n l = Ok s /\
      forall cs, history (stack_call n) s cs = history (lifo_call n) (reverse l) cs.
Proof. exact @static_stack_is_lifo_lemma. Qed.
Print Assumptions static_stack_is_lifo.

(** C07, [operator==]: only the live elements matter. *)
Theorem static_stack_equality :
  forall (T : Type) (eqb : T -> T -> bool) (dflt : option T) (n : nat) (l m : list T) cs ds p q p' q',
    (forall x y, eqb x y = true <-> x = y) ->
    stack_make dflt n l = Ok p -> stack_make dflt n m = Ok q ->
    after (stack_call n) p cs = Some p' -> after (stack_call n) q ds = Some q' ->
    exists l' m',
      after (lifo_call n) (reverse l) cs = Some l' /\ after (lifo_call n) (reverse m) ds = Some m' /\
      (stack_eq eqb p' q' = true <-> l' = m').
Proof. exact @static_stack_equality_lemma. Qed.
Print Assumptions static_stack_equality.

Example stack_example :
  let cs := [Push 1; Push 2; Push 3; Peek; Pop; Push 4; Peek; Size; Pop; Pop; IsEmpty; Pop; Size] in
  exists q, stack_make (Some 0) 2 [] = Ok q /\
    history (stack_call 2) q cs =
      [Done; Done; Raised LogicError; Value 2; Done; Done; Value 4; Count 2; Done; Done; Flag true;
       Undefined].
Proof. eexists. split; [reflexivity|]. by vm_compute. Qed.

(** C05, default constructor: every history is that of a bag delivering maximal elements. *)
Theorem static_priority_queue_is_bag :
  forall (T : Type) (comp : T -> T -> bool) (d : T) (n : nat) cs,
    strict_weak comp ->
    bag_history comp n [] cs (history (pq_call comp n) (pq_default d n) cs).
Proof. exact @static_priority_queue_is_bag_lemma. Qed.
Print Assumptions static_priority_queue_is_bag.

(** C05: [pop] removes the element [top] has shown, in any reachable state. *)
Theorem static_priority_queue_pops_top :
  forall (T : Type) (comp : T -> T -> bool) (d : T) (n : nat) cs q x,
    strict_weak comp ->
    after (pq_call comp n) (pq_default d n) cs = Some q ->
    pq_top q = Ok x ->
    exists q', pq_pop comp q = Ok q' /\
      take (pq_size q) (pq_arr q) ≡ₚ x :: take (pq_size q') (pq_arr q').
Proof. exact @static_priority_queue_pops_top_lemma. Qed.
Print Assumptions static_priority_queue_pops_top.

(** C05, construction from an initializer list: right if the list fills the queue, or if no element
    of the list is outranked by the value-initialized padding. *)
Theorem static_priority_queue_from_list_partial :
  forall (T : Type) (comp : T -> T -> bool) (dflt : option T) (n : nat) (l : list T),
    strict_weak comp ->
    length l <= n -> (dflt = None -> length l = n) ->
    (forall d x, dflt = Some d -> x ∈ l -> length l < n -> comp x d = false) ->
    exists q, pq_make comp dflt n l = Ok q /\
      forall cs, bag_history comp n l cs (history (pq_call comp n) q cs).
Proof. exact @static_priority_queue_from_list_lemma. Qed.
Print Assumptions static_priority_queue_from_list_partial.

(** C05 is false of the initializer-list constructor in general: [make_Q] makes a heap of the whole
    array, padding included, so padding may end up among the live elements.  Here a queue of
    capacity 3 ordered by [greater] made from {5} has top() == 0, although 0 was never pushed. *)
Theorem static_priority_queue_from_list_refuted :
  exists (comp : nat -> nat -> bool) (d n : nat) (l : list nat) q,
    strict_weak comp /\ length l <= n /\ pq_make comp (Some d) n l = Ok q /\
    exists x, pq_top q = Ok x /\ x ∉ l.
Proof. exact static_priority_queue_from_list_refuted_lemma. Qed.
Print Assumptions static_priority_queue_from_list_refuted.

Example pq_example :
  history (pq_call Nat.ltb 3) (pq_default 0 3)
    [Push 4; Push 7; Push 5; Push 1; Peek; Pop; Peek; Push 9; Peek; Size; Pop; Pop; Peek] =
    [Done; Done; Done; Raised LogicError; Value 7; Done; Value 5; Done; Value 9; Count 3; Done; Done;
     Value 4].
Proof. by vm_compute. Qed.

Example pq_from_list_hypotheses :
  strict_weak Nat.ltb /\ forall x, x ∈ [3;8;5] -> Nat.ltb x 0 = false.
Proof. split; [exact ltb_strict_weak|]. intros x _. apply Nat.ltb_ge. lia. Qed.
