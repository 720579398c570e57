(** C01-C04: the property theorems about Algorithms.hpp. *)
From stdpp Require Import list.
From Verif.Base Require Import Outcome Order ListLemmas.
From Verif.Algo Require Import Model Spec Proofs ProofsStable ProofsCluster.

(** A non-trivial instance of the hypotheses: pairs compared through a projection, with ties. *)
Example strict_weak_example :
  strict_weak (fun x y : nat * nat => Nat.ltb x.1 y.1).
Proof.
  split.
  - intros x. apply Nat.ltb_irrefl.
  - intros x y z H1 H2. apply Nat.ltb_lt in H1, H2. apply Nat.ltb_lt. lia.
  - intros x y z H1 H2 H3 H4. apply Nat.ltb_ge in H1, H2, H3, H4.
    split; apply Nat.ltb_ge; lia.
Qed.

(** C01.  [sort] never reads outside the range, terminates, and leaves a sorted permutation. *)
Theorem sort_sorts :
  forall (A B : Type) (comp : B -> B -> bool) (proj : A -> B),
    strict_weak (fun x y => comp (proj x) (proj y)) ->
    forall l : list A,
      exists l', sort comp proj l = Ok l' /\ l' ≡ₚ l /\
        sorted_by (fun x y => comp (proj x) (proj y)) l'.
Proof. exact @sort_spec. Qed.
Print Assumptions sort_sorts.

Example sort_example :
  sort Nat.ltb fst [(3,0);(1,1);(2,2);(3,3);(0,4);(1,5)] =
    Ok [(0,4);(1,5);(1,1);(2,2);(3,3);(3,0)].
Proof. vm_compute. reflexivity. Qed.

(** C02.  [stable_sort] sorts and keeps tied elements in order, whatever the scratch buffer is. *)
Theorem stable_sort_sorts_stably :
  forall (A B : Type) (comp : B -> B -> bool) (proj : A -> B),
    strict_weak (fun x y => comp (proj x) (proj y)) ->
    forall (dflt : option A) (l : list A),
      exists l', stable_sort comp proj dflt l = Ok l' /\ l' ≡ₚ l /\
        sorted_by (fun x y => comp (proj x) (proj y)) l' /\
        stable (fun x y => comp (proj x) (proj y)) l l'.
Proof. exact @stable_sort_spec. Qed.
Print Assumptions stable_sort_sorts_stably.

(** C02, overload with a caller supplied buffer: it must be at least as long as the range; it is
    then never accessed beyond that length. *)
Theorem stable_sort_buffered_sorts_stably :
  forall (A B : Type) (comp : B -> B -> bool) (proj : A -> B),
    strict_weak (fun x y => comp (proj x) (proj y)) ->
    forall (l out : list A), length l <= length out ->
      exists l' out', stable_sort_buffered comp proj l out = Ok (l', out') /\ l' ≡ₚ l /\
        sorted_by (fun x y => comp (proj x) (proj y)) l' /\
        stable (fun x y => comp (proj x) (proj y)) l l' /\
        length out' = length out /\ drop (length l) out' = drop (length l) out.
Proof. exact @stable_sort_buffered_spec. Qed.
Print Assumptions stable_sort_buffered_sorts_stably.

Example stable_sort_example :
  stable_sort Nat.ltb fst (Some (0,0)) [(3,0);(1,1);(2,2);(3,3);(0,4);(1,5);(3,6)] =
    Ok [(0,4);(1,1);(1,5);(2,2);(3,0);(3,3);(3,6)].
Proof. vm_compute. reflexivity. Qed.

(** C03.  [cluster] leaves a permutation in which equal elements are contiguous. *)
Theorem cluster_clusters :
  forall (A B : Type) (comp : B -> B -> bool) (proj : A -> B),
    equivalence (fun x y => comp (proj x) (proj y)) ->
    forall l : list A,
      exists l', cluster comp proj l = Ok l' /\ l' ≡ₚ l /\
        contiguous (fun x y => comp (proj x) (proj y)) l'.
Proof. exact @cluster_spec. Qed.
Print Assumptions cluster_clusters.

Example cluster_hypothesis : equivalence (fun x y : nat * nat => Nat.eqb x.1 y.1).
Proof.
  split; intros.
  - apply Nat.eqb_refl.
  - rewrite Nat.eqb_eq in *. lia.
  - rewrite Nat.eqb_eq in *. lia.
Qed.

Example cluster_example :
  cluster Nat.eqb fst [(3,0);(1,1);(3,2);(2,3);(1,4);(3,5)] =
    Ok [(3,0);(3,2);(3,5);(2,3);(1,4);(1,1)].
Proof. vm_compute. reflexivity. Qed.

(** C04.  [make_heap], [bubble_up] and [bubble_down] (re-)establish the heap property without
    touching anything outside the heap. *)
Theorem make_heap_makes_heap :
  forall (A B : Type) (comp : B -> B -> bool) (proj : A -> B),
    strict_weak (fun x y => comp (proj x) (proj y)) ->
    forall (l : list A) (n : nat), n <= length l ->
      exists l', make_heap comp proj l n = Ok l' /\ l' ≡ₚ l /\
        is_heap (fun x y => comp (proj x) (proj y)) n l' /\
        (forall i, n <= i -> l' !! i = l !! i).
Proof. exact @make_heap_spec. Qed.
Print Assumptions make_heap_makes_heap.

Theorem bubble_up_extends_heap :
  forall (A B : Type) (comp : B -> B -> bool) (proj : A -> B),
    strict_weak (fun x y => comp (proj x) (proj y)) ->
    forall (l : list A) (c : nat), c < length l ->
      is_heap (fun x y => comp (proj x) (proj y)) c l ->
      exists l', bubble_up comp proj l c = Ok l' /\ l' ≡ₚ l /\
        is_heap (fun x y => comp (proj x) (proj y)) (S c) l' /\
        (forall k, c < k -> l' !! k = l !! k).
Proof. exact @bubble_up_spec. Qed.
Print Assumptions bubble_up_extends_heap.

Theorem bubble_down_repairs_heap :
  forall (A B : Type) (comp : B -> B -> bool) (proj : A -> B),
    strict_weak (fun x y => comp (proj x) (proj y)) ->
    forall (l : list A) (n : nat), n <= length l ->
      (forall i j x y, 0 < i -> j < n -> j = 2 * i + 1 \/ j = 2 * i + 2 ->
         l !! i = Some x -> l !! j = Some y -> comp (proj x) (proj y) = false) ->
      exists l', bubble_down comp proj l 0 n = Ok l' /\ l' ≡ₚ l /\
        is_heap (fun x y => comp (proj x) (proj y)) n l' /\
        (forall k, n <= k -> l' !! k = l !! k).
Proof. exact @bubble_down_spec. Qed.
Print Assumptions bubble_down_repairs_heap.

(** The root of a heap is maximal. *)
Theorem heap_root_is_maximal :
  forall (A B : Type) (comp : B -> B -> bool) (proj : A -> B),
    strict_weak (fun x y => comp (proj x) (proj y)) ->
    forall (n : nat) (l : list A) (x y : A) (j : nat),
      is_heap (fun x y => comp (proj x) (proj y)) n l -> j < n ->
      l !! 0 = Some x -> l !! j = Some y -> n <= length l -> comp (proj x) (proj y) = false.
Proof. exact @heap_root_max. Qed.
Print Assumptions heap_root_is_maximal.

Example heap_example :
  make_heap Nat.ltb (fun x => x) [3;1;4;1;5;9;2;6] 6 = Ok [9;4;5;1;1;3;2;6].
Proof. vm_compute. reflexivity. Qed.
