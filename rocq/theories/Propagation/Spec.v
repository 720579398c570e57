(** What copy assignment is to do. *)
From stdpp Require Import list.
From Verif.Propagation Require Import Model.

Section spec.
  Context {A T : Type}.

  (** The allocator of a container after an assignment: that of the source exactly if it propagates. Allocators of a type
      all instances of which are equal need not be told apart. *)
  Definition right_allocator (tr : traits A) (to from res : A) : Prop :=
    always_equal tr = true \/ res = (if pocca tr then from else to).

  (** Elements from the source, and the right allocator. *)
  Definition assigned (s : slot A) (to from res : cont A T) : Prop :=
    items res = items from /\ right_allocator (traits_of s) (alloc_of to) (alloc_of from) (alloc_of res).
  Inductive all_assigned : list (slot A) -> list (cont A T) -> list (cont A T) -> list (cont A T) -> Prop :=
    | all_assigned_nil : all_assigned [] [] [] []
    | all_assigned_cons s ss t ts f fs r rs : assigned s t f r -> all_assigned ss ts fs rs -> all_assigned (s :: ss) (t :: ts) (f :: fs) (r :: rs).

  (** Copies keep their allocator. *)
  Definition keeps (s : slot A) : Prop := forall a, socc (traits_of s) a = a.
  (** Nothing propagates, as for [std::pmr::polymorphic_allocator]. *)
  Definition stays (s : slot A) : Prop :=
    pocca (traits_of s) = false /\ pocma (traits_of s) = false /\ always_equal (traits_of s) = false.
  (** What propagates is the same for all allocators (allocators which are always equal count as propagating). *)
  Definition alike (ss : list (slot A)) : Prop :=
    (forall s, s ∈ ss -> always_equal (traits_of s) = true) \/
    forall s s', s ∈ ss -> s' ∈ ss ->
      let t := traits_of s in let t' := traits_of s' in
      (pocca t || always_equal t) = (pocca t' || always_equal t') /\ (pocma t || always_equal t) = (pocma t' || always_equal t')
      /\ (pocs t || always_equal t) = (pocs t' || always_equal t').
End spec.
