(** What is claimed of copies of graphs with shared weights (C88). *)
From stdpp Require Import list.
From Verif.Graph Require Import Model ModelShared Spec.

Section spec.
  Context {V : Type}.
  Implicit Types g c : sgraph V.

  (** All edges have a weight. *)
  Definition weights_exist g : Prop := forall i k e, row (sedges g) i !! k = Some e -> wt e < length (heap g).

  (** The weights of the copy are new; the old ones are as they were. *)
  Definition own_weights g c : Prop :=
    (exists more, heap c = heap g ++ more) /\
    forall i k e, row (sedges c) i !! k = Some e -> length (heap g) <= wt e < length (heap c).

  (** The same nodes and edges. *)
  Definition same_shape (fl : flavour) g c : Prop :=
    length (sedges c) = length (sedges g) /\
    (forall i, length (row (sedges c) i) = length (row (sedges g) i)) /\
    forall i k e e', row (sedges g) i !! k = Some e -> row (sedges c) i !! k = Some e' -> tgt e' = tgt e /\ (fl = Embedded -> comp e' = comp e).

  (** The same values. *)
  Definition same_values g c : Prop :=
    forall i k e e', row (sedges g) i !! k = Some e -> row (sedges c) i !! k = Some e' -> heap c !! wt e' = heap g !! wt e.

  (** Weights are shared in the one exactly if they are in the other. *)
  Definition same_sharing g c : Prop :=
    forall i k j l e1 e1' e2 e2',
      row (sedges g) i !! k = Some e1 -> row (sedges c) i !! k = Some e1' ->
      row (sedges g) j !! l = Some e2 -> row (sedges c) j !! l = Some e2' ->
      (wt e1' = wt e2' <-> wt e1 = wt e2).

  (** The complementary indices of embedded graphs are right, whatever the weights. *)
  Definition halves_ok (es : graph nat) : Prop :=
    forall i k e, row es i !! k = Some e ->
      exists e', row es (tgt e) !! comp e = Some e' /\ tgt e' = i /\ comp e' = k /\ (tgt e, comp e) <> (i, k).

  (** Weights are shared by the halves of edges, and not otherwise. *)
  Definition shared_by_halves (es : graph nat) : Prop :=
    forall i k j l e1 e2, row es i !! k = Some e1 -> row es j !! l = Some e2 ->
      (wt e1 = wt e2 <-> (i, k) = (j, l) \/ (tgt e1, comp e1) = (j, l)).
End spec.
