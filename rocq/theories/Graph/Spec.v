(** What is claimed of graphs, in terms of their rows (the edge lists of their nodes) only. *)
From stdpp Require Import list.
From Verif.Base Require Import Outcome.
From Verif.Graph Require Import Model.

Section spec.
  Context {W : Type} `{!EqDecision W}.
  Implicit Types g : graph W.

  (** The edges of node [i]. *)
  Definition row g (i : nat) : list (edge W) := default [] (g !! i).

  (** The number of (partial) edges of weight [w] from [i] to [j]. *)
  Definition count g (i j : nat) (w : W) : nat :=
    length (filter (fun e => tgt e = j /\ wt e = w) (row g i)).

  Definition in_range g : Prop := forall i e, e ∈ row g i -> tgt e < length g.

  (** C13. *)
  Definition reciprocal g : Prop :=
    in_range g
    /\ (forall i j w, count g i j w = count g j i w)
    /\ (forall i w, Nat.Even (count g i i w)).

  (** C14.  The last clause says that the two halves of a loop are different. *)
  Definition comp_ok g : Prop :=
    forall i k e, row g i !! k = Some e ->
      exists e', row g (tgt e) !! comp e = Some e'
        /\ tgt e' = i /\ comp e' = k /\ wt e' = wt e
        /\ (tgt e, comp e) <> (i, k).

  Definition graph_ok (fl : flavour) g : Prop :=
    match fl with
    | Directed => in_range g
    | Undirected => reciprocal g
    | Embedded => comp_ok g
    end.

  (** C15.  The new number of a node when node [n] goes away, or comes in. *)
  Definition down (n t : nat) : nat := if decide (n < t) then t - 1 else t.
  Definition up (n t : nat) : nat := if decide (n <= t) then t + 1 else t.

  (** The number of edges of node [i] to [n] before position [c]. *)
  Definition gone_before g (n i c : nat) : nat :=
    length (filter (fun e => tgt e = n) (take c (row g i))).

  (** Only embedded graphs have complementary indices to keep right. *)
  Definition new_comp (fl : flavour) g (n : nat) (e : edge W) : nat :=
    match fl with
    | Embedded => comp e - gone_before g n (tgt e) (comp e)
    | _ => comp e
    end.

  (** The graph induced on the nodes other than [n]; node [i] of it is node [up n i] of [g]. *)
  Definition is_erased (fl : flavour) (n : nat) g g' : Prop :=
    length g' = length g - 1 /\
    forall i, i < length g' ->
      row g' i = map (fun e => Edge (down n (tgt e)) (new_comp fl g n e) (wt e))
                   (filter (fun e => tgt e <> n) (row g (up n i))).

  Definition is_inserted (n : nat) g g' : Prop :=
    length g' = S (length g) /\
    row g' n = [] /\
    forall i, i < length g ->
      row g' (up n i) = map (fun e => Edge (up n (tgt e)) (comp e) (wt e)) (row g i).

  (** C16. *)
  Definition transpose (i j t : nat) : nat :=
    if decide (t = i) then j else if decide (t = j) then i else t.

  Definition is_swapped (i j : nat) g g' : Prop :=
    length g' = length g /\
    forall a, row g' (transpose i j a)
      = map (fun e => Edge (transpose i j (tgt e)) (comp e) (wt e)) (row g a).

  (** C18.  The number of edges that node [n] is an end of. *)
  Definition incident_edges (fl : flavour) g (n : nat) : nat :=
    let loops := length (filter (fun e => tgt e = n) (row g n)) in
    let others := length (filter (fun e => tgt e <> n) (row g n)) in
    match fl with
    | Directed => others + length (filter (fun e => tgt e = n) (mjoin g))
    | _ => others + loops / 2
    end.

  (** *** Histories *)

  Definition iter_ok g (i k : nat) : Prop := i < length g /\ k <= length (row g i).

  (** The calls each kind of graph offers, with valid iterators into the graph. *)
  Definition allowed (fl : flavour) g (o : op W) : Prop :=
    match o with
    | InsertJoin i1 k1 i2 k2 _ =>
        fl = Embedded /\ iter_ok g i1 k1 /\ iter_ok g i2 k2
    | InsertLoop i k _ _ => fl = Embedded /\ iter_ok g i k
    | EraseEdge i k => iter_ok g i k
    | SwapEdges _ _ _ => fl <> Embedded
    | SortEdges i1 k1 i2 k2 sorter =>
        fl <> Embedded /\ iter_ok g i1 k1 /\ iter_ok g i2 k2
        /\ (i1 = i2 -> k1 <= k2) /\ (forall l, sorter l ≡ₚ l)
    | SetEdgeWeight i k _ | MutateEdgeWeight i k _ => is_Some (row g i !! k)
    | _ => True
    end.

  (** A call that throws leaves the graph alone (but see Faults for exceptions not thrown by the
      library itself). *)
  Inductive reachable (fl : flavour) (g0 : graph W) : graph W -> Prop :=
    | reach_refl : reachable fl g0 g0
    | reach_step g o g' :
        reachable fl g0 g -> allowed fl g o -> step fl o g = Ok g' -> reachable fl g0 g'.
End spec.
