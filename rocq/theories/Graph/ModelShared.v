(** Model of graphs whose edges share their weights: the two halves of an edge hold one pointer
    (object::shared, Source/sequoia/Core/Object/Handlers.hpp L70-L110; Edge.hpp L45-L114;
    Connectivity.hpp L777-L784).  A weight is then an address; what is stored there is the heap. *)
From stdpp Require Import list.
From Verif.Base Require Import Outcome.
From Verif.Graph Require Import Model.
Local Open Scope res_scope.

Section shared.
  Context {V : Type}.

  Record sgraph := SGraph { sedges : graph nat; heap : list V }.

  Inductive sop :=
    | SPlain (o : op nat)
    | SJoin (n1 n2 : nat) (v : V)
    | SInsertJoin (i1 k1 i2 k2 : nat) (v : V)
    | SInsertLoop (i k pos2 : nat) (v : V)
    | SSet (i k : nat) (v : V)
    | SMutate (i k : nat) (f : V -> V).

  (** The weight seen through edge [k] of node [i]. *)
  Definition sweight (g : sgraph) (i k : nat) : res V :=
    let? e := get (sedges g) i k in rget (heap g) (wt e).

  Definition sstep (fl : flavour) (o : sop) (g : sgraph) : res sgraph :=
    match o with
    | SPlain o => let? es := step fl o (sedges g) in Ok (SGraph es (heap g))
    (* Edge.hpp L89-L93: the first half makes a new weight; Edge.hpp L162-L165 and L99-L102, the second shares it *)
    | SJoin n1 n2 v =>
        let? es := step fl (Join n1 n2 (length (heap g))) (sedges g) in Ok (SGraph es (heap g ++ [v]))
    | SInsertJoin i1 k1 i2 k2 v =>
        let? es := step fl (InsertJoin i1 k1 i2 k2 (length (heap g))) (sedges g) in Ok (SGraph es (heap g ++ [v]))
    | SInsertLoop i k pos2 v =>
        let? es := step fl (InsertLoop i k pos2 (length (heap g))) (sedges g) in Ok (SGraph es (heap g ++ [v]))
    (* Connectivity.hpp L287 and Edge.hpp L61-L71 *)
    | SSet i k v =>
        let? e := get (sedges g) i k in
        let? h := rset (heap g) (wt e) v in Ok (SGraph (sedges g) h)
    (* L307 and L1384 *)
    | SMutate i k f =>
        let? e := get (sedges g) i k in
        let? v := rget (heap g) (wt e) in
        let? h := rset (heap g) (wt e) (f v) in Ok (SGraph (sedges g) h)
    end.
End shared.
Arguments sgraph : clear implicits.
Arguments sop : clear implicits.
