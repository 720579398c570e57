(** Model of the copying of graphs whose edges share their weights: copy_edges, Source/sequoia/Maths/Graph/Connectivity.hpp L1294-L1366
    and edge_maker, L50-L91.

    Weights are addresses in a heap, which the original and the copy have in common; addresses are compared as numbers (the language does
    not say how [<] orders unrelated pointers). Allocators and the reservation of memory are left out, except for L1348, see below.
    Edges with meta data are left out: L85, L1331 and L1336 do not compile for these. *)
From stdpp Require Import list.
From Verif.Base Require Import Outcome.
From Verif.Graph Require Import Model ModelShared.
Local Open Scope res_scope.

Section copying.
  Context {V : Type}.

  (** L61-L65: where the weight at an address has been put. *)
  Record place := Place { ptr : nat; place_node : nat; place_edge : nat }.

  (** The storage which is being made, the heap, and m_WeightMap. *)
  Record copying := Copying { made : graph nat; cheap : list V; places : list place }.

  (** L76: lower_bound, for a list in order. *)
  Fixpoint lower (p : nat) (l : list place) : nat :=
    match l with
    | [] => 0
    | x :: l => if ptr x <? p then S (lower p l) else 0
    end.

  (** L73-L91. *)
  Definition make_edge (node k : nat) (e : edge nat) (st : copying) : res copying :=
    let pos := lower (wt e) (places st) in
    let fresh :=
      (* L79-L85; Edge.hpp L89-L93 makes a new weight *)
      let? v := rget (cheap st) (wt e) in
      let? es := push (made st) node (Edge (tgt e) 0 (length (cheap st))) in
      Ok (Copying es (cheap st ++ [v]) (take pos (places st) ++ Place (wt e) node k :: drop pos (places st))) in
    match places st !! pos with
    | None => fresh
    | Some x =>
        if ptr x =? wt e then
          (* L89; Edge.hpp L162-L165 and L99-L102 share the weight *)
          let? p := get (made st) (place_node x) (place_edge x) in
          let? es := push (made st) node (Edge (tgt e) 0 (wt p)) in
          Ok (Copying es (cheap st) (places st))
        else fresh
    end.

  (** L1322-L1338. The other half is looked up in m_Edges, which the function is still making. *)
  Definition copy_embedded (node k : nat) (e : edge nat) (st : copying) : res copying :=
    if (tgt e <? node) || ((tgt e =? node) && (comp e <? k)) then
      let? p := get (made st) (tgt e) (comp e) in
      let? es := push (made st) node (Edge (tgt e) (comp e) (wt p)) in
      Ok (Copying es (cheap st) (places st))
    else
      let? v := rget (cheap st) (wt e) in
      let? es := push (made st) node (Edge (tgt e) (comp e) (length (cheap st))) in
      Ok (Copying es (cheap st ++ [v]) (places st)).

  (** L1360-L1363. *)
  Fixpoint copy_row (f : nat -> nat -> edge nat -> copying -> res copying) (node k : nat) (r : list (edge nat)) (st : copying) : res copying :=
    match r with
    | [] => Ok st
    | e :: r => let? st := f node k e st in copy_row f node (S k) r st
    end.

  (** L1353-L1364. *)
  Fixpoint copy_rows (f : nat -> nat -> edge nat -> copying -> res copying) (node : nat) (rows : graph nat) (st : copying) : res copying :=
    match rows with
    | [] => Ok st
    | r :: rows =>
        let? st := copy_row f node 0 r (Copying (made st ++ [[]]) (cheap st) (places st)) in
        copy_rows f (S node) rows st
    end.

  (** L1294-L1342. [nrvo] says that [storage] is m_Edges, by named return value optimisation; without it m_Edges does not exist
      yet when memory is reserved in it, L1348 and L496. *)
  Definition copy_shared (nrvo : bool) (fl : flavour) (g : sgraph V) : res (sgraph V) :=
    if nrvo then
      let? st := copy_rows (match fl with Embedded => copy_embedded | _ => make_edge end) 0 (sedges g) (Copying [] (heap g) []) in
      Ok (SGraph (made st) (cheap st))
    else UB.
End copying.
Arguments copying : clear implicits.
