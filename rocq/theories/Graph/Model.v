(** Model of the edge storage of graphs: connectivity_base in
    Source/sequoia/Maths/Graph/Connectivity.hpp and its edges (Edge.hpp).

    The storage m_Edges is a list of lists of edges: bucketed_sequence and partitioned_sequence were
    shown to be that (C09, C10).  An iterator over the edges of a node is a pair of the node and a
    position.  Indices are unbounded.  Edge meta data is not modelled: it is carried along unread.
    A weight is compared by identity: [W] is the type of values for weights stored in each half
    of an edge, the unit type for graphs without edge weights, and the type of addresses for shared
    weights (Connectivity.hpp L777-L784 compares addresses in the last case). *)
From stdpp Require Import list sorting.
From Verif.Base Require Import Outcome.
Local Open Scope res_scope.

(** GraphDetails.hpp L22. *)
Inductive flavour := Directed | Undirected | Embedded.

(** Edge.hpp L300-L315 and L325-L375.  [comp] is the complementary index, which only the edges of
    embedded graphs have; the others have 0 there, which is never read. *)
Record edge (W : Type) := Edge { tgt : nat; comp : nat; wt : W }.
Global Arguments Edge {W} tgt comp wt.
Global Arguments tgt {W} e.
Global Arguments comp {W} e.
Global Arguments wt {W} e.

Notation graph W := (list (list (edge W))).

Section connectivity.
  Context {W : Type} `{!EqDecision W}.

  Definition set_tgt (n : nat) (e : edge W) : edge W := Edge n (comp e) (wt e).
  Definition set_comp (n : nat) (e : edge W) : edge W := Edge (tgt e) n (wt e).
  Definition set_wt (w : W) (e : edge W) : edge W := Edge (tgt e) (comp e) w.

  (** *** Storage *)

  (** L217. *)
  Definition order (g : graph W) : nat := length g.
  Definition num_partial_edges (g : graph W) : nat := length (mjoin g).
  (** L220-L223. *)
  Definition size (fl : flavour) (g : graph W) : nat :=
    match fl with Directed => num_partial_edges g | _ => num_partial_edges g / 2 end.

  (** [m_Edges.begin_partition(i)[k]] and assignment through it. *)
  Definition get (g : graph W) (i k : nat) : res (edge W) :=
    let? r := rget g i in rget r k.
  Definition upd (g : graph W) (i k : nat) (f : edge W -> edge W) : res (graph W) :=
    let? r := rget g i in
    let? e := rget r k in
    Ok (<[i := <[k := f e]> r]> g).
  (** [m_Edges.push_back_to_partition(i, e)]. *)
  Definition push (g : graph W) (i : nat) (e : edge W) : res (graph W) :=
    let? r := rget g i in Ok (<[i := r ++ [e]]> g).
  (** [m_Edges.insert_to_partition(i[k], e)]; an iterator past the end is invalid. *)
  Definition insert_at (g : graph W) (i k : nat) (e : edge W) : res (graph W) :=
    let? r := rget g i in
    if k <=? length r then Ok (<[i := take k r ++ e :: drop k r]> g) else UB.
  (** [m_Edges.erase_from_partition(i[k])]. *)
  Definition erase_at (g : graph W) (i k : nat) : res (graph W) :=
    let? r := rget g i in
    let? e := rget r k in
    Ok (<[i := take k r ++ drop (S k) r]> g).

  (** check_node_index_range, GraphErrors.hpp L58-L68. *)
  Definition check_node (g : graph W) (n : nat) : res unit :=
    if n <? order g then Ok tt else Throw OutOfRange.

  (** *** Complementary indices *)

  (** L1550-L1584, modify_comp_indices: the positions [ks] of node [s] are visited one after the other. *)
  Fixpoint modify_comp (f : nat -> nat) (s : nat) (ks : list nat) (g : graph W) : res (graph W) :=
    match ks with
    | [] => Ok g
    | k :: ks =>
        let? e := get g s k in
        let c := comp e in
        let pos := if tgt e =? s then (if f c <=? k then c else f c) else c in   (* L1565-L1580 *)
        let? g := upd g (tgt e) pos (fun p => set_comp (f (comp p)) p) in        (* L1559-L1560 *)
        modify_comp f s ks g
    end.

  (** The positions from [k] to the end of row [s] are visited. *)
  Definition modify_from (f : nat -> nat) (s k : nat) (g : graph W) : res (graph W) :=
    let? r := rget g s in modify_comp f s (seq k (length r - k)) g.

  (** L1587-L1590; subtraction of natural numbers stops at 0, as the code does. *)
  Definition dec (num c : nat) : nat := c - num.
  (** L1593-L1596. *)
  Definition inc (num c : nat) : nat := c + num.

  (** *** Nodes *)

  (** L604-L607. *)
  Definition add_node (g : graph W) : graph W := g ++ [[]].

  (** L1599-L1609. *)
  Definition fix_edge_data (p : nat -> bool) (f : nat -> nat) (g : graph W) : graph W :=
    map (map (fun e => if p (tgt e) then set_tgt (f (tgt e)) e else e)) g.

  (** L609-L618, with the clamping of GraphPrimitive.hpp L582 (connectivity's own insert_node is
      protected and is only called with a clamped position). *)
  Definition insert_node (pos : nat) (g : graph W) : graph W :=
    let n := Nat.min pos (order g) in
    fix_edge_data (fun t => n <=? t) S (take n g ++ [] :: drop n g).

  (** std::ranges::sort followed by std::ranges::unique. *)
  Definition sorted_unique (l : list nat) : list nat := remove_dups (merge_sort le l).

  (** L914-L918. *)
  Definition erase_from_partition_if (g : graph W) (i : nat) (p : edge W -> bool) : res (graph W) :=
    let? r := rget g i in Ok (<[i := filter (fun e => p e = false) r]> g).

  Fixpoint foldM {A B} (f : B -> A -> res B) (l : list A) (b : B) : res B :=
    match l with
    | [] => Ok b
    | a :: l => let? b := f b a in foldM f l b
    end.

  (** L644-L655; each iteration shortens what is left of the row by one. *)
  Fixpoint erase_embedded (fuel n p k : nat) (g : graph W) : res (graph W) :=
    let? r := rget g p in
    if k =? length r then Ok g
    else
      match fuel with
      | 0 => NoFuel
      | S fuel =>
          let? e := rget r k in
          if tgt e =? n then
            let? g := erase_at g p k in
            let? g := modify_from (dec 1) p k g in
            erase_embedded fuel n p k g
          else erase_embedded fuel n p (S k) g
      end.

  (** L637-L661, the body of the loop over the neighbours of the node. *)
  Definition erase_partners (fl : flavour) (n : nat) (g : graph W) (p : nat) : res (graph W) :=
    match fl with
    | Embedded => let? r := rget g p in erase_embedded (length r) n p 0 g
    | _ => erase_from_partition_if g p (fun e => tgt e =? n)
    end.

  (** L620-L679. *)
  Definition erase_node (fl : flavour) (n : nat) (g : graph W) : res (graph W) :=
    let? _ := check_node g n in                                                  (* L622 *)
    let? g :=
      match fl with
      | Directed =>                                                              (* L665-L671 *)
          foldM (fun g i => if i =? n then Ok g else erase_from_partition_if g i (fun e => tgt e =? n))
            (seq 0 (length g)) g
      | _ =>                                                                     (* L626-L661 *)
          let? r := rget g n in
          foldM (erase_partners fl n) (sorted_unique (filter (fun t => t <> n) (map tgt r))) g
      end in
    Ok (fix_edge_data (fun t => n <? t) pred (take n g ++ drop (S n) g)).        (* L674-L678 *)

  (** L446-L454. *)
  Definition swap_target (i j t : nat) : nat := if t =? i then j else if t =? j then i else t.
  Definition fix_up (i j : nat) (g : graph W) (n : nat) : res (graph W) :=
    let? r := rget g n in
    Ok (<[n := map (fun e => set_tgt (swap_target i j (tgt e)) e) r]> g).

  (** L440-L479. *)
  Definition swap_nodes (fl : flavour) (i j : nat) (g : graph W) : res (graph W) :=
    let? _ := check_node g i in
    let? _ := check_node g j in                                                  (* L442 *)
    if i =? j then Ok g                                                          (* L444 *)
    else
      let? rows :=
        match fl with
        | Directed => Ok (seq 0 (length g))                                      (* L472-L475 *)
        | _ =>                                                                   (* L459-L468 *)
            let? ri := rget g i in
            let? rj := rget g j in
            Ok (sorted_unique (map tgt ri ++ map tgt rj))
        end in
      let? g := foldM (fix_up i j) rows g in
      rswap g i j.                                                               (* L478 *)

  (** *** Edges *)

  (** L1524-L1536. *)
  Definition add_to_partition (fl : flavour) (n1 n2 : nat) (w : W) (g : graph W) : res (graph W) :=
    match fl with
    | Embedded =>
        let? r2 := rget g n2 in
        push g n1 (Edge n2 (if n1 =? n2 then length r2 + 1 else length r2) w)
    | _ => push g n1 (Edge n2 0 w)
    end.

  (** L1463-L1475; the new half edge copies the last edge of [n1]. *)
  Definition reciprocal_join (fl : flavour) (n1 n2 : nat) (g : graph W) : res (graph W) :=
    let? r1 := rget g n1 in
    let? e := rget r1 (length r1 - 1) in
    match fl with
    | Embedded => push g n2 (Edge n1 (length r1 - 1) (wt e))
    | _ => push g n2 (Edge n1 0 (wt e))
    end.

  (** L683-L693. *)
  Definition join (fl : flavour) (n1 n2 : nat) (w : W) (g : graph W) : res (graph W) :=
    let? _ := check_node g n1 in
    let? _ := check_node g n2 in
    let? g := add_to_partition fl n1 n2 w g in
    match fl with
    | Directed => Ok g
    | _ => reciprocal_join fl n1 n2 g
    end.

  (** L1539-L1546. *)
  Definition insert_to_partition (i1 k1 n2 pos2 : nat) (w : W) (g : graph W) : res (graph W) :=
    let? g := insert_at g i1 k1 (Edge n2 pos2 w) in
    modify_from (inc 1) i1 (S k1) g.

  (** L1481-L1505: the second half goes into the same node. *)
  Definition insert_reciprocal_loop (n k1 pos2 : nat) (g : graph W) : res (graph W) :=
    let pos1 := if pos2 <=? k1 then S k1 else k1 in                              (* L1485-L1486 *)
    let? e := get g n k1 in
    let? g := insert_at g n pos2 (Edge n pos1 (wt e)) in                         (* L1491 *)
    if pos1 <? pos2 then modify_from (inc 1) n (S pos2) g                        (* L1494 *)
    else
      let? g := modify_comp (inc 1) n (seq (S pos2) (pos1 - S pos2)) g in        (* L1499 *)
      modify_from (inc 1) n (S pos1) g.                                          (* L1500 *)

  (** L1510-L1521: into another node. *)
  Definition insert_reciprocal (i1 k1 i2 k2 : nat) (g : graph W) : res (graph W) :=
    let? e := get g i1 k1 in
    let? g := insert_at g i2 k2 (Edge i1 k1 (wt e)) in
    modify_from (inc 1) i2 (S k2) g.

  (** L738-L746. *)
  Definition insert_join_loop (n k1 pos2 : nat) (w : W) (g : graph W) : res (graph W) :=
    let? r := rget g n in
    if length r + 1 <? pos2 then Throw OutOfRange                                (* L741 *)
    else
      let? g := insert_to_partition n k1 n pos2 w g in
      insert_reciprocal_loop n k1 pos2 g.

  (** L712-L720. *)
  Definition insert_join (i1 k1 i2 k2 : nat) (w : W) (g : graph W) : res (graph W) :=
    if i1 =? i2 then insert_join_loop i1 k1 k2 w g                               (* L716 *)
    else
      let? g := insert_to_partition i1 k1 i2 k2 w g in                           (* L718 *)
      insert_reciprocal i1 k1 i2 k2 g.                                           (* L719 *)

  (** The first position in [l] from [k] on with property [p]. *)
  Fixpoint find_from (p : nat -> edge W -> bool) (k : nat) (l : list (edge W)) : option nat :=
    match l with
    | [] => None
    | e :: l => if p k e then Some k else find_from p (S k) l
    end.

  (** L773-L789, the partner of an edge of weight [w] of node [s]. *)
  Definition is_partner (s : nat) (w : W) (e : edge W) : bool :=
    (tgt e =? s) && bool_decide (w = wt e).

  (** L761-L864; the iterator is position [k] of node [s]. *)
  Definition erase_edge (fl : flavour) (s k : nat) (g : graph W) : res (graph W) :=
    if order g =? 0 then Ok g                                                    (* L766 *)
    else
      let? _ := check_node g s in
      let? r := rget g s in
      if k =? length r then Ok g                                                 (* L766 *)
      else
        let? e := rget r k in
        match fl with
        | Directed => erase_at g s k                                             (* L862 *)
        | Undirected =>
            let t := tgt e in
            if negb (s =? t) then
              let? _ := check_node g t in
              let? rt := rget g t in
              match find_from (fun _ e' => is_partner s (wt e) e') 0 rt with     (* L804 *)
              | None => Throw LogicError                                         (* L807 *)
              | Some q =>
                  let? g := erase_at g s k in                                    (* L811 *)
                  erase_at g t q                                                 (* L812 *)
              end
            else
              (* L846-L847: first before, then after the position *)
              match find_from (fun j e' => negb (j =? k) && is_partner s (wt e) e') 0 r with
              | None => Throw LogicError
              | Some q =>
                  let dist := if q <? k then k - 1 else k in                     (* L852-L853 *)
                  let? g := erase_at g s q in
                  erase_at g s dist
              end
        | Embedded =>
            let t := tgt e in
            let c := comp e in
            if negb (s =? t) then
              let? g := erase_at g s k in                                        (* L796 *)
              let? g := modify_from (dec 1) s k g in                             (* L797 *)
              let? g := erase_at g t c in                                        (* L799 *)
              modify_from (dec 1) t c g                                          (* L800 *)
            else if (c =? S k) || (k =? S c) then                                (* L822 *)
              let lo := Nat.min k c in                                           (* L824 *)
              let? g := erase_at g s lo in
              let? g := erase_at g s lo in                                       (* L825 *)
              modify_from (dec 2) s lo g                                         (* L827 *)
            else
              let hi := Nat.max k c in                                           (* L840 *)
              let lo := Nat.min k c in                                           (* L841 *)
              let? g := erase_at g s hi in
              let? g := modify_from (dec 1) s hi g in
              let? g := erase_at g s lo in
              modify_from (dec 1) s lo g
        end.

  (** L432-L437. *)
  Definition swap_edges (n i j : nat) (g : graph W) : res (graph W) :=
    let? _ := check_node g n in
    let? r := rget g n in
    if (i <? length r) && (j <? length r) then
      let? r := rswap r i j in Ok (<[n := r]> g)
    else Throw OutOfRange.

  (** L872-L878 and L888-L894: [sorter] is std::ranges::sort or sequoia::stable_sort with the given
      comparison.  Iterators into different nodes are ignored. *)
  Definition sort_edges (i1 k1 i2 k2 : nat) (sorter : list (edge W) -> list (edge W)) (g : graph W) : res (graph W) :=
    if negb (i1 =? i2) then Ok g
    else
      let? r := rget g i1 in
      if (k1 <=? k2) && (k2 <=? length r) then
        Ok (<[i1 := take k1 r ++ sorter (take (k2 - k1) (drop k1 r)) ++ drop k2 r]> g)
      else UB.

  (** L1396-L1446: the position of the other half of edge [k] of node [s]. *)
  Definition find_partner (fl : flavour) (s k : nat) (g : graph W) : res (nat * nat) :=
    let? e := get g s k in
    match fl with
    | Embedded => Ok (tgt e, comp e)                                             (* L1402-L1403 *)
    | _ =>
        let? _ := check_node g (tgt e) in                                        (* L1408 *)
        let? r := rget g (tgt e) in
        match (if s =? tgt e
               then find_from (fun j e' => negb (j =? k) &&
                      bool_decide (tgt e' = tgt e) && bool_decide (wt e' = wt e)) 0 r   (* L1411-L1421 *)
               else find_from (fun _ e' => (tgt e' =? s) && bool_decide (wt e' = wt e)) 0 r) (* L1425-L1432 *)
        with
        | Some q => Ok (tgt e, q)
        | None => Throw LogicError                                               (* L1443 *)
        end
    end.

  (** L267-L289, weights stored in each half. *)
  Definition set_edge_weight (fl : flavour) (s k : nat) (w : W) (g : graph W) : res (graph W) :=
    match fl with
    | Directed => upd g s k (set_wt w)
    | _ =>
        let? p := find_partner fl s k g in
        let? g := upd g (fst p) (snd p) (set_wt w) in
        let? e' := get g (fst p) (snd p) in
        upd g s k (set_wt (wt e'))
    end.

  (** L300-L308; [f] is called on the weight of each half. *)
  Definition mutate_edge_weight (fl : flavour) (s k : nat) (f : W -> W) (g : graph W) : res (graph W) :=
    let? g :=
      match fl with
      | Directed => Ok g
      | _ =>
          let? p := find_partner fl s k g in
          upd g (fst p) (snd p) (fun e => set_wt (f (wt e)) e)
      end in
    upd g s k (fun e => set_wt (f (wt e)) e).

  (** *** Histories *)

  Inductive op :=
    | AddNode
    | InsertNode (pos : nat)
    | EraseNode (n : nat)
    | Join (n1 n2 : nat) (w : W)
    | InsertJoin (i1 k1 i2 k2 : nat) (w : W)
    | InsertLoop (i k pos2 : nat) (w : W)
    | EraseEdge (i k : nat)
    | SwapNodes (i j : nat)
    | SwapEdges (n i j : nat)
    | SortEdges (i1 k1 i2 k2 : nat) (sorter : list (edge W) -> list (edge W))
    | SetEdgeWeight (i k : nat) (w : W)
    | MutateEdgeWeight (i k : nat) (f : W -> W).

  Definition step (fl : flavour) (o : op) (g : graph W) : res (graph W) :=
    match o with
    | AddNode => Ok (add_node g)
    | InsertNode pos => Ok (insert_node pos g)
    | EraseNode n => erase_node fl n g
    | Join n1 n2 w => join fl n1 n2 w g
    | InsertJoin i1 k1 i2 k2 w => insert_join i1 k1 i2 k2 w g
    | InsertLoop i k pos2 w => insert_join_loop i k pos2 w g
    | EraseEdge i k => erase_edge fl i k g
    | SwapNodes i j => swap_nodes fl i j g
    | SwapEdges n i j => swap_edges n i j g
    | SortEdges i1 k1 i2 k2 sorter => sort_edges i1 k1 i2 k2 sorter g
    | SetEdgeWeight i k w => set_edge_weight fl i k w g
    | MutateEdgeWeight i k f => mutate_edge_weight fl i k f g
    end.
End connectivity.
Arguments op : clear implicits.
