(** Model of the meta data of edges: Source/sequoia/Maths/Graph/Connectivity.hpp L317-345, L695-707, L722-732, L748-757, L760-864,
    L1461-1546, and Edge.hpp L208-285.

    Each half of an edge has meta data of its own.  An edge is as in Model.v with the pair of its weight and its meta data for the
    weight.  Weights are compared as they are there: [W] is the unit type for graphs without weights, and the type of addresses for
    shared weights; undirected graphs with meta data and weights which are not shared do not compile (L783). *)
From stdpp Require Import list.
From Verif.Base Require Import Outcome.
From Verif.Graph Require Import Model.
Local Open Scope res_scope.

Section meta.
  Context {W M : Type} `{!EqDecision W}.

  Definition weight (e : edge (W * M)) : W := fst (wt e).
  Definition meta (e : edge (W * M)) : M := snd (wt e).
  Definition set_meta (m : M) (e : edge (W * M)) : edge (W * M) := Edge (tgt e) (comp e) (weight e, m).

  (** L317-L329, Edge.hpp L261 *)
  Definition set_edge_meta_data (s k : nat) (m : M) (g : graph (W * M)) : res (graph (W * M)) := upd g s k (set_meta m).
  (** L331-L345, Edge.hpp L271-L274 *)
  Definition mutate_edge_meta_data (s k : nat) (f : M -> M) (g : graph (W * M)) : res (graph (W * M)) :=
    upd g s k (fun e => set_meta (f (meta e)) e).

  (** L1463-L1475 with meta data; Edge.hpp L241-L244: the weight is that of the other half, the meta data is not *)
  Definition reciprocal_join_m (fl : flavour) (n1 n2 : nat) (m2 : M) (g : graph (W * M)) : res (graph (W * M)) :=
    let? r1 := rget g n1 in
    let? e := rget r1 (length r1 - 1) in
    match fl with
    | Embedded => push g n2 (Edge n1 (length r1 - 1) (weight e, m2))
    | _ => push g n2 (Edge n1 0 (weight e, m2))
    end.

  (** L695-L707 *)
  Definition join_m (fl : flavour) (n1 n2 : nat) (m1 m2 : M) (w : W) (g : graph (W * M)) : res (graph (W * M)) :=
    let? _ := check_node g n1 in
    let? _ := check_node g n2 in
    let? g := add_to_partition fl n1 n2 (w, m1) g in
    match fl with
    | Directed => Ok g
    | _ => reciprocal_join_m fl n1 n2 m2 g
    end.

  (** L1481-L1505 with meta data *)
  Definition insert_reciprocal_loop_m (n k1 pos2 : nat) (m2 : M) (g : graph (W * M)) : res (graph (W * M)) :=
    let pos1 := if pos2 <=? k1 then S k1 else k1 in
    let? e := get g n k1 in
    let? g := insert_at g n pos2 (Edge n pos1 (weight e, m2)) in
    if pos1 <? pos2 then modify_from (inc 1) n (S pos2) g
    else
      let? g := modify_comp (inc 1) n (seq (S pos2) (pos1 - S pos2)) g in
      modify_from (inc 1) n (S pos1) g.

  (** L1510-L1521 with meta data *)
  Definition insert_reciprocal_m (i1 k1 i2 k2 : nat) (m2 : M) (g : graph (W * M)) : res (graph (W * M)) :=
    let? e := get g i1 k1 in
    let? g := insert_at g i2 k2 (Edge i1 k1 (weight e, m2)) in
    modify_from (inc 1) i2 (S k2) g.

  (** L748-L757 *)
  Definition insert_join_loop_m (n k1 pos2 : nat) (m1 m2 : M) (w : W) (g : graph (W * M)) : res (graph (W * M)) :=
    let? r := rget g n in
    if length r + 1 <? pos2 then Throw OutOfRange
    else
      let? g := insert_to_partition n k1 n pos2 (w, m1) g in
      insert_reciprocal_loop_m n k1 pos2 m2 g.

  (** L722-L732 *)
  Definition insert_join_m (i1 k1 i2 k2 : nat) (m1 m2 : M) (w : W) (g : graph (W * M)) : res (graph (W * M)) :=
    if i1 =? i2 then insert_join_loop_m i1 k1 k2 m1 m2 w g
    else
      let? g := insert_to_partition i1 k1 i2 k2 (w, m1) g in
      insert_reciprocal_m i1 k1 i2 k2 m2 g.

  (** L773-L789: the meta data are not compared *)
  Definition is_partner_m (s : nat) (w : W) (e : edge (W * M)) : bool := (tgt e =? s) && bool_decide (w = weight e).

  (** L760-L864; the iterator is position [k] of node [s] *)
  Definition erase_edge_m (fl : flavour) (s k : nat) (g : graph (W * M)) : res (graph (W * M)) :=
    if order g =? 0 then Ok g
    else
      let? _ := check_node g s in
      let? r := rget g s in
      if k =? length r then Ok g
      else
        let? e := rget r k in
        match fl with
        | Directed => erase_at g s k
        | Undirected =>
            let t := tgt e in
            if negb (s =? t) then
              let? _ := check_node g t in
              let? rt := rget g t in
              match find_from (fun _ e' => is_partner_m s (weight e) e') 0 rt with
              | None => Throw LogicError
              | Some q =>
                  let? g := erase_at g s k in
                  erase_at g t q
              end
            else
              match find_from (fun j e' => negb (j =? k) && is_partner_m s (weight e) e') 0 r with
              | None => Throw LogicError
              | Some q =>
                  let dist := if q <? k then k - 1 else k in
                  let? g := erase_at g s q in
                  erase_at g s dist
              end
        | Embedded =>
            let t := tgt e in
            let c := comp e in
            if negb (s =? t) then
              let? g := erase_at g s k in
              let? g := modify_from (dec 1) s k g in
              let? g := erase_at g t c in
              modify_from (dec 1) t c g
            else if (c =? S k) || (k =? S c) then
              let lo := Nat.min k c in
              let? g := erase_at g s lo in
              let? g := erase_at g s lo in
              modify_from (dec 2) s lo g
            else
              let hi := Nat.max k c in
              let lo := Nat.min k c in
              let? g := erase_at g s hi in
              let? g := modify_from (dec 1) s hi g in
              let? g := erase_at g s lo in
              modify_from (dec 1) s lo g
        end.
End meta.
