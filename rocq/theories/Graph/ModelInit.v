(** Model of the construction of graphs from nested lists of edges: make_edges, preprocess, validate,
    visit_edges and process_edges in Source/sequoia/Maths/Graph/Connectivity.hpp L920-L1284.

    The initializer list is a list of lists of edges; the edges of directed and undirected graphs
    have complementary index 0.  Meta data is carried along unread (it is compared by operator== of
    edges, L1134; but undirected graphs with both weights and meta data must share weights,
    GraphDetails.hpp L129, and then L1203 does not compile). *)
From stdpp Require Import list.
From Verif.Base Require Import Outcome Order.
From Verif.Algo Require Model.
From Verif.Graph Require Import Model ModelShared.
Local Open Scope res_scope.

(** L956, L161: weights may be totally ordered, or not, or there may be no weights. *)
Inductive wmode (W : Type) := Ordered (lt : W -> W -> bool) | Unordered | NoWeight.
Arguments Ordered {W} lt.
Arguments Unordered {W}.
Arguments NoWeight {W}.

Section construction.
  Context {W : Type} `{!EqDecision W}.
  Implicit Types e : edge W.
  Implicit Types r : list (edge W).

  (** edge_comparer, L151-L169. *)
  Definition edge_lt (m : wmode W) e1 e2 : bool :=
    match m with
    | Ordered lt => if tgt e1 =? tgt e2 then lt (wt e1) (wt e2) else tgt e1 <? tgt e2
    | _ => tgt e1 <? tgt e2
    end.

  (** The length of the longest prefix satisfying [p]. *)
  Fixpoint prefix_len {A} (p : A -> bool) (l : list A) : nat :=
    match l with
    | x :: l => if p x then S (prefix_len p l) else 0
    | [] => 0
    end.

  (** L964-L976: the edges with the same target are clustered by weight. *)
  Fixpoint cluster_groups (fuel : nat) r : res (list (edge W)) :=
    match fuel with
    | O => NoFuel
    | S fuel =>
      match r with
      | [] => Ok []                                                                (* L967 *)
      | e :: _ =>
        let n := prefix_len (fun e' => tgt e =? tgt e') r in                       (* L969 *)
        let? c := Algo.Model.cluster (fun e1 e2 => bool_decide (wt e1 = wt e2)) id (take n r) in   (* L971-L973 *)
        let? t := cluster_groups fuel (drop n r) in                                (* L975 *)
        Ok (c ++ t)
      end
    end.

  Definition preprocess_row (m : wmode W) r : res (list (edge W)) :=
    let? s := Algo.Model.stable_sort (edge_lt m) id None r in                     (* L960 *)
    match m with
    | Unordered => cluster_groups (S (length s)) s                                 (* L962-L977 *)
    | _ => Ok s
    end.

  (** L954-L979. *)
  Fixpoint preprocess (m : wmode W) (rows : graph W) : res (graph W) :=
    match rows with
    | [] => Ok []
    | r :: rows =>
        let? r := preprocess_row m r in
        let? rows := preprocess m rows in
        Ok (r :: rows)
    end.

  Definition same_edge e1 e2 : bool := (tgt e1 =? tgt e2) && bool_decide (wt e1 = wt e2).

  (** L1131-L1135. *)
  Definition find_cluster_end r : nat :=
    match r with [] => 0 | front :: _ => prefix_len (fun e => same_edge e front) r end.

  (** L1249-L1250: the number of edges in the group starting with [front]. *)
  Definition group_len (m : wmode W) (front : edge W) r : nat :=
    let n := prefix_len (fun e => negb (edge_lt m front e)) r in                   (* upper_bound *)
    match m with Unordered => find_cluster_end (take n r) | _ => n end.

  (** L1268-L1274: where the edges matching [x] are in [r], and how many there are. *)
  Definition matching (m : wmode W) (x : edge W) r : nat * nat :=
    let lo := prefix_len (fun e => edge_lt m e x) r in                             (* equal_range *)
    let hi := prefix_len (fun e => negb (edge_lt m x e)) r in
    match m with
    | Unordered =>
        let l := drop lo (take hi r) in
        let skip := prefix_len (fun e => bool_decide (wt e <> wt x)) l in          (* L1272 *)
        (lo + skip, find_cluster_end (drop skip l))                                (* L1273 *)
    | _ => (lo, hi - lo)
    end.

  (** visit_edges, L1240-L1284, for node [i]: [lo] is where the remaining edges [r] start in the
      edges of node [i].  A range of edges is given as its first position and its length. *)
  Fixpoint visit_row {S : Type} (m : wmode W) (rows : graph W)
      (per_loop : nat -> nat -> list (edge W) -> S -> res S)
      (per_link : nat -> nat -> nat -> list (edge W) -> nat * nat -> S -> res S)
      (fuel i lo : nat) r (s : S) : res S :=
    match fuel with
    | O => NoFuel
    | Datatypes.S fuel =>
      match r with
      | [] => Ok s
      | front :: _ =>
        let n := group_len m front r in
        let target := tgt front in
        let? s :=
          (if target =? i then per_loop i lo (take n r) s                          (* L1252-L1255 *)
           else
             if target <? length rows then                                         (* L1258 *)
               let? tr := rget rows target in
               per_link i target lo (take n r) (matching m (set_tgt i front) tr) s (* L1260-L1276 *)
             else Throw OutOfRange) in
        visit_row m rows per_loop per_link fuel i (lo + n) (drop n r) s            (* L1279 *)
      end
    end.

  (** The nodes [is] one after the other. *)
  Fixpoint visit_edges {S : Type} (m : wmode W) (rows : graph W) (per_node : S -> res S)
      (per_loop : nat -> nat -> list (edge W) -> S -> res S)
      (per_link : nat -> nat -> nat -> list (edge W) -> nat * nat -> S -> res S)
      (is : list nat) (s : S) : res S :=
    match is with
    | [] => Ok s
    | i :: is =>
        let? s := per_node s in
        let? r := rget rows i in
        let? s := visit_row m rows per_loop per_link (Datatypes.S (length r)) i 0 r s in
        visit_edges m rows per_node per_loop per_link is s
    end.

  (** L1089-L1128. *)
  Definition validate_undirected (m : wmode W) (rows : graph W) : res unit :=
    visit_edges m rows (fun _ => Ok tt)
      (fun _ _ r _ => if Nat.odd (length r) then Throw LogicError else Ok tt)      (* L1099 *)
      (fun _ _ _ r tr _ =>                                                         (* L1104-L1122 *)
         if tr.2 =? 0 then Throw LogicError
         else if length r =? tr.2 then Ok tt else Throw LogicError)
      (seq 0 (length rows)) tt.

  (** L1065-L1083. *)
  Definition validate_directed (rows : graph W) : res unit :=
    if forallb (forallb (fun e => tgt e <? length rows)) rows then Ok tt else Throw OutOfRange.

  (** L990-L1038, for edge [k] of node [i]. *)
  Definition validate_embedded_edge (rows : graph W) (i k : nat) e : res unit :=
    if negb (tgt e <? length rows) then Throw OutOfRange                           (* L995 *)
    else
      let? tr := rget rows (tgt e) in
      if negb (comp e <? length tr) then Throw OutOfRange                          (* L1008 *)
      else if (tgt e =? i) && (comp e =? k) then Throw LogicError                  (* L1010-L1013 *)
      else
        let? te := rget tr (comp e) in
        if negb (comp te =? k) then Throw LogicError                               (* L1014-L1017 *)
        else if negb (tgt te =? i) then Throw LogicError                           (* L1022 *)
        else if negb (bool_decide (wt e = wt te)) then Throw LogicError            (* L1035-L1039 *)
        else Ok tt.

  Fixpoint validate_embedded_row (rows : graph W) (i k : nat) r : res unit :=
    match r with
    | [] => Ok tt
    | e :: r =>
        let? _ := validate_embedded_edge rows i k e in
        validate_embedded_row rows i (S k) r
    end.

  Fixpoint validate_embedded_rows (rows : graph W) (i : nat) (todo : graph W) : res unit :=
    match todo with
    | [] => Ok tt
    | r :: todo =>
        let? _ := validate_embedded_row rows i 0 r in
        validate_embedded_rows rows (S i) todo
    end.

  (** make_edges, L920-L925, when weights are not shared: process_edges copies the edges (L1137-L1143). *)
  Definition construct (fl : flavour) (m : wmode W) (rows : graph W) : res (graph W) :=
    match fl with
    | Directed => let? _ := validate_directed rows in Ok rows
    | Embedded => let? _ := validate_embedded_rows rows 0 rows in Ok rows
    | Undirected =>
        let? rows := preprocess m rows in
        let? _ := validate_undirected m rows in
        Ok rows
    end.

  (** *** Shared weights *)

  (** addToStorage, L1201-L1206.  The partner is looked up in m_Edges, which the function is still
      making: [nrvo] says that [storage] is m_Edges, by named return value optimisation; without
      it m_Edges does not exist yet. *)
  Definition add_shared (nrvo : bool) (host target : nat) (c : option nat) (v : W) (g : sgraph W) : res (sgraph W) :=
    match c with
    | None =>
        let? es := push (sedges g) host (Edge target 0 (length (heap g))) in
        Ok (SGraph es (heap g ++ [v]))
    | Some c =>
        if nrvo then
          let? p := get (sedges g) target c in
          let? es := push (sedges g) host (Edge target 0 (wt p)) in
          Ok (SGraph es (heap g))
        else UB
    end.

  (** L1211-L1219. *)
  Fixpoint add_loops (nrvo : bool) (host k : nat) r (g : sgraph W) : res (sgraph W) :=
    match r with
    | [] => Ok g
    | e :: r' =>
        let c := if Nat.odd (length r) then Some (k - 1) else None in
        let? g := add_shared nrvo host host c (wt e) g in
        add_loops nrvo host (S k) r' g
    end.

  (** L1220-L1228. *)
  Fixpoint add_links (nrvo : bool) (host target tend : nat) r (g : sgraph W) : res (sgraph W) :=
    match r with
    | [] => Ok g
    | e :: r' =>
        let c := if target <? host then Some (tend - length r) else None in
        let? g := add_shared nrvo host target c (wt e) g in
        add_links nrvo host target tend r' g
    end.

  (** L1191-L1232. *)
  Definition process_shared (nrvo : bool) (m : wmode W) (rows : graph W) : res (sgraph W) :=
    visit_edges m rows
      (fun g => Ok (SGraph (sedges g ++ [[]]) (heap g)))                           (* L1210 *)
      (fun i lo r g => add_loops nrvo i lo r g)
      (fun i t _ r tr g => add_links nrvo i t (tr.1 + tr.2) r g)
      (seq 0 (length rows)) (SGraph [] []).

  (** L1168-L1188: every half of an edge of an embedded graph is given a weight of its own. *)
  Fixpoint process_row_embedded r (h : list W) : list (edge nat) * list W :=
    match r with
    | [] => ([], h)
    | e :: r =>
        let p := process_row_embedded r (h ++ [wt e]) in
        (Edge (tgt e) (comp e) (length h) :: p.1, p.2)
    end.

  Fixpoint process_embedded_shared (rows : graph W) (h : list W) : sgraph W :=
    match rows with
    | [] => SGraph [] h
    | r :: rows =>
        let p := process_row_embedded r h in
        let g := process_embedded_shared rows p.2 in
        SGraph (p.1 :: sedges g) (heap g)
    end.

  Definition construct_shared (nrvo : bool) (fl : flavour) (m : wmode W) (rows : graph W) : res (sgraph W) :=
    match fl with
    | Directed => UB                                  (* GraphDetails.hpp L128: does not compile *)
    | Undirected =>
        let? rows := preprocess m rows in
        let? _ := validate_undirected m rows in
        process_shared nrvo m rows
    | Embedded =>
        let? _ := validate_embedded_rows rows 0 rows in
        Ok (process_embedded_shared rows [])
    end.
End construction.
