(** Model of the traversals: Source/sequoia/Maths/Graph/GraphTraversalDetails.hpp L70-L139 and
    L212-L588, with the containers of DynamicGraphTraversalDetails.hpp L36-L60 and
    StaticGraphTraversalDetails.hpp L24-L66.

    What a traversal does is the sequence of calls it passes to the task processing model, given as
    a list of events: the calls of nodeBeforeEdgesFn and nodeAfterEdgesFn with a node, and those of
    edgeFirstTraversalFn and edgeSecondTraversalFn with an edge, which is given by its node and its
    position (the position counted from the front, for a reversed iterator too).  A functor which
    is the null_func_obj is not called, which changes nothing else. *)
From stdpp Require Import list.
From Verif.Base Require Import Outcome.
From Verif.Graph Require Import Model.
Local Open Scope res_scope.

Inductive event := Before (n : nat) | After (n : nat) | First (n k : nat) | Second (n k : nat).

(** breadth_first uses a queue, pseudo_depth_first a stack and priority_first a priority queue.
    Which of several elements of the same priority a priority queue gives out depends on how it
    got there: the position chosen is a function of the number of elements popped so far and of
    the elements, oldest first. *)
Inductive search := BreadthFirst | PseudoDepthFirst | PriorityFirst (choose : nat -> list nat -> nat).

Section traversal.
  Context {W : Type}.
  Implicit Types e : edge W.
  Implicit Types r : list (edge W).

  (** L375-L376; the number of discovered nodes and the restart index of traversal_conditions, L108;
      the container of nodes, oldest first; the number of times it has been popped. *)
  Record tstate := TState {
    disc : list bool;
    procd : list bool;
    num : nat;
    restart : nat;
    frontier : list nat;
    pops : nat;
    out : list event
  }.

  Definition emit (x : event) (s : tstate) : tstate :=
    TState (disc s) (procd s) (num s) (restart s) (frontier s) (pops s) (out s ++ [x]).

  (** StaticQueue.hpp L59, StaticStack.hpp L46, StaticPriorityQueue.hpp L54: the containers of
      static graphs hold no more than [cap] elements. *)
  Definition push_node (cap : option nat) (n : nat) (s : tstate) : res tstate :=
    let s' := TState (disc s) (procd s) (num s) (restart s) (frontier s ++ [n]) (pops s) (out s) in
    match cap with
    | Some c => if length (frontier s) <? c then Ok s' else Throw LogicError
    | None => Ok s'
    end.

  (** get_container_element: front of a queue, top of a stack or of a priority queue. *)
  Definition pick (sr : search) (s : tstate) : nat :=
    match sr with
    | BreadthFirst => 0
    | PseudoDepthFirst => length (frontier s) - 1
    | PriorityFirst choose => choose (pops s) (frontier s)
    end.

  (** L389-L390. *)
  Definition pop_node (sr : search) (s : tstate) : res (nat * tstate) :=
    let j := pick sr s in
    let? n := rget (frontier s) j in
    Ok (n, TState (disc s) (procd s) (num s) (restart s) (take j (frontier s) ++ drop (S j) (frontier s)) (S (pops s)) (out s)).

  (** register_discovered, L95-L100 and L134-L138; the latter does not count. *)
  Definition register (n : nat) (s : tstate) : res tstate :=
    let? d := rset (disc s) n true in
    Ok (TState d (procd s) (S (num s)) (restart s) (frontier s) (pops s) (out s)).

  (** loop_processor: for undirected graphs L317-L330, where [m] is m_Matched; for embedded ones
      L300-L315, where [dist] is the distance from [begin].  Gives the answer and the new m_Matched. *)
  Definition loop_matched (fl : flavour) (m : bool) (dist : nat) e : bool * bool :=
    match fl with
    | Embedded => (comp e <? dist, m)
    | _ => (negb m, negb m)
    end.

  (** L521-L554, for edge [k] of node [n]; gives the event and the new m_Matched. *)
  Definition classify (fl : flavour) (pr : list bool) (n k dist : nat) (m : bool) e : res (event * bool) :=
    match fl with
    | Directed => Ok (First n k, m)                                              (* L551-L554 *)
    | _ =>
        let lm := if tgt e =? n then loop_matched fl m dist e else (false, m) in (* L533 *)
        let? p := rget pr (tgt e) in                                             (* L534 *)
        Ok (if p || lm.1 then Second n k else First n k, lm.2)
    end.

  (** inner_loop, L514-L580, for the positions [ks] of node [n], in the order of the iterator. *)
  Fixpoint edges_loop (fl : flavour) (cap : option nat) (n : nat) r (ks : list nat) (dist : nat) (m : bool)
      (s : tstate) : res tstate :=
    match ks with
    | [] => Ok s
    | k :: ks =>
        let? e := rget r k in
        let? c := classify fl (procd s) n k dist m e in
        let s := emit c.1 s in
        let? d := rget (disc s) (tgt e) in                                       (* L556 *)
        let? s := (if d then Ok s else
                     let? s := register (tgt e) s in push_node cap (tgt e) s) in
        edges_loop fl cap n r ks (S dist) c.2 s
    end.

  (** iterator_getter, L212-L232. *)
  Definition positions (sr : search) r : list nat :=
    match sr with
    | PseudoDepthFirst => reverse (seq 0 (length r))
    | _ => seq 0 (length r)
    end.

  (** inner_loop, L491-L588, when it does not recurse. *)
  Definition inner_loop (fl : flavour) (sr : search) (cap : option nat) (g : graph W) (n : nat) (s : tstate) : res tstate :=
    let s := emit (Before n) s in
    let? r := (if n <? length g then rget g n else Throw OutOfRange) in          (* check_node_index_range *)
    let? s := edges_loop fl cap n r (positions sr r) 0 true s in
    let s := emit (After n) s in
    let? p := rset (procd s) n true in                                           (* L587 *)
    Ok (TState (disc s) p (num s) (restart s) (frontier s) (pops s) (out s)).

  (** L387-L407. *)
  Fixpoint drain (fuel : nat) (fl : flavour) (sr : search) (cap : option nat) (g : graph W) (s : tstate) : res tstate :=
    match frontier s with
    | [] => Ok s
    | _ =>
      match fuel with
      | O => NoFuel
      | S fuel =>
          let? p := pop_node sr s in
          let? s := inner_loop fl sr cap g p.1 p.2 in
          drain fuel fl sr cap g s
      end
    end.

  (** The loop of compute_restart_index, L87. *)
  Fixpoint skip_discovered (fuel : nat) (b : list bool) (i : nat) : res nat :=
    match fuel with
    | O => NoFuel
    | S fuel => let? d := rget b i in if d then skip_discovered fuel b (S i) else Ok i
    end.

  (** compute_restart_index, L81-L93; when disconnected nodes are ignored, L122-L126. *)
  Definition next_start (find_all : bool) (start : nat) (s : tstate) : res (nat * tstate) :=
    if find_all && negb (num s =? 0) then
      let? i := skip_discovered (S (length (disc s) - restart s)) (disc s) (restart s) in
      Ok (i, TState (disc s) (procd s) (num s) i (frontier s) (pops s) (out s))
    else Ok (start, s).

  (** The do-while loop, L380-L408. *)
  Fixpoint searches (fuel : nat) (fl : flavour) (sr : search) (cap : option nat) (find_all : bool) (start : nat)
      (g : graph W) (s : tstate) : res tstate :=
    match fuel with
    | O => NoFuel
    | S fuel =>
        let? p := next_start find_all start s in
        let? s := push_node cap p.1 p.2 in
        let? s := register p.1 s in
        let? s := drain (length g) fl sr cap g s in
        if negb find_all || (num s =? length g) then Ok s                        (* L102-L106, L128-L132 *)
        else searches fuel fl sr cap find_all start g s
    end.

  (** L375-L378. *)
  Definition start_state (g : graph W) : tstate :=
    TState (replicate (length g) false) (replicate (length g) false) 0 0 [] 0 [].

  (** traverse, L354-L412. *)
  Definition traverse (fl : flavour) (sr : search) (cap : option nat) (find_all : bool) (start : nat) (g : graph W)
      : res (list event) :=
    if start <? length g then
      let? s := searches (length g) fl sr cap find_all start g (start_state g) in
      Ok (out s)
    else Ok [].

  (** *** Recursive depth first search *)

  (** inner_loop, L514-L580, when it recurses; [visit] is the recursive call. *)
  Fixpoint dfs_edges (visit : nat -> tstate -> res tstate) (n : nat) r (ks : list nat) (s : tstate) : res tstate :=
    match ks with
    | [] => Ok s
    | k :: ks =>
        let? e := rget r k in
        let? d := rget (disc s) (tgt e) in
        let s := if d then s else emit (First n k) s in                          (* L521-L527 *)
        let? s := (if d then Ok s else
                     let? s := register (tgt e) s in visit (tgt e) s) in         (* L556-L574 *)
        dfs_edges visit n r ks s
    end.

  (** L491-L588. *)
  Fixpoint dfs (fuel : nat) (g : graph W) (n : nat) (s : tstate) : res tstate :=
    match fuel with
    | O => NoFuel
    | S fuel =>
        let s := emit (Before n) s in
        let? r := (if n <? length g then rget g n else Throw OutOfRange) in
        let? s := dfs_edges (dfs fuel g) n r (seq 0 (length r)) s in
        let s := emit (After n) s in
        let? p := rset (procd s) n true in
        Ok (TState (disc s) p (num s) (restart s) (frontier s) (pops s) (out s))
    end.

  (** L443-L462. *)
  Fixpoint dfs_searches (fuel : nat) (find_all : bool) (start : nat) (g : graph W) (s : tstate) : res tstate :=
    match fuel with
    | O => NoFuel
    | S fuel =>
        let? p := next_start find_all start s in
        let? s := register p.1 p.2 in
        let? s := dfs (length g) g p.1 s in
        if negb find_all || (num s =? length g) then Ok s
        else dfs_searches fuel find_all start g s
    end.

  (** traverse for depth_first, L425-L466. *)
  Definition traverse_dfs (find_all : bool) (start : nat) (g : graph W) : res (list event) :=
    if start <? length g then
      let? s := dfs_searches (length g) find_all start g (start_state g) in
      Ok (out s)
    else Ok [].
End traversal.
