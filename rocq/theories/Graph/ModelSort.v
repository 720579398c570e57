(** Model of graph_primitive::sort_nodes, Source/sequoia/Maths/Graph/GraphPrimitive.hpp L185-L195: the heap sort of
    Source/sequoia/Algorithms/Algorithms.hpp on pseudo iterators, which are positions of nodes: to dereference one gives
    the position (L53), and to swap two swaps the nodes (L75-L79). *)
From stdpp Require Import list.
From Verif.Base Require Import Outcome.
From Verif.Graph Require Import Model ModelWeighted.
Local Open Scope res_scope.

Section sort.
  (** [less s i j] is the call of the comparator with the positions [i] and [j] while the graph is [s]; [swap] is
      iter_swap; [first] is the position begin refers to.  Iterators are distances from begin. *)
  Context {S : Type} (less : S -> nat -> nat -> res bool) (swap : nat -> nat -> S -> res S) (first : nat).

  (** Algorithms.hpp L23-L34. *)
  Fixpoint bubble_up_go (fuel : nat) (s : S) (current : nat) : res S :=
    match fuel with
    | O => NoFuel
    | Datatypes.S fuel =>
      if decide (current = 0) then Ok s                                     (* L26 *)
      else
        let parent := (current - 1) / 2 in                                  (* L28 *)
        let? b := less s (first + parent) (first + current) in              (* L29 *)
        if b then
          let? s := swap (first + parent) (first + current) s in            (* L31 *)
          bubble_up_go fuel s parent                                        (* L32 *)
        else Ok s
    end.

  Definition bubble_up (s : S) (current : nat) : res S := bubble_up_go (Datatypes.S current) s current.

  (** L36-L58; [len] is distance(begin, end). *)
  Fixpoint bubble_down_go (fuel : nat) (s : S) (current len : nat) : res S :=
    match fuel with
    | O => NoFuel
    | Datatypes.S fuel =>
      if decide (len <= 1) then Ok s                                        (* L39 *)
      else if decide (2 * (current + 1) < len) then                         (* L41 *)
        let rightChild := 2 * (current + 1) in                              (* L43 *)
        let leftChild := rightChild - 1 in                                  (* L44 *)
        let? b := less s (first + rightChild) (first + leftChild) in        (* L46 *)
        let dominantChild := if b : bool then leftChild else rightChild in
        let? b := less s (first + current) (first + dominantChild) in       (* L47 *)
        if b then
          let? s := swap (first + dominantChild) (first + current) s in     (* L49 *)
          bubble_down_go fuel s dominantChild len                           (* L50 *)
        else Ok s
      else if decide (2 * current + 1 < len) then                           (* L53 *)
        let leftChild := 2 * current + 1 in                                 (* L55 *)
        let? b := less s (first + current) (first + leftChild) in           (* L56 *)
        if b : bool then swap (first + leftChild) (first + current) s else Ok s
      else Ok s
    end.

  Definition bubble_down (s : S) (current len : nat) : res S := bubble_down_go (Datatypes.S len) s current len.

  (** L65-L70, [k] iterations remaining. *)
  Fixpoint make_heap_loop (s : S) (current k : nat) : res S :=
    match k with
    | O => Ok s
    | Datatypes.S k => let? s := bubble_up s current in make_heap_loop s (current + 1) k
    end.

  (** L60-L71. *)
  Definition make_heap (s : S) (len : nat) : res S :=
    if decide (len <= 1) then Ok s else make_heap_loop s 1 (len - 1).

  (** L85-L90. *)
  Fixpoint sort_loop (s : S) (len : nat) : res S :=
    match len with
    | O => Ok s
    | Datatypes.S len =>
      let? s := swap (first + 0) (first + len) s in                         (* L87 *)
      let? s := bubble_down s 0 len in                                      (* L88 *)
      sort_loop s len
    end.

  (** L79-L91. *)
  Definition sort_range (s : S) (len : nat) : res S :=
    if decide (len <= 1) then Ok s                                          (* L82 *)
    else
      let? s := make_heap s len in                                          (* L84 *)
      sort_loop s len.
End sort.

Section sort_nodes.
  Context {W V : Type} `{!EqDecision W}.

  (** GraphPrimitive.hpp L75-L79.  The state in which an exception leaves the graph is forgotten: there are none, see
      ProofsSort.v. *)
  Definition swap_at (fl : flavour) (i j : nat) (g : wgraph W V) : res (wgraph W V) :=
    match swap_nodes_w fl i j g with
    | Done g => Ok g
    | Failed e _ => Throw e
    | _ => UB
    end.

  (** L191-L195; the comparator looks at the graph itself, as the one of the test runner does.  [last] is not below
      [first]. *)
  Definition sort_nodes (fl : flavour) (less : wgraph W V -> nat -> nat -> res bool) (first last : nat) (g : wgraph W V)
      : res (wgraph W V) :=
    sort_range less (swap_at fl) first g (last - first).
End sort_nodes.
