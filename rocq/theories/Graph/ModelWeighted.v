(** Model of the node operations of weighted graphs, Source/sequoia/Maths/Graph/GraphPrimitive.hpp,
    with the node weights of NodeStorage.hpp.  The edges are those of Model.v. *)
From stdpp Require Import list.
From Verif.Base Require Import Outcome.
From Verif.Graph Require Import Model.
Local Open Scope res_scope.

Section weighted.
  Context {W V : Type} `{!EqDecision W}.

  (** graph_primitive derives from Connectivity and Nodes, GraphPrimitive.hpp L60-L70;
      NodeStorage.hpp L266 m_NodeWeights. *)
  Record wgraph := WGraph { edges : graph W; weights : list V }.

  (** An operation either finishes, or an exception leaves the graph in some state. *)
  Inductive outcome :=
    | Done (g : wgraph)
    | Failed (e : exn) (g : wgraph)
    | Undefined
    | Terminated.     (* an exception leaves a destructor *)

  (** NodeStorage.hpp L247-L252. *)
  Definition weights_erase (ws : list V) (n : nat) : res (list V) :=
    if n =? length ws then Throw OutOfRange
    else if n <? length ws then Ok (take n ws ++ drop (S n) ws)
    else UB.

  (** GraphPrimitive.hpp L468-L474 and L579-L597.  [f1]: the construction or insertion of the node
      weight throws (std::vector::emplace then has no effect); [f2]: the insertion of the edge list
      throws.  The sentinel of L515-L534 is destroyed when the exception passes. *)
  Definition insert_node_w (f1 f2 : bool) (pos : nat) (v : V) (g : wgraph) : outcome :=
    let node := Nat.min pos (order (edges g)) in                                  (* L582 *)
    if f1 then Failed UserError g
    else
      let ws := take node (weights g) ++ v :: drop node (weights g) in            (* L585 *)
      if f2 then
        if order (edges g) <? length ws then                                      (* L527 *)
          match weights_erase ws pos with                                         (* L528, L596: not clamped *)
          | Ok ws => Failed UserError (WGraph (edges g) ws)
          | Throw _ => Terminated
          | _ => Undefined
          end
        else Failed UserError (WGraph (edges g) ws)
      else Done (WGraph (insert_node node (edges g)) ws).

  (** L462-L465. *)
  Definition add_node_w (f1 f2 : bool) (v : V) (g : wgraph) : outcome :=
    insert_node_w f1 f2 (order (edges g)) v g.

  (** L476-L480. *)
  Definition erase_node_w (fl : flavour) (n : nat) (g : wgraph) : outcome :=
    match erase_node fl n (edges g) with
    | Ok es =>
        match weights_erase (weights g) n with
        | Ok ws => Done (WGraph es ws)
        | Throw e => Failed e (WGraph es (weights g))
        | _ => Undefined
        end
    | Throw e => Failed e g
    | _ => Undefined
    end.

  (** L175-L183 and NodeStorage.hpp L204-L210. *)
  Definition swap_nodes_w (fl : flavour) (i j : nat) (g : wgraph) : outcome :=
    if (length (weights g) <=? i) || (length (weights g) <=? j) then Failed OutOfRange g
    else
      match rswap (weights g) i j with
      | Ok ws =>
          match swap_nodes fl i j (edges g) with
          | Ok es => Done (WGraph es ws)
          | Throw e => Failed e (WGraph (edges g) ws)
          | _ => Undefined
          end
      | _ => Undefined
      end.

  (** NodeStorage.hpp L125-L132; a position past the end is not an iterator of the storage. *)
  Definition set_node_weight_w (n : nat) (v : V) (g : wgraph) : outcome :=
    if n =? length (weights g) then Failed OutOfRange g
    else if n <? length (weights g) then Done (WGraph (edges g) (<[n := v]> (weights g)))
    else Undefined.

  (** NodeStorage.hpp L134-L141. *)
  Definition mutate_node_weight_w (n : nat) (f : V -> V) (g : wgraph) : outcome :=
    if n =? length (weights g) then Failed OutOfRange g
    else match weights g !! n with
         | Some v => Done (WGraph (edges g) (<[n := f v]> (weights g)))
         | None => Undefined
         end.

  (** Operations that touch edges only are those of Connectivity. *)
  Definition edges_w (o : graph W -> res (graph W)) (g : wgraph) : outcome :=
    match o (edges g) with
    | Ok es => Done (WGraph es (weights g))
    | Throw e => Failed e g
    | _ => Undefined
    end.
End weighted.
Arguments wgraph : clear implicits.
Arguments outcome : clear implicits.
