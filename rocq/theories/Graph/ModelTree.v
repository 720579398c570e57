(** Model of trees, Source/sequoia/Maths/Graph/DynamicTree.hpp and GraphPrimitive.hpp L488-L512 and
    L547-L571, and of sub_graph, GraphAlgorithms.hpp L19-L39. *)
From stdpp Require Import list.
From Verif.Base Require Import Outcome.
From Verif.Graph Require Import Model ModelWeighted.
Local Open Scope res_scope.

Section tree.
  Context {W V : Type} `{!EqDecision W}.
  Implicit Types g : wgraph W V.

  (** An exception leaves the rest of a function out. *)
  Definition obind (m : res (outcome W V)) (f : wgraph W V -> res (outcome W V)) : res (outcome W V) :=
    match m with
    | Ok (Done g) => f g
    | x => x
    end.

  (** GraphAlgorithms.hpp L25-L36.  The predicate has no state. *)
  Fixpoint sub_graph_loop (fuel : nat) (fl : flavour) (pred : V -> bool) (pos : nat) g : res (outcome W V) :=
    if pos <? order (edges g) then                                               (* L26 *)
      match fuel with
      | O => NoFuel
      | S fuel =>
          match weights g !! pos with                                            (* L28 *)
          | None => Ok Undefined
          | Some v =>
              if pred v then sub_graph_loop fuel fl pred (S pos) g               (* L34 *)
              else obind (Ok (erase_node_w fl pos g)) (sub_graph_loop fuel fl pred pos)
          end
      end
    else Ok (Done g).

  Definition sub_graph (fl : flavour) (pred : V -> bool) g : res (outcome W V) :=
    sub_graph_loop (order (edges g)) fl pred 0 g.

  (** GraphDetails.hpp L96. *)
  Inductive direction := Forward | Backward | Symmetric.

  (** join, as part of a call which inserted a node before: an exception leaves that node. *)
  Definition join_w (fl : flavour) (n1 n2 : nat) (w : W) g : outcome W V := edges_w (join fl n1 n2 w) g.

  (** GraphPrimitive.hpp L488-L507.  [w] is the value-initialized edge weight.  Gives the number of the node, too. *)
  Definition insert_node_to_tree (fl : flavour) (d : direction) (w : W) (pos parent : nat) (v : V) g
      : nat * res (outcome W V) :=
    let n := Nat.min pos (order (edges g)) in
    (n,
     obind (Ok (insert_node_w false false pos v g)) (fun g =>                    (* L490 *)
     if 1 <? order (edges g) then                                                (* L492 *)
       obind (match d, fl with
              | Backward, Directed | Symmetric, Directed => Ok (join_w fl n parent w g)   (* L494-L497 *)
              | _, _ => Ok (Done g)
              end) (fun g =>
       match d with
       | Backward => Ok (Done g)
       | _ => Ok (join_w fl parent n w g)                                        (* L499-L502 *)
       end)
     else Ok (Done g))).

  (** L509-L512. *)
  Definition add_node_to_tree (fl : flavour) (d : direction) (w : W) (parent : nat) (v : V) g
      : nat * res (outcome W V) :=
    insert_node_to_tree fl d w (order (edges g)) parent v g.

  (** tree_initializer. *)
  Inductive itree := INode (v : V) (children : list itree).

  (** L547-L558.  (L560-L571 is the same for empty node weights.) *)
  Fixpoint build_tree (fl : flavour) (d : direction) (w : W) (root : nat) (t : itree) g {struct t} : res (outcome W V) :=
    match t with
    | INode v children =>
        let p := (if order (edges g) <=? root                                    (* L551 *)
                  then (order (edges g), Ok (add_node_w false false v g))
                  else (root, Ok (Done g))) in
        obind p.2
          ((fix go (l : list itree) g : res (outcome W V) :=                     (* L553-L557 *)
              match l with
              | [] => Ok (Done g)
              | INode cv cs as child :: l =>
                  let q := add_node_to_tree fl d w p.1 cv g in
                  obind q.2 (fun g => obind (build_tree fl d w q.1 child g) (go l))
              end) children)
    end.

  (** L151-L157: the trees of a forest are put into an empty graph, one after another.  The root passed is the largest
      size_type, which is no node: the order stands for it.  A tree, L162-L165 and DynamicTree.hpp L59-L61, is a forest of one. *)
  Fixpoint build_forest (fl : flavour) (d : direction) (w : W) (ts : list itree) g : res (outcome W V) :=
    match ts with
    | [] => Ok (Done g)
    | t :: ts => obind (build_tree fl d w (order (edges g)) t g) (build_forest fl d w ts)
    end.

  Definition make_tree (fl : flavour) (d : direction) (w : W) (t : itree) : res (outcome W V) :=
    build_forest fl d w [t] (WGraph [] []).

  (** The targets of the edges of a node; check_node_index_range. *)
  Definition targets (n : nat) g : res (list nat) :=
    if n <? order (edges g) then let? r := rget (edges g) n in Ok (map tgt r) else Throw OutOfRange.

  (** prune, DynamicTree.hpp L91-L113; [keep] is the number of edges left to the node: none for a
      forward tree, and the offset of L104 for a symmetric one.  The recursive call is [visit]. *)
  Fixpoint prune_edges (fuel : nat) (visit : nat -> wgraph W V -> res (outcome W V)) (keep node : nat) g : res (outcome W V) :=
    match targets node g with
    | Ok ts =>
        if keep <? length ts then                                                (* L93, L106 *)
          match fuel, last ts with
          | O, _ | _, None => NoFuel
          | S fuel, Some t => obind (visit t g) (prune_edges fuel visit keep node)
          end
        else Ok (Done g)
    | Throw e => Ok (Failed e g)
    | _ => Ok Undefined
    end.

  (** The loop of L93 ends after at most as many turns as the tree has nodes, as does the recursion. *)
  Fixpoint prune_down (fuel : nat) (fl : flavour) (d : direction) (node : nat) g : res (outcome W V) :=
    match fuel with
    | O => NoFuel
    | S fuel =>
        let keep := match d with Symmetric => if node =? 0 then 0 else 1 | _ => 0 end in
        obind (prune_edges (order (edges g)) (prune_down fuel fl d) keep node g)
          (fun g => Ok (erase_node_w fl node g))                                 (* L99, L112 *)
    end.

  (** L136-L151. *)
  Fixpoint prune_mark (fuel : nat) g (node : nat) (del : list bool) : res (list bool) :=
    match fuel with
    | O => NoFuel
    | S fuel =>
        let? ts := targets node g in
        match ts with
        | [] => Ok del
        | t :: _ =>                                                              (* L140 *)
            let? b := rget del t in
            if b then rset del node true                                         (* L141-L144 *)
            else
              let? del := prune_mark fuel g t del in                             (* L147 *)
              let? b := rget del t in
              if b then rset del node true else Ok del
        end
    end.

  (** L122-L125. *)
  Fixpoint prune_marks (fuel : nat) g (is : list nat) (del : list bool) : res (list bool) :=
    match is with
    | [] => Ok del
    | i :: is =>
        let? b := rget del i in
        let? del := (if b then Ok del else prune_mark fuel g i del) in
        prune_marks fuel g is del
    end.

  (** L127-L132; the highest indices first. *)
  Fixpoint prune_erase (fl : flavour) (js : list nat) (del : list bool) g : res (outcome W V) :=
    match js with
    | [] => Ok (Done g)
    | j :: js =>
        match del !! j with
        | Some true => obind (Ok (erase_node_w fl j g)) (prune_erase fl js del)
        | Some false => prune_erase fl js del g
        | None => Ok Undefined
        end
    end.

  (** L115-L133. *)
  Definition prune_backward (fl : flavour) (node : nat) g : res (outcome W V) :=
    let N := order (edges g) in
    if N <=? node then Ok (Done g)                                               (* L117 *)
    else
      let? del := rset (replicate N false) node true in
      match prune_marks N g (seq 0 N) del with
      | Ok del => prune_erase fl (reverse (seq 0 N)) del g
      | Throw e => Ok (Failed e g)
      | NoFuel => NoFuel
      | UB => Ok Undefined
      end.

  (** L79-L82. *)
  Definition prune (fl : flavour) (d : direction) (node : nat) g : res (outcome W V) :=
    match d with
    | Backward => prune_backward fl node g
    | _ => prune_down (S (order (edges g))) fl d node g
    end.
End tree.
Arguments itree : clear implicits.
