(** Model of what is left of a graph when an operation on its edges is cut short by an exception that
    the library did not throw itself: an allocation, or the construction, copy or assignment of a
    weight, or a user's function.  Source/sequoia/Maths/Graph/Connectivity.hpp.

    The edge storage inserts an element or leaves things alone ([f = true]: it throws), and an
    assignment to a weight happens or leaves the weight alone. *)
From stdpp Require Import list.
From Verif.Base Require Import Outcome.
From Verif.Graph Require Import Model.
Local Open Scope res_scope.

Section faults.
  Context {W : Type} `{!EqDecision W}.

  (** The graph after an operation that finished, or after the exception has left it. *)
  Inductive attempt := Finished (g : graph W) | Threw (g : graph W).

  (** L126-L149: the sentinel's destructor, run when the exception passes; [initial] is the number of
      partial edges when it was made. *)
  Definition join_rollback (initial n pos : nat) (g : graph W) : res (graph W) :=
    if num_partial_edges g =? initial then erase_at g n pos else Ok g.

  (** L683-L693 and L1463-L1475. *)
  Definition join_f (f1 f2 : bool) (fl : flavour) (n1 n2 : nat) (w : W) (g : graph W) : res attempt :=
    let? _ := check_node g n1 in
    let? _ := check_node g n2 in
    if f1 then Ok (Threw g)
    else
      let? g1 := add_to_partition fl n1 n2 w g in
      match fl with
      | Directed => Ok (Finished g1)
      | _ =>
          let? r1 := rget g1 n1 in
          if f2 then
            let? g2 := join_rollback (num_partial_edges g1) n1 (length r1 - 1) g1 in
            Ok (Threw g2)
          else
            let? g2 := reciprocal_join fl n1 n2 g1 in
            Ok (Finished g2)
      end.

  (** L738-L746 and L1478-L1507. *)
  Definition insert_join_loop_f (f1 f2 : bool) (n k1 pos2 : nat) (w : W) (g : graph W) : res attempt :=
    let? r := rget g n in
    if length r + 1 <? pos2 then Throw OutOfRange
    else if f1 then Ok (Threw g)
    else
      let? g1 := insert_to_partition n k1 n pos2 w g in
      if f2 then
        let? g2 := join_rollback (num_partial_edges g1) n k1 g1 in
        Ok (Threw g2)
      else
        let? g2 := insert_reciprocal_loop n k1 pos2 g1 in
        Ok (Finished g2).

  (** L712-L720 and L1510-L1521. *)
  Definition insert_join_f (f1 f2 : bool) (i1 k1 i2 k2 : nat) (w : W) (g : graph W) : res attempt :=
    if i1 =? i2 then insert_join_loop_f f1 f2 i1 k1 k2 w g
    else if f1 then Ok (Threw g)
    else
      let? g1 := insert_to_partition i1 k1 i2 k2 w g in
      if f2 then
        let? g2 := join_rollback (num_partial_edges g1) i1 k1 g1 in
        Ok (Threw g2)
      else
        let? g2 := insert_reciprocal i1 k1 i2 k2 g1 in
        Ok (Finished g2).

  (** L267-L289 with weight_sentinel, L94-L123.  The second assignment is made in the constructor of
      the sentinel, so that its destructor, which is to undo the first, is not run if it throws. *)
  Definition set_edge_weight_f (f1 f2 : bool) (fl : flavour) (s k : nat) (w : W) (g : graph W) : res attempt :=
    match fl with
    | Directed =>
        if f1 then Ok (Threw g) else let? g := upd g s k (set_wt w) in Ok (Finished g)
    | _ =>
        let? p := find_partner fl s k g in
        if f1 then Ok (Threw g)
        else
          let? g1 := upd g (fst p) (snd p) (set_wt w) in
          if f2 then Ok (Threw g1)
          else
            let? e' := get g1 (fst p) (snd p) in
            let? g2 := upd g1 s k (set_wt (wt e')) in
            Ok (Finished g2)
    end.

  (** L300-L308: the user's function is called on the weight of each half; here it is a function of
      its own state as well.  [None]: it throws, having left the weight alone. *)
  Definition mutate_edge_weight_f {S} (fl : flavour) (s k : nat) (f : S -> W -> option (S * W))
      (st : S) (g : graph W) : res attempt :=
    let last (st : S) (g : graph W) :=
      let? e := get g s k in
      match f st (wt e) with
      | None => Ok (Threw g)
      | Some (_, w) => let? g := upd g s k (set_wt w) in Ok (Finished g)
      end in
    match fl with
    | Directed => last st g
    | _ =>
        let? p := find_partner fl s k g in
        let? e' := get g (fst p) (snd p) in
        match f st (wt e') with
        | None => Ok (Threw g)
        | Some (st, w) =>
            let? g := upd g (fst p) (snd p) (set_wt w) in
            last st g
        end
    end.
End faults.
Arguments attempt : clear implicits.
