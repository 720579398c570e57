(** C57: sort_nodes. *)
From stdpp Require Import list.
From Verif.Base Require Import Outcome Order.
From Verif.Graph Require Import Model ModelWeighted ModelSort Spec SpecWeighted SpecSort ProofsSort.

Theorem C57_sort_nodes : forall (W V : Type) (Weq : EqDecision W) fl lt less first last (g : wgraph W V),
  strict_weak lt -> compares lt less -> consistent fl g -> first <= last -> last <= order (edges g) ->
  exists g' f, sort_nodes fl less first last g = Ok g' /\ consistent fl g'
    /\ renumbered f g g' /\ stays_outside first last f /\ sorted_between lt first last (weights g').
Proof. exact @sort_nodes_all. Qed.
Print Assumptions C57_sort_nodes.

(** *** Examples *)

(** The comparator says of ties what it likes, here that the first comes before the second if its position is odd. *)
Definition ex_less (g : wgraph unit nat) (i j : nat) : res bool :=
  match weights g !! i, weights g !! j with
  | Some x, Some y => Ok (if x =? y then Nat.odd i else x <? y)
  | _, _ => UB
  end.

Definition ex_sorted : wgraph unit nat :=
  WGraph [[Edge 1 0 tt; Edge 3 0 tt]; [Edge 2 0 tt; Edge 1 0 tt]; []; [Edge 4 0 tt]; [Edge 0 0 tt]] [9; 5; 3; 5; 1].

Example C57_example : strict_weak Nat.ltb /\ compares Nat.ltb ex_less /\ consistent Directed ex_sorted.
Proof.
  split; [exact nat_ltb_strict_weak|]. split.
  - intros g i j x y Hx Hy. unfold ex_less. rewrite Hx, Hy. eexists. split; [done|].
    split; intros H; apply Nat.ltb_lt in H; destruct (Nat.eqb_spec x y); try (subst; by apply Nat.lt_irrefl in H).
    + by apply Nat.ltb_lt.
    + apply Nat.ltb_ge. by apply Nat.lt_le_incl.
  - split; [|done]. cbn [graph_ok]. apply in_range_all. by vm_compute.
Qed.

Example C57_example_sorted : exists g', sort_nodes Directed ex_less 1 5 ex_sorted = Ok g' /\ weights g' = [9; 1; 3; 5; 5]
  /\ edges g' = [[Edge 3 0 tt; Edge 4 0 tt]; [Edge 0 0 tt]; []; [Edge 2 0 tt; Edge 3 0 tt]; [Edge 1 0 tt]].
Proof. eexists. by vm_compute. Qed.
