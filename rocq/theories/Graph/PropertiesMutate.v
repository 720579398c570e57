(** Properties of exceptions thrown while an edge weight is mutated (C23, C24). *)
From stdpp Require Import list.
From Verif.Base Require Import Outcome ListLemmas.
From Verif.Graph Require Import Model ModelFaults Spec.
From Verif.Graph Require Import ProofsMutate Properties.

(** C23: if the function throws when it is called first, the exception is passed on and the graph is as it was. *)
Theorem C23_mutate_edge_weight_first : forall (W : Type) (Weq : EqDecision W) (S : Type) fl s k (f : S -> W -> option (S * W)) st e (g : graph W),
  graph_ok fl g -> row g s !! k = Some e -> f st (wt e) = None -> mutate_edge_weight_f fl s k f st g = Ok (Threw g).
Proof. exact (fun W Weq S => mutate_first). Qed.
Print Assumptions C23_mutate_edge_weight_first.

Theorem C23_mutate_edge_weight_directed : forall (W : Type) (Weq : EqDecision W) (S : Type) s k (f : S -> W -> option (S * W)) st e (g : graph W),
  row g s !! k = Some e ->
  match f st (wt e) with
  | None => mutate_edge_weight_f Directed s k f st g = Ok (Threw g)
  | Some (_, w) => exists g', mutate_edge_weight_f Directed s k f st g = Ok (Finished g') /\ length g' = length g /\
      row g' s !! k = Some (Edge (tgt e) (comp e) w) /\ forall i m, (i, m) <> (s, k) -> row g' i !! m = row g i !! m
  end.
Proof. exact (fun W Weq S => mutate_directed). Qed.
Print Assumptions C23_mutate_edge_weight_directed.

(** C23, C24: the function is called for the other half of the edge first, and then for the edge itself; if it throws then, the other
    half keeps the new weight. *)
Theorem C24_mutate_edge_weight_halves : forall (W : Type) (Weq : EqDecision W) (S : Type) fl s k (f : S -> W -> option (S * W)) st e (g : graph W),
  fl <> Directed -> graph_ok fl g -> row g s !! k = Some e ->
  exists t q e', (t, q) <> (s, k) /\ row g t !! q = Some e' /\ tgt e = t /\ tgt e' = s /\ wt e' = wt e /\
  match f st (wt e) with
  | None => mutate_edge_weight_f fl s k f st g = Ok (Threw g)
  | Some (st1, w1) => exists g', length g' = length g /\ row g' t !! q = Some (Edge (tgt e') (comp e') w1) /\
      (forall i m, (i, m) <> (s, k) -> (i, m) <> (t, q) -> row g' i !! m = row g i !! m) /\
      match f st1 (wt e) with
      | None => mutate_edge_weight_f fl s k f st g = Ok (Threw g') /\ row g' s !! k = Some e
      | Some (_, w2) => mutate_edge_weight_f fl s k f st g = Ok (Finished g') /\ row g' s !! k = Some (Edge (tgt e) (comp e) w2)
      end
  end.
Proof. exact (fun W Weq S => mutate_halves). Qed.
Print Assumptions C24_mutate_edge_weight_halves.

Example C23_mutate_edge_weight_example :
  let g := [[Edge 1 0 1]; [Edge 0 0 1]] : graph nat in
  mutate_edge_weight_f Embedded 0 0 (fun (_ : unit) w => if decide (w = 1) then None else Some (tt, w)) tt g = Ok (Threw g) /\
  mutate_edge_weight_f Embedded 0 0 (fun n w => Some (S n, w + n)) 0 g = Ok (Finished [[Edge 1 0 2]; [Edge 0 0 1]]) /\
  graph_ok Embedded g.
Proof.
  split; [by vm_compute|]. split; [by vm_compute|].
  intros [|[|i]] [|k] e He; inversion He; subst; eexists; by repeat split.
Qed.
