(** C88: copies of graphs whose edges share their weights. *)
From stdpp Require Import list.
From Verif.Base Require Import Outcome.
From Verif.Graph Require Import Model ModelShared ModelInit ModelCopy Spec SpecInit SpecCopy ProofsCopy.

Theorem C88_undirected : forall (V : Type) (g : sgraph V), weights_exist g ->
  exists c, copy_shared true Undirected g = Ok c /\ same_shape Undirected g c /\ own_weights g c /\ same_values g c /\ same_sharing g c.
Proof. exact @copy_undirected. Qed.
Print Assumptions C88_undirected.

(** Embedded graphs the halves of whose edges share their weights. *)
Theorem C88_embedded_partial : forall (V : Type) (g : sgraph V),
  weights_exist g -> halves_ok (sedges g) -> shared_by_halves (sedges g) ->
  exists c, copy_shared true Embedded g = Ok c /\ same_shape Embedded g c /\ own_weights g c /\ same_values g c /\ same_sharing g c.
Proof. exact @copy_embedded_same. Qed.
Print Assumptions C88_embedded_partial.

(** All embedded graphs: the halves share their weights in the copy, with the value the half met first has in the original. *)
Theorem C88_embedded : forall (V : Type) (g : sgraph V),
  weights_exist g -> halves_ok (sedges g) ->
  exists c, copy_shared true Embedded g = Ok c /\ same_shape Embedded g c /\ own_weights g c /\ halves_ok (sedges c) /\ shared_by_halves (sedges c)
    /\ forall i k e, row (sedges g) i !! k = Some e -> (i < tgt e \/ (i = tgt e /\ k < comp e)) ->
         exists e', row (sedges c) i !! k = Some e' /\ heap c !! wt e' = heap g !! wt e.
Proof. exact @copy_halves. Qed.
Print Assumptions C88_embedded.

Theorem C88_independent : forall (V : Type) fl (g c : sgraph V) i k v, weights_exist g -> own_weights g c ->
  (forall c', sstep fl (SSet i k v) c = Ok c' -> forall j l e, row (sedges g) j !! l = Some e -> sweight (SGraph (sedges g) (heap c')) j l = sweight g j l) /\
  (forall g', sstep fl (SSet i k v) (SGraph (sedges g) (heap c)) = Ok g' -> forall j l e, row (sedges c) j !! l = Some e -> sweight (SGraph (sedges c) (heap g')) j l = sweight c j l).
Proof. exact @copy_independent. Qed.
Print Assumptions C88_independent.

(** ** Examples *)
Definition ex_copied : sgraph nat := SGraph [[Edge 1 0 2; Edge 0 0 0; Edge 0 0 0; Edge 1 0 1]; [Edge 0 0 1; Edge 0 0 2]] [5; 6; 7].
Example C88_ex_undirected : weights_exist ex_copied /\
  copy_shared true Undirected ex_copied
    = Ok (SGraph [[Edge 1 0 3; Edge 0 0 4; Edge 0 0 4; Edge 1 0 5]; [Edge 0 0 5; Edge 0 0 3]] [5; 6; 7; 7; 5; 6]).
Proof.
  split; [|by vm_compute]. intros i k e He. destruct i as [|[|i]]; [| |by cbn in He].
  - do 4 (destruct k as [|k]; [injection He as <-; cbn; lia|]). done.
  - do 2 (destruct k as [|k]; [injection He as <-; cbn; lia|]). done.
Qed.
Definition ex_embedded : sgraph nat := SGraph [[Edge 1 0 2; Edge 0 2 0; Edge 0 1 0]; [Edge 0 0 2]] [5; 6; 7].
Example C88_ex_embedded : weights_exist ex_embedded /\ halves_ok (sedges ex_embedded) /\ shared_by_halves (sedges ex_embedded) /\
  copy_shared true Embedded ex_embedded = Ok (SGraph [[Edge 1 0 3; Edge 0 2 4; Edge 0 1 4]; [Edge 0 0 3]] [5; 6; 7; 7; 5]).
Proof.
  assert (Hcases : forall i k e, row (sedges ex_embedded) i !! k = Some e ->
    (i, k, e) = (0, 0, Edge 1 0 2) \/ (i, k, e) = (0, 1, Edge 0 2 0) \/ (i, k, e) = (0, 2, Edge 0 1 0) \/ (i, k, e) = (1, 0, Edge 0 0 2)).
  { intros i k e He. destruct i as [|[|i]]; [| |by cbn in He].
    - do 3 (destruct k as [|k]; [injection He as <-; tauto|]). done.
    - do 1 (destruct k as [|k]; [injection He as <-; tauto|]). done. }
  split; [|split; [|split]].
  - intros i k e He. destruct (Hcases i k e He) as [[= -> -> ->]|[[= -> -> ->]|[[= -> -> ->]|[= -> -> ->]]]]; cbn; lia.
  - intros i k e He. destruct (Hcases i k e He) as [[= -> -> ->]|[[= -> -> ->]|[[= -> -> ->]|[= -> -> ->]]]]; eexists; by repeat split.
  - intros i k j l e1 e2 H1 H2.
    destruct (Hcases i k e1 H1) as [[= -> -> ->]|[[= -> -> ->]|[[= -> -> ->]|[= -> -> ->]]]];
    destruct (Hcases j l e2 H2) as [[= -> -> ->]|[[= -> -> ->]|[[= -> -> ->]|[= -> -> ->]]]]; cbn [wt tgt comp]; split; intros H; try done; try (by left); try (by right); by destruct H as [[=]|[=]].
  - by vm_compute.
Qed.

(** ** What does not hold *)

(** Without named return value optimisation, which the language does not promise, any copy is undefined behaviour. *)
Theorem C88_elision_refuted : exists (g : sgraph nat), weights_exist g /\ forall fl, copy_shared false fl g = UB.
Proof. exists ex_copied. split; [exact (proj1 C88_ex_undirected)|done]. Qed.
Print Assumptions C88_elision_refuted.

(** An embedded graph built from lists, with the weight of an edge changed through one half: the weight of the other half is
    another one in the copy. *)
Theorem C88_embedded_refuted : exists (rows : graph nat) st st' c,
  comp_ok rows /\ construct_shared true Embedded Unordered rows = Ok st /\ sstep Embedded (SSet 0 0 9) st = Ok st'
  /\ copy_shared true Embedded st' = Ok c /\ sweight st' 1 0 = Ok 7 /\ sweight c 1 0 = Ok 9.
Proof.
  exists [[Edge 1 0 7]; [Edge 0 0 7]]. eexists _, _, _. split; [|repeat split; by vm_compute].
  intros i k e He. destruct i as [|[|i]]; [| |by cbn in He]; (destruct k as [|k]; [|done]); injection He as <-; eexists; by repeat split.
Qed.
Print Assumptions C88_embedded_refuted.
