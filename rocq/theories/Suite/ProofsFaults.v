From Coq Require Import Ascii String.
From stdpp Require Import list.
From Verif.Base Require Import Outcome ListLemmas.
From Verif.Text Require Import Model.
From Verif.Graph Require Import Model ModelWeighted Spec SpecWeighted ModelTree SpecTree ProofsForest ProofsGrow.
From Verif.Suite Require Import Model Spec.

Local Notation "⌜ s ⌝" := (list_ascii_of_string s%string).

Lemma one_node_good {V} (v : V) : consistent Directed (WGraph [[]] [v] : wgraph unit V) /\ tree_rep Forward ([[]] : graph unit) [None] /\ ordered [None].
Proof.
  destruct (make_tree_all Directed Forward tt (or_intror eq_refl) (INode v [])) as (g & H1 & H2 & H3 & H4 & H5 & _).
  vm_compute in H1. injection H1 as <-. done.
Qed.

Lemma not_found_twice : exists (m : nat -> nat -> bool) s items k i,
  k ∈ items /\ i ∈ map fst (items_of [] s) /\ m k i = true /\
  (extract_leaves (granular m) id s (make_filter None (Some items))).2 = [i] /\
  k ∈ missing (sel_items (extract_leaves (granular m) id s (make_filter None (Some items))).1).
Proof.
  exists (fun k i => Nat.eqb (k mod 10) i), (SItems ⌜"s"⌝ [3; 4]), [4; 14], 14, 4.
  repeat split; try by vm_compute; try (apply (bool_decide_unpack _); by vm_compute).
  all: apply (bool_decide_unpack _); by vm_compute.
Qed.

Lemma backward_lost : exists (s : suite nat) i,
  (extract_leaves (granular Nat.eqb) id s (make_filter None None)).2 = [i] /\
  (extract_tree (granular Nat.eqb) Directed Backward tt (fun _ => 0) id s (make_filter None None)).2 = Ok (Done (WGraph [] [])).
Proof. exists (SItems ⌜"s"⌝ [3]), 3. by vm_compute. Qed.

Lemma symmetric_kept : exists (s : suite nat) g fl,
  (extract_tree (granular Nat.eqb) fl Symmetric tt (fun _ => 0) id s (make_filter None (Some [2]))).2 = Ok (Done g) /\
  weights g = [0; 0; 0; 2] /\ (items_of [] s).*1 = [1; 2].
Proof.
  exists (SSuites ⌜"s"⌝ [SItems ⌜"a"⌝ [1]; SItems ⌜"b"⌝ [2]]).
  eexists (WGraph _ _), Undirected. split; [vm_compute; reflexivity|]. by vm_compute.
Qed.
