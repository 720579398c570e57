(** Properties of suites and their filters (C39). *)
From Coq Require Import Ascii String.
From stdpp Require Import list.
From Verif.Base Require Import Outcome.
From Verif.Text Require Import Model.
From Verif.Graph Require Import Model ModelWeighted SpecWeighted ModelTree SpecTree.
From Verif.Suite Require Import Model Spec Proofs ProofsFilter ProofsFaults.

Local Notation "⌜ s ⌝" := (list_ascii_of_string s%string).

(** C39: the leaves extracted are the items wanted, in order. *)
Theorem suite_leaves {I K T} (m : K -> I -> bool) (t : I -> T) : forall s suites items,
  exists want, (forall i ns, want i ns = true <-> wanted m suites items i ns) /\
    (extract_leaves (granular m) t s (make_filter suites items)).2 =
      map t (map fst (List.filter (fun x => want x.1 x.2) (items_of [] s))).
Proof. exact (suite_leaves_all m t). Qed.
Print Assumptions suite_leaves.

(** C39: the tree extracted is the tree of the items wanted and of the suites with such items; trees as made from
    initializers are those of C55. *)
Theorem suite_tree {I K W V} `{!EqDecision W} (m : K -> I -> bool) (w : W) (ts : suite I -> V) (ti : I -> V) : forall s suites items,
  exists want, (forall i ns, want i ns = true <-> wanted m suites items i ns) /\
    (extract_tree (granular m) Directed Forward w ts ti s (make_filter suites items)).2 =
      match wanted_tree want ts ti [] s with
      | None => Ok (Done (WGraph [] []))
      | Some t => make_tree Directed Forward w t
      end.
Proof. exact (suite_tree_all m w ts ti). Qed.
Print Assumptions suite_tree.

(** C39: extraction into a tree already there, as done by the test runner, puts this tree below the given node; if nothing
    is wanted, the tree is what it was. *)
Theorem suite_tree_into {I K W V} `{!EqDecision W} (m : K -> I -> bool) (w : W) (ts : suite I -> V) (ti : I -> V) :
  forall s suites items (g : wgraph W V) ps p,
  consistent Directed g -> tree_rep Forward (edges g) ps -> ordered ps -> p < List.length ps ->
  exists want g', (forall i ns, want i ns = true <-> wanted m suites items i ns) /\
    (extract_tree_into (granular m) Directed Forward w ts ti s (make_filter suites items) g p).2 = Ok (Done g') /\
    match wanted_tree want ts ti [] s with
    | None => g' = g
    | Some t => let ps' := ps ++ tree_parents (Some p) (List.length ps) t in
        consistent Directed g' /\ tree_rep Forward (edges g') ps' /\ ordered ps' /\ weights g' = weights g ++ preorder t
    end.
Proof. exact (suite_tree_into_all m w ts ti). Qed.
Print Assumptions suite_tree_into.

(** C39: what the filter says of the selections afterwards does not depend on the kind of extraction ... *)
Theorem suite_same_marks {I K T W V} `{!EqDecision W} (m : K -> I -> bool) (w : W) (t : I -> T) (ts : suite I -> V) (ti : I -> V) :
  forall s suites items,
  (extract_tree (granular m) Directed Forward w ts ti s (make_filter suites items)).1 =
  (extract_leaves (granular m) t s (make_filter suites items)).1.
Proof. exact (suite_filter_same m w t ts ti). Qed.
Print Assumptions suite_same_marks.

Theorem suite_same_marks_into {I K T W V} `{!EqDecision W} (m : K -> I -> bool) (w : W) (t : I -> T) (ts : suite I -> V) (ti : I -> V) :
  forall s suites items (g : wgraph W V) ps p,
  consistent Directed g -> tree_rep Forward (edges g) ps -> ordered ps -> p < List.length ps ->
  (extract_tree_into (granular m) Directed Forward w ts ti s (make_filter suites items) g p).1 =
  (extract_leaves (granular m) t s (make_filter suites items)).1.
Proof. exact (suite_filter_into m w t ts ti). Qed.
Print Assumptions suite_same_marks_into.

(** ... and is exactly this: marked are the selections which are the first to meet some item, or a suite around some item. *)
Theorem suite_marks {I K T} (m : K -> I -> bool) (t : I -> T) : forall s suites items,
  let f := (extract_leaves (granular m) t s (make_filter suites items)).1 in
  match items with
  | None => sel_items f = None
  | Some l => exists l', sel_items f = Some l' /\ marks m l (map fst (items_of [] s)) l'
  end /\
  match suites with
  | None => sel_suites f = None
  | Some l => exists l', sel_suites f = Some l' /\ marks same_text l (concat (map snd (items_of [] s))) l'
  end.
Proof. exact (suite_marks_all m t). Qed.
Print Assumptions suite_marks.

(** C39: selections never met are reported as not found ... *)
Theorem suite_missing {A B} (m : A -> B -> bool) : forall l xs l' a,
  marks m l xs l' -> a ∈ l -> (forall x, x ∈ xs -> m a x = false) -> a ∈ missing (Some l').
Proof. exact (marks_missing m). Qed.
Print Assumptions suite_missing.

(** ... and no others, if nothing is selected twice. *)
Theorem suite_missing_exactly_partial {A B} (m : A -> B -> bool) : forall l xs l' a,
  marks m l xs l' -> NoDup l ->
  (forall x b c, x ∈ xs -> b ∈ l -> c ∈ l -> m b x = true -> m c x = true -> b = c) ->
  a ∈ missing (Some l') <-> a ∈ l /\ forall x, x ∈ xs -> m a x = false.
Proof. exact (marks_missing_iff m). Qed.
Print Assumptions suite_missing_exactly_partial.

(** Selecting one after another is the same as giving all at once. *)
Theorem suite_select_suites {K} : forall ns (f : gfilter K), sel_suites f = None -> ns <> [] ->
  foldl (fun f n => add_selected_suite n f) f ns = GFilter (make_map (Some ns)) (sel_items f).
Proof. exact (added_suites (K := K)). Qed.
Print Assumptions suite_select_suites.

Theorem suite_select_items {K} : forall ks (f : gfilter K), sel_items f = None -> ks <> [] ->
  foldl (fun f k => add_selected_item k f) f ks = GFilter (sel_suites f) (make_map (Some ks)).
Proof. exact (added_items (K := K)). Qed.
Print Assumptions suite_select_items.

(** Items are numbers; the keys are numbers, too. *)
Definition example_suite : suite nat :=
  SSuites ⌜"all"⌝ [SSuites ⌜"maths"⌝ [SItems ⌜"graph"⌝ [1; 2]; SItems ⌜"ratio"⌝ [3]]; SItems ⌜"text"⌝ [4; 5]; SItems ⌜"core"⌝ [6]].

Example suite_example :
  (extract_leaves (granular Nat.eqb) id example_suite (make_filter (Some [⌜"maths"⌝; ⌜"none"⌝]) (Some [4; 7; 2]))) =
    (GFilter (Some [(⌜"maths"⌝, true); (⌜"none"⌝, false)]) (Some [(4, true); (7, false); (2, true)]), [1; 2; 3; 4]).
Proof. by vm_compute. Qed.

(** The names of the suites, and [[]] for the items, are put into the nodes. *)
Example suite_tree_example :
  (extract_tree (granular Nat.eqb) Directed Forward tt (fun s => (suite_name s, 0)) (fun i => ([], i)) example_suite
    (make_filter (Some [⌜"ratio"⌝]) (Some [4]))).2 =
    Ok (Done (WGraph [[Edge 1 0 tt; Edge 4 0 tt]; [Edge 2 0 tt]; [Edge 3 0 tt]; []; [Edge 5 0 tt]; []]
      [(⌜"all"⌝, 0); (⌜"maths"⌝, 0); (⌜"ratio"⌝, 0); ([], 3); (⌜"text"⌝, 0); ([], 4)])).
Proof. by vm_compute. Qed.

Definition one_node : wgraph unit (text * nat) := WGraph [[]] [([], 0)].

Example suite_tree_into_example :
  consistent Directed one_node /\ tree_rep Forward (edges one_node) [None] /\ ordered [None] /\
  (extract_tree_into (granular Nat.eqb) Directed Forward tt (fun s => (suite_name s, 0)) (fun i => ([], i)) example_suite
    (make_filter None (Some [5])) one_node 0).2 =
    Ok (Done (WGraph [[Edge 1 0 tt]; [Edge 2 0 tt]; [Edge 3 0 tt]; []] [([], 0); (⌜"all"⌝, 0); (⌜"text"⌝, 0); ([], 5)])) /\
  (extract_tree_into (granular Nat.eqb) Directed Forward tt (fun s => (suite_name s, 0)) (fun i => ([], i)) example_suite
    (make_filter None (Some [8])) one_node 0).2 = Ok (Done one_node).
Proof. destruct (one_node_good (V := text * nat) ([], 0)) as (? & ? & ?). split; [done|]. split; [done|]. split; [done|]. by vm_compute. Qed.

(** The claim about what is not found fails for selections which meet the same item: only the first one of them is
    marked, and the others are reported as not found.  Here item 4 is selected as 4 and as 14, as a test may be by its
    path and by the name of its file (TestRunner.cpp L326-L350). *)
Theorem suite_not_found_refuted : exists (m : nat -> nat -> bool) s items k i,
  k ∈ items /\ i ∈ map fst (items_of [] s) /\ m k i = true /\
  (extract_leaves (granular m) id s (make_filter None (Some items))).2 = [i] /\
  k ∈ missing (sel_items (extract_leaves (granular m) id s (make_filter None (Some items))).1).
Proof. exact not_found_twice. Qed.
Print Assumptions suite_not_found_refuted.

(** extract_tree accepts any kind of tree.  With links from children to parents everything is pruned at the end ... *)
Theorem suite_backward_refuted : exists (s : suite nat) i,
  (extract_leaves (granular Nat.eqb) id s (make_filter None None)).2 = [i] /\
  (extract_tree (granular Nat.eqb) Directed Backward tt (fun _ => 0) id s (make_filter None None)).2 = Ok (Done (WGraph [] [])).
Proof. exact backward_lost. Qed.
Print Assumptions suite_backward_refuted.

(** ... and with links in both directions suites without items are left in. *)
Theorem suite_symmetric_refuted : exists (s : suite nat) g fl,
  (extract_tree (granular Nat.eqb) fl Symmetric tt (fun _ => 0) id s (make_filter None (Some [2]))).2 = Ok (Done g) /\
  weights g = [0; 0; 0; 2] /\ (items_of [] s).*1 = [1; 2].
Proof. exact symmetric_kept. Qed.
Print Assumptions suite_symmetric_refuted.
