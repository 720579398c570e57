(** What is claimed of the test runner (C52). *)
From stdpp Require Import list.
From Verif.Base Require Import Outcome.
From Verif.Graph Require Import Model ModelWeighted ModelTree Spec SpecWeighted SpecTree.
From Verif.Runner Require Import Model.

Section spec.
  Context {T D : Type} (parallelizable : T -> bool) (execute : option nat -> T -> D).
  Implicit Types ws : list (snode T D).
  Implicit Types g : wgraph unit (snode T D).
  Implicit Types l : list (step T D).

  Definition test_at ws (n : nat) : option T := ws !! n ≫= opt_test.
  Definition tests_of ws : list T := omap opt_test ws.

  (** The tree of the suites selected: its root is node 0, a suite; tests have no children. *)
  Record suite_tree g (ps : list (option nat)) : Prop := {
    st_graph : consistent Directed g;
    st_tree : tree_rep Forward (edges g) ps;
    st_root : ps !! 0 = Some None;
    st_all : forall n, n < length ps -> anc ps n 0;
    st_suite : test_at (weights g) 0 = None;
    st_leaves : forall n t, test_at (weights g) n = Some t -> row (edges g) n = []
  }.

  (** [g'] has the nodes and edges of [g], renumbered, and the same tests. *)
  Definition reordered (f : nat -> nat) g g' : Prop :=
    Inj (=) (=) f /\ (forall a, f a < order (edges g) <-> a < order (edges g)) /\ f 0 = 0 /\
    order (edges g') = order (edges g) /\
    (forall a, row (edges g') (f a) = map (fun e => Edge (f (tgt e)) (comp e) (wt e)) (row (edges g) a)) /\
    (forall a, test_at (weights g') (f a) = test_at (weights g) a).

  (** Suites come first, then the tests which may not run in parallel, then the others. *)
  Definition tests_sorted ws : Prop :=
    forall i j wi wj t, i < j -> ws !! i = Some wi -> ws !! j = Some wj -> opt_test wi = Some t ->
      exists u, opt_test wj = Some u /\ (parallelizable t = true -> parallelizable u = true).

  Definition executed l : list T := omap (fun x => match x with Executed t => Some t | _ => None end) l.
  Definition processed l : list (T * D) := omap (fun x => match x with Processed t d => Some (t, d) | _ => None end) l.

  (** Every test is executed once, and after that dealt with once, with its own summary; the files are updated once, at
      the end. *)
  Definition good_run (id : option nat) (ts : list T) l : Prop :=
    executed l ≡ₚ ts /\
    processed l ≡ₚ map (fun t => (t, execute id t)) ts /\
    (exists l', l = l' ++ [Updated] /\ Updated ∉ l') /\
    forall l1 t d l2, l = l1 ++ Processed t d :: l2 -> t ∈ executed l1.

  (** First of all the tests are executed which may not run in parallel, one after the other, and then the others. *)
  Definition phases l : Prop :=
    exists t1 t2 l', l = map Executed t1 ++ map Executed t2 ++ l' /\ executed l' = [] /\
      Forall (fun t => parallelizable t = false) t1 /\ Forall (fun t => parallelizable t = true) t2.

  (** Something that is counted: [op] adds up counts. *)
  Context {M : Type} (op : M -> M -> M) (e : M) (mu : D -> M).

  (** Before a run the suites have nothing. *)
  Definition suites_empty ws : Prop := forall n wt, ws !! n = Some wt -> opt_test wt = None -> mu (summary wt) = e.

  Definition total (l : list M) : M := foldr op e l.

  (** After a run each node has the sum of the tests below it. *)
  Definition totals (id : option nat) (ps : list (option nat)) ws : Prop :=
    forall n wt, ws !! n = Some wt ->
      exists below : list nat, NoDup below /\ (forall x, x ∈ below <-> anc ps x n) /\
        mu (summary wt) = total (map (fun t => mu (execute id t)) (omap (test_at ws) below)).
End spec.

(** The runs are numbered if there is more than one. *)
Definition run_id (reps i : nat) : option nat := if 1 <? reps then Some i else None.
