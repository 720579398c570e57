(** Properties of the running of the tests (C52). *)
From Coq Require Import Ascii String.
From stdpp Require Import list.
From Verif.Base Require Import Outcome.
From Verif.Text Require Import Model.
From Verif.Graph Require Import Model ModelWeighted ModelTree Spec SpecWeighted SpecTree.
From Verif.Suite Require Import Model Spec.
From Verif.Runner Require Import Model ModelSuites Spec ProofsAll ProofsSuites.

Local Notation "⌜ s ⌝" := (list_ascii_of_string s%string).

(** C52: all runs, serial or concurrent.  Each time every test is executed once, and dealt with once, after that; in concurrent runs
    the tests which may not run in parallel come first, one after the other. *)
Theorem C52_execute_tests : forall (T D : Type) (parallelizable : T -> bool) (execute : option nat -> T -> D) add clear timed
    (M : Type) (op : M -> M -> M) e mu,
  (forall a b c, op a (op b c) = op (op a b) c) -> (forall a b, op a b = op b a) -> (forall a, op e a = a) ->
  (forall a b, mu (add a b) = op (mu a) (mu b)) -> (forall d, mu (timed d) = mu d) -> (forall d, mu (clear d) = e) ->
  forall mode reps g ps, suite_tree g ps ->
  (forall sched, mode = Some sched -> forall i (ns : list nat), sched i ns ≡ₚ ns) -> suites_empty e mu (weights g) ->
  exists g' ps' f ls, execute_tests parallelizable execute add clear timed mode reps g = Ok (g', ls)
    /\ reordered f g g' /\ (mode = None -> f = Datatypes.id) /\ suite_tree g' ps' /\ List.length ls = reps
    /\ (forall i l, ls !! i = Some l -> good_run execute (run_id reps i) (tests_of (weights g)) l
          /\ (mode <> None -> phases parallelizable l))
    /\ (0 < reps -> totals execute op e mu (run_id reps (reps - 1)) ps' (weights g')).
Proof. exact @execute_tests_good. Qed.
Print Assumptions C52_execute_tests.

(** C52: the summary of the root is that of all tests. *)
Theorem C52_grand_total : forall (T D : Type) (execute : option nat -> T -> D) (M : Type) (op : M -> M -> M) e mu,
  (forall a b c, op a (op b c) = op (op a b) c) -> (forall a b, op a b = op b a) -> (forall a, op e a = a) ->
  forall id g ps, suite_tree g ps -> totals execute op e mu id ps (weights g) ->
  exists wt, weights g !! 0 = Some wt /\ mu (summary wt) = total op e (map (fun t => mu (execute id t)) (tests_of (weights g))).
Proof. exact @totals_root. Qed.
Print Assumptions C52_grand_total.

(** C52: after sorting, suites come first, then the tests which may not run in parallel, then the others; the tree is the
    same but for the numbers of its nodes. *)
Theorem C52_sort_tests : forall (T D : Type) (parallelizable : T -> bool) (g : wgraph unit (snode T D)) ps, suite_tree g ps ->
  exists g' f ps', sort_tests parallelizable g = Ok g' /\ reordered f g g' /\ suite_tree g' ps'
    /\ tests_sorted parallelizable (weights g').
Proof. exact @sort_tests_good. Qed.
Print Assumptions C52_sort_tests.

(** C52: the trees made from suites meet these conditions, and have the tests wanted (see C39), in order. *)
Theorem C52_suites : forall (T D K : Type) rt (init_suite : suite T -> D) init_test (m : K -> T -> bool) (M : Type) (e : M) mu,
  mu rt = e -> (forall s, mu (init_suite s) = e) -> forall l suites items, l <> [] ->
  exists want f g ps, (forall i ns, want i ns = true <-> wanted m suites items i ns) /\
    add_suites rt init_suite init_test m l (make_filter suites items) (WGraph [] []) = (f, Ok (Done g)) /\ suite_tree g ps
    /\ suites_empty e mu (weights g)
    /\ tests_of (weights g) = map fst (List.filter (fun x => want x.1 x.2) (List.concat (map (items_of []) l))).
Proof. exact @add_suites_all. Qed.
Print Assumptions C52_suites.

(** *** Examples *)

(** A test: its number of checks, and whether it may run in parallel. *)
Definition ex_test : Type := nat * bool.
Definition ex_suites : list (suite ex_test) :=
  [SSuites ⌜"a"⌝ [SItems ⌜"b"⌝ [(5, true); (3, false)]; SItems ⌜"c"⌝ [(7, true)]]; SItems ⌜"d"⌝ [(2, false); (1, true); (9, false)]].

Definition ex_tree : wgraph unit (snode ex_test nat) :=
  match (add_suites 0 (fun _ => 0) (fun _ => 0) (fun (k : nat) t => k =? t.1) ex_suites (make_filter (Some [⌜"a"⌝]) (Some [1; 9])) (WGraph [] [])).2 with
  | Ok (Done g) => g
  | _ => WGraph [] []
  end.

Example C52_example : exists ps, suite_tree ex_tree ps /\ suites_empty 0 Datatypes.id (weights ex_tree)
  /\ tests_of (weights ex_tree) = [(5, true); (3, false); (7, true); (1, true); (9, false)].
Proof.
  destruct (C52_suites ex_test nat nat 0 (fun _ => 0) (fun _ => 0) (fun (k : nat) t => k =? t.1) nat 0 Datatypes.id eq_refl (fun _ => eq_refl)
    ex_suites (Some [⌜"a"⌝]) (Some [1; 9]) ltac:(done)) as (want & f & g & ps & _ & H & Hst & He & _).
  assert (ex_tree = match (f, Ok (Done g)).2 with Ok (Done g) => g | _ => WGraph [] [] end) as E by (rewrite <- H; reflexivity).
  cbn in E. subst g. exists ps. split; [done|]. split; [done|]. by vm_compute.
Qed.

(** Two repetitions, with the tests which may run in parallel in the opposite order in the second one. *)
Definition ex_sched (i : nat) (ns : list nat) : list nat := if i =? 0 then ns else rev ns.

Definition ex_run := execute_tests snd (fun _ (t : ex_test) => t.1) Nat.add (fun _ => 0) Datatypes.id (Some ex_sched) 2 ex_tree.

Example C52_example_run : exists g' l l', ex_run = Ok (g', [l; l'])
  /\ map summary (weights g') = [25; 15; 7; 10; 8; 9; 3; 7; 5; 1]
  /\ executed l = [(9, false); (3, false); (7, true); (5, true); (1, true)]
  /\ executed l' = [(9, false); (3, false); (1, true); (5, true); (7, true)]
  /\ map fst (processed l) = [(5, true); (3, false); (7, true); (1, true); (9, false)].
Proof. vm_compute. do 3 eexists. split; [reflexivity|]. repeat split. Qed.

Example C52_example_sched : forall i ns, ex_sched i ns ≡ₚ ns.
Proof. intros i ns. unfold ex_sched. destruct (i =? 0); [done|]. symmetry. apply Permutation_rev. Qed.
