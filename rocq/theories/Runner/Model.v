(** Model of the running of tests, Source/sequoia/TestFramework/TestRunner.cpp: sort_tests, run_tests, reset_tests and the
    repetitions.  What is printed is left out; so are the files written by test_tracker, but the moments are kept at which
    it deals with a test and at which it updates the prune files and the materials. *)
From stdpp Require Import list.
From Verif.Base Require Import Outcome.
From Verif.Graph Require Import Model ModelWeighted ModelSort ModelTraverse.
Local Open Scope res_scope.

Section runner.
  (** [T]: tests (test_vessel); [D]: log_summary.  [execute] is given the id of the run; that it does not throw is
      assumed (the exceptions of a test are caught, see Log).  [add] is operator+= of log_summary; [clear] is
      [log_summary{summary.name()}]; [timed] is [summary.execution_time(duration)]. *)
  Context {T D : Type} (parallelizable : T -> bool) (execute : option nat -> T -> D).
  Context (add : D -> D -> D) (clear : D -> D) (timed : D -> D).

  (** TestRunner.hpp L330-L334. *)
  Record snode := SNode { summary : D; opt_test : option T }.

  (** TestRunner.hpp L336: a directed tree with forward links without edge weights. *)
  Notation tree := (wgraph unit snode).

  (** TestRunner.cpp L810-L822. *)
  Definition tests_less (g : tree) (i j : nat) : res bool :=
    let? l := rget (weights g) i in
    let? r := rget (weights g) j in
    Ok match opt_test l, opt_test r with
       | None, None => i <? j                                                     (* L813 *)
       | None, Some _ => true                                                     (* L815 *)
       | Some _, None => false                                                    (* L816 *)
       | Some t, Some u =>
           if negb (parallelizable t) && parallelizable u then true               (* L818 *)
           else if parallelizable t && negb (parallelizable u) then false         (* L819 *)
           else i <? j                                                            (* L821 *)
       end.

  (** L806-L823. *)
  Definition sort_tests (g : tree) : res tree := sort_nodes Directed tests_less 1 (order (edges g)) g.

  (** What happens, in order: a test is executed; test_tracker::process_test is called; and, at the end, the prune files
      and the materials are updated. *)
  Inductive step := Executed (t : T) | Processed (t : T) (d : D) | Updated.

  (** [depth] is m_Depth + 1 of test_tracker, L178-L273. *)
  Record rstate := RState { nodes : list snode; depth : nat; steps : list step }.

  (** L837 and L867: [wt.summary = wt.optTest->execute(id)]. *)
  Definition exec_at (id : option nat) (n : nat) (s : rstate) : res rstate :=
    let? wt := rget (nodes s) n in
    match opt_test wt with
    | None => UB
    | Some t => Ok (RState (<[n := SNode (execute id t) (Some t)]> (nodes s)) (depth s) (steps s ++ [Executed t]))
    end.

  Fixpoint exec_all (id : option nat) (ns : list nat) (s : rstate) : res rstate :=
    match ns with
    | [] => Ok s
    | n :: ns => let? s := exec_at id n s in exec_all id ns s
    end.

  (** L834: std::ranges::find_if over all nodes; the result is a position. *)
  Fixpoint find_test (ws : list snode) : nat :=
    match ws with
    | [] => 0
    | wt :: ws => if opt_test wt then 0 else S (find_test ws)
    end.

  (** L835: the same from there on; the optional is dereferenced. *)
  Fixpoint find_parallel (ws : list snode) : res nat :=
    match ws with
    | [] => Ok 0
    | wt :: ws =>
        match opt_test wt with
        | None => UB
        | Some t => if parallelizable t then Ok 0 else let? n := find_parallel ws in Ok (S n)
        end
    end.

  (** L834-L856.  The tests of the parallel phase are executed in some order, given by [sched].  That each of them is
      executed exactly once is what the standard says of std::for_each, and what C38 says of the thread pool, which has
      at least one thread (L55 and L614).  They touch their own node only, so that to execute some of them at the same
      time makes no difference to the nodes. *)
  Definition concurrent_phase (sched : list nat -> list nat) (id : option nat) (s : rstate) : res rstate :=
    let first := find_test (nodes s) in                                           (* L834 *)
    let? k := find_parallel (drop first (nodes s)) in                             (* L835 *)
    let next := first + k in
    let? s := exec_all id (seq first k) s in                                      (* L840 *)
    exec_all id (sched (seq next (length (nodes s) - next))) s.                   (* L842-L853 *)

  (** L861-L870. *)
  Definition node_early (serial : bool) (id : option nat) (n : nat) (s : rstate) : res rstate :=
    let s := RState (nodes s) (S (depth s)) (steps s) in                          (* L863 *)
    if serial then
      let? wt := rget (nodes s) n in
      match opt_test wt with
      | Some _ => exec_at id n s                                                  (* L867 *)
      | None => Ok s
      end
    else Ok s.

  (** L877-L878. *)
  Fixpoint sum_children (n : nat) (es : list (edge unit)) (ws : list snode) : res (list snode) :=
    match es with
    | [] => Ok ws
    | e :: es =>
        let? wt := rget ws n in
        let? c := rget ws (tgt e) in
        sum_children n es (<[n := SNode (add (summary wt) (summary c)) (opt_test wt)]> ws)
    end.

  (** L187-L198. *)
  Definition decrement_depth (s : rstate) : rstate :=
    RState (nodes s) (depth s - 1) (steps s ++ if depth s - 1 =? 0 then [Updated] else []).

  (** L872-L899; [cedges(n)] throws if there is no such node. *)
  Definition node_late (g : graph unit) (n : nat) (s : rstate) : res rstate :=
    let? es := (match g !! n with Some es => Ok es | None => Throw OutOfRange end) in
    let? ws := sum_children n es (nodes s) in
    let? wt := rget ws n in
    let s := RState ws (depth s)
               (steps s ++ match opt_test wt with Some t => [Processed t (summary wt)] | None => [] end) in
    Ok (decrement_depth s).

  Fixpoint traversal (serial : bool) (id : option nat) (g : graph unit) (es : list event) (s : rstate) : res rstate :=
    match es with
    | [] => Ok s
    | Before n :: es => let? s := node_early serial id n s in traversal serial id g es s
    | After n :: es => let? s := node_late g n s in traversal serial id g es s
    | _ :: es => traversal serial id g es s                                       (* L901: null_func_obj *)
    end.

  (** L825-L951.  [mode]: serial, or concurrent with the order of the tests of the parallel phase. *)
  Definition run_tests (mode : option (list nat -> list nat)) (id : option nat) (g : tree) : res (tree * list step) :=
    let s := RState (weights g) 0 [] in
    let? s := (match mode with Some sched => concurrent_phase sched id s | None => Ok s end) in
    let? es := traverse_dfs true 0 (edges g) in                                   (* L901 *)
    let? s := traversal (match mode with None => true | _ => false end) id (edges g) es s in
    let? r := rget (nodes s) 0 in                                                 (* L947 *)
    let ws := match mode with
              | Some _ => <[0 := SNode (timed (summary r)) (opt_test r)]> (nodes s)
              | None => nodes s
              end in
    Ok (WGraph (edges g) ws, steps s).

  (** L978-L992. *)
  Definition reset_node (n : nat) (ws : list snode) : res (list snode) :=
    let? wt := rget ws n in Ok (<[n := SNode (clear (summary wt)) (opt_test wt)]> ws).

  Fixpoint reset_nodes (es : list event) (ws : list snode) : res (list snode) :=
    match es with
    | [] => Ok ws
    | Before n :: es => let? ws := reset_node n ws in reset_nodes es ws
    | _ :: es => reset_nodes es ws
    end.

  (** L971-L999.  That tests themselves are reset, too, is left to [execute]. *)
  Definition reset_tests (g : tree) : res tree :=
    let? es := traverse_dfs true 0 (edges g) in
    let? ws := reset_nodes es (weights g) in
    Ok (WGraph (edges g) ws).

  (** L787-L793: the loop, from repetition [i] on, with [k] of [reps] remaining.  Of each run the steps are returned.  The
      order of the tests of the parallel phase may be another one each time. *)
  Fixpoint repeat_tests (mode : option (nat -> list nat -> list nat)) (reps i k : nat) (g : tree) : res (tree * list (list step)) :=
    match k with
    | O => Ok (g, [])
    | S k =>
        let? g := (if i =? 0 then Ok g else reset_tests g) in                     (* L789 *)
        let? p := run_tests ((fun sched => sched i) <$> mode) (if 1 <? reps then Some i else None) g in        (* L791-L792 *)
        let? q := repeat_tests mode reps (S i) k p.1 in
        Ok (q.1, p.2 :: q.2)
    end.

  (** L779-L794, without sandbox. *)
  Definition execute_tests (mode : option (nat -> list nat -> list nat)) (reps : nat) (g : tree) : res (tree * list (list step)) :=
    let? g := (match mode with Some _ => sort_tests g | None => Ok g end) in      (* L779 *)
    repeat_tests mode reps 0 reps g.
End runner.
Arguments snode : clear implicits.
Arguments step : clear implicits.
Arguments rstate : clear implicits.
