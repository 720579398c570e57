(** Model of runs of the tests one after the other, with what is remembered from one to the next in the prune files:
    Source/sequoia/TestFramework/TestRunner.cpp L185-L273, L728-L805, L953-L972, L1001-L1055, put together from the models of the
    dependency analysis, of the prune files, of the selection of tests by files, of the suites and of the runner. *)
From Coq Require Import Ascii String NArith.
From stdpp Require Import list.
From Verif.Base Require Import Outcome.
From Verif.Text Require Import Model.
From Verif.Graph Require Import Model ModelWeighted ModelTree.
From Verif.Suite Require Import Model.
From Verif.Runner Require Import Model ModelSuites.
From Verif.Prune Require Import Model.
From Verif.Depend Require Import Model.
From Verif.Select Require Import Model.
Local Open Scope res_scope.

(** The prune files: the time of the stamp, if there is one; the file of passing tests, if there is one, and the time when it was
    written; the file of failing tests, if there is one *)
Record memory := Memory { m_stamp : option N; m_passes : option (N * text); m_failures : option text }.

(** The project with these files *)
Definition recall (w : project) (m : memory) : project :=
  Project (sources w) (tests w) (others w) (listing w) (written w) (contents w) (canonical w) (executable w)
    (m_stamp m) (m_passes m) (m_failures m) (materials w).

(** What is asked for: all tests; those for which pruning finds a reason; suites and source files which are given *)
Inductive request := Complete | Pruned | Chosen (suites : option (list text)) (files : option (list (list text))).

(** do_prune, TestRunner.cpp L1030-L1055: the filter; none if there is no stamp *)
Definition do_prune (w : project) (cutoff : text) : res (option (gfilter (list text))) :=
  let? o := tests_to_run w cutoff in
  Ok (match o with
      | None => None                                                              (* L1052-L1054 *)
      | Some l =>
          match foldl (fun f k => add_selected_item k f) (GFilter None None) l with   (* L1037-L1040 *)
          | GFilter None None => Some (make_filter (Some []) (Some []))           (* L1042-L1047 *)
          | f => Some f
          end
      end).

Definition filter_for (w : project) (cutoff : text) (r : request) : res (gfilter (list text)) :=
  match r with
  | Complete => Ok (GFilter None None)
  | Pruned => let? o := do_prune w cutoff in Ok (default (GFilter None None) o)
  | Chosen ss fs => Ok (make_filter ss fs)                                        (* L675-L679: no pruning *)
  end.

(** One run.  [source] gives the source file of a test as the compiler has it, [entries] what is in the folder of the tests, in the
    order in which it is found; [passed] says how the tests which are executed fare, [start] and [finish] are the times when the
    run begins and ends. *)
Record event (T : Type) := Event {
  world : project;
  entries : list (list text);
  suites : list (suite T);
  wish : request;
  passed : T -> bool;
  start : N;
  finish : N
}.
Arguments Event {T}. Arguments world {T}. Arguments entries {T}. Arguments suites {T}. Arguments wish {T}.
Arguments passed {T}. Arguments start {T}. Arguments finish {T}.

Section runs.
  Context {T : Type} (cutoff : text) (source : T -> list text).

  (** The comparison of the filter, TestRunner.hpp L308-L336.  That it may throw is left out: it does not for the paths in the
      theorems (C98). *)
  Definition matches (es : list (list text)) (repo : list text) (k : list text) (t : T) : bool :=
    match selects (Folder es) repo k (source t) with Ok b => b | _ => false end.

  (** update_prune_info, L262-L272, with the functions of DependencyAnalyzer.cpp L573-L613.  [rebase_from] of Prune/Model.v is used
      for absolute paths, too: for those in the folder of the tests this is the same. *)
  Definition remember (repo : list text) (filtered : bool) (m : memory) (executed failed : list (list text)) (s f : N) : res memory :=
    let files := mk_files (m_failures m) (snd <$> m_passes m) None in
    if filtered then
      let? p := update_filtered repo files executed failed in
      Ok (Memory (m_stamp m) ((fun t => (f, t)) <$> Prune.Model.passes p) (Prune.Model.failures p))
    else
      let? p := update_all repo files failed 0 in
      Ok (Memory (Some s) ((fun t => (f, t)) <$> Prune.Model.passes p) (Prune.Model.failures p)).

  (** The tests executed, and what is remembered; nothing is written if there is nothing to do: L733, L953-L972. *)
  Definition run (e : event T) (m : memory) : res (list T * memory) :=
    let repo := tests (world e) in
    let? f := filter_for (recall (world e) m) cutoff (wish e) in
    match (add_suites tt (fun _ => tt) (fun _ => tt) (matches (entries e) repo) (suites e) f (WGraph [] [])).2 with
    | Ok (Done g) =>
        if length (weights g) <=? 1 then Ok ([], m)
        else
          let ts := omap opt_test (weights g) in      (* their order does not matter: they are sorted *)
          let filtered := match f with GFilter None None => false | _ => true end in
          let? m := remember repo filtered m (map source ts) (map source (List.filter (fun t => negb (passed e t)) ts)) (start e) (finish e) in
          Ok (ts, m)
    | Ok (Failed x _) => Throw x
    | Ok Terminated | Ok Undefined => UB
    | Throw x => Throw x
    | UB => UB
    | NoFuel => NoFuel
    end.

  (** Runs which have happened, the latest first, with the tests executed; what is remembered after them *)
  Inductive happened : list (event T * list T) -> memory -> Prop :=
    | happened_nothing : happened [] (Memory None None None)
    | happened_run e ts h m m' : happened h m -> run e m = Ok (ts, m') -> happened ((e, ts) :: h) m'.
End runs.
