(** Model of the commands of the test runner, Source/sequoia/TestFramework/TestRunner.cpp: the options it has, what they do
    (process_args, L372-L659), what is checked afterwards (check_argument_consistency, L661-L680), and the commands by which
    runs are made in a sandbox (execute, L741-L776).

    What process_args does in the end (L642-L657) is not part of this: files are created (Creator), projects are initialized,
    and tests are pruned (Prune).  Paths are the texts they are given as. *)
From Coq Require Import Ascii String ZArith.
From stdpp Require Import list.
From Verif.Base Require Import Outcome.
From Verif.Text Require Import Model.
From Verif.Failure Require Model.
From Verif.CommandLine Require Import Model.
Local Open Scope res_scope.
Local Notation "⌜ s ⌝" := (list_ascii_of_string s%string).
Local Notation length := List.length.
Local Notation concat := List.concat.

(** *** Numbers *)

(** std::stoi: white space, a sign, digits; what follows is ignored.  std::invalid_argument is a std::logic_error. *)
Definition to_int (neg : bool) (l : text) : res Z :=
  match Failure.Model.take_digits l with
  | (Decimal.Nil, _) => Throw LogicError
  | (d, _) =>
      let z := (if neg then - Z.of_N (N.of_uint d) else Z.of_N (N.of_uint d))%Z in
      if (-2147483648 <=? z)%Z && (z <=? 2147483647)%Z then Ok z else Throw OutOfRange
  end.

Definition stoi (l : text) : res Z :=
  match Failure.Model.skip_space l with
  | c :: r => if decide (c = "-"%char) then to_int true r else if decide (c = "+"%char) then to_int false r else to_int false (c :: r)
  | [] => Throw LogicError
  end.

(** A conversion to std::size_t *)
Definition to_size (z : Z) : Z := (z mod 18446744073709551616)%Z.

(** *** The state *)

Inductive genus := Semantic | Allocation | Behavioural.

(** The data of a nascent test which the options set, TestCreator.hpp L67-L98, L190-L194, L255; the number of times it has been
    finalized. *)
Record nascent := Nascent {
  n_genus : genus; n_type : text; n_qualified : text; n_equivalent : list text; n_suite : text; n_header : text;
  n_forename : text; n_source : bool; n_dir : text; n_namespace : text; n_diagnostics : bool; n_final : nat }.

(** build_invocation; project_data, ProjectCreator.hpp L25-L33. *)
Inductive build := NoBuild | Build | LaunchIde.
Record project := Project { p_copyright : text; p_root : text; p_indent : text; p_build : build; p_git : bool; p_output : text }.

(** TestRunner.hpp L35-L42, L287 *)
Inductive concurrency := Serial | Dynamic | Fixed.
Inductive instability := Stable | SingleInstance | Coordinator | Sandbox.
(** Warnings: L621, L669, L678 *)
Inductive warning := PoolWarning | UpdateWarning | PruneWarning.

(** The directory of recovery, if it exists: the recovery file and the dump file, if they exist. *)
Record folder := Folder { recovery_file : option text; dump_file : option text }.

(** The members of test_runner (TestRunner.hpp L327-L343), the local variables of L376-L377, what has been written to the
    stream, and the directory of recovery. *)
Record state := State {
  suites : list text; items : list text;
  mode_test : bool; mode_create : bool; mode_init : bool;
  pruning : bool; cutoff : text; verbose : bool; updating : bool; recovering : bool; dumping : bool;
  conc : concurrency; instab : instability; reps : Z; runner_id : Z; pool : Z;
  nascents : list nascent; projects : list project; warnings : list warning; recovery_dir : option folder }.

(** TestRunner.hpp L327-L343 *)
Definition initial (d : option folder) : state :=
  State [] [] false false false false [] false false false false Dynamic Stable 1 0 8 [] [] [] d.

Definition set_suites x s := State x (items s) (mode_test s) (mode_create s) (mode_init s) (pruning s) (cutoff s) (verbose s) (updating s) (recovering s) (dumping s) (conc s) (instab s) (reps s) (runner_id s) (pool s) (nascents s) (projects s) (warnings s) (recovery_dir s).
Definition set_items x s := State (suites s) x (mode_test s) (mode_create s) (mode_init s) (pruning s) (cutoff s) (verbose s) (updating s) (recovering s) (dumping s) (conc s) (instab s) (reps s) (runner_id s) (pool s) (nascents s) (projects s) (warnings s) (recovery_dir s).
Definition set_mode_test x s := State (suites s) (items s) x (mode_create s) (mode_init s) (pruning s) (cutoff s) (verbose s) (updating s) (recovering s) (dumping s) (conc s) (instab s) (reps s) (runner_id s) (pool s) (nascents s) (projects s) (warnings s) (recovery_dir s).
Definition set_mode_create x s := State (suites s) (items s) (mode_test s) x (mode_init s) (pruning s) (cutoff s) (verbose s) (updating s) (recovering s) (dumping s) (conc s) (instab s) (reps s) (runner_id s) (pool s) (nascents s) (projects s) (warnings s) (recovery_dir s).
Definition set_mode_init x s := State (suites s) (items s) (mode_test s) (mode_create s) x (pruning s) (cutoff s) (verbose s) (updating s) (recovering s) (dumping s) (conc s) (instab s) (reps s) (runner_id s) (pool s) (nascents s) (projects s) (warnings s) (recovery_dir s).
Definition set_pruning x s := State (suites s) (items s) (mode_test s) (mode_create s) (mode_init s) x (cutoff s) (verbose s) (updating s) (recovering s) (dumping s) (conc s) (instab s) (reps s) (runner_id s) (pool s) (nascents s) (projects s) (warnings s) (recovery_dir s).
Definition set_cutoff x s := State (suites s) (items s) (mode_test s) (mode_create s) (mode_init s) (pruning s) x (verbose s) (updating s) (recovering s) (dumping s) (conc s) (instab s) (reps s) (runner_id s) (pool s) (nascents s) (projects s) (warnings s) (recovery_dir s).
Definition set_verbose x s := State (suites s) (items s) (mode_test s) (mode_create s) (mode_init s) (pruning s) (cutoff s) x (updating s) (recovering s) (dumping s) (conc s) (instab s) (reps s) (runner_id s) (pool s) (nascents s) (projects s) (warnings s) (recovery_dir s).
Definition set_updating x s := State (suites s) (items s) (mode_test s) (mode_create s) (mode_init s) (pruning s) (cutoff s) (verbose s) x (recovering s) (dumping s) (conc s) (instab s) (reps s) (runner_id s) (pool s) (nascents s) (projects s) (warnings s) (recovery_dir s).
Definition set_recovering x s := State (suites s) (items s) (mode_test s) (mode_create s) (mode_init s) (pruning s) (cutoff s) (verbose s) (updating s) x (dumping s) (conc s) (instab s) (reps s) (runner_id s) (pool s) (nascents s) (projects s) (warnings s) (recovery_dir s).
Definition set_dumping x s := State (suites s) (items s) (mode_test s) (mode_create s) (mode_init s) (pruning s) (cutoff s) (verbose s) (updating s) (recovering s) x (conc s) (instab s) (reps s) (runner_id s) (pool s) (nascents s) (projects s) (warnings s) (recovery_dir s).
Definition set_conc x s := State (suites s) (items s) (mode_test s) (mode_create s) (mode_init s) (pruning s) (cutoff s) (verbose s) (updating s) (recovering s) (dumping s) x (instab s) (reps s) (runner_id s) (pool s) (nascents s) (projects s) (warnings s) (recovery_dir s).
Definition set_instab x s := State (suites s) (items s) (mode_test s) (mode_create s) (mode_init s) (pruning s) (cutoff s) (verbose s) (updating s) (recovering s) (dumping s) (conc s) x (reps s) (runner_id s) (pool s) (nascents s) (projects s) (warnings s) (recovery_dir s).
Definition set_reps x s := State (suites s) (items s) (mode_test s) (mode_create s) (mode_init s) (pruning s) (cutoff s) (verbose s) (updating s) (recovering s) (dumping s) (conc s) (instab s) x (runner_id s) (pool s) (nascents s) (projects s) (warnings s) (recovery_dir s).
Definition set_runner_id x s := State (suites s) (items s) (mode_test s) (mode_create s) (mode_init s) (pruning s) (cutoff s) (verbose s) (updating s) (recovering s) (dumping s) (conc s) (instab s) (reps s) x (pool s) (nascents s) (projects s) (warnings s) (recovery_dir s).
Definition set_pool x s := State (suites s) (items s) (mode_test s) (mode_create s) (mode_init s) (pruning s) (cutoff s) (verbose s) (updating s) (recovering s) (dumping s) (conc s) (instab s) (reps s) (runner_id s) x (nascents s) (projects s) (warnings s) (recovery_dir s).
Definition set_nascents x s := State (suites s) (items s) (mode_test s) (mode_create s) (mode_init s) (pruning s) (cutoff s) (verbose s) (updating s) (recovering s) (dumping s) (conc s) (instab s) (reps s) (runner_id s) (pool s) x (projects s) (warnings s) (recovery_dir s).
Definition set_projects x s := State (suites s) (items s) (mode_test s) (mode_create s) (mode_init s) (pruning s) (cutoff s) (verbose s) (updating s) (recovering s) (dumping s) (conc s) (instab s) (reps s) (runner_id s) (pool s) (nascents s) x (warnings s) (recovery_dir s).
Definition warn x s := State (suites s) (items s) (mode_test s) (mode_create s) (mode_init s) (pruning s) (cutoff s) (verbose s) (updating s) (recovering s) (dumping s) (conc s) (instab s) (reps s) (runner_id s) (pool s) (nascents s) (projects s) (warnings s ++ [x]) (recovery_dir s).
Definition set_recovery_dir x s := State (suites s) (items s) (mode_test s) (mode_create s) (mode_init s) (pruning s) (cutoff s) (verbose s) (updating s) (recovering s) (dumping s) (conc s) (instab s) (reps s) (runner_id s) (pool s) (nascents s) (projects s) (warnings s) x.

(** *** The functions *)

Inductive action :=
  | ATest | ASelect | APrune | ACutoff | ACreate | AFinalize | ANascent (g : genus) (type : text) | ASuite | AHeader | AForename
  | AGenFree | AGenSemantics | ADiagnostics | AInit | ANoBuild | ANoGit | AToFiles | ANoIde | AUpdate | ALocate | ASandbox
  | ARunnerId | ARecover | ADump | ASerial | APool | AVerbose.

(** nascent_test_data::operator(), L131-L155.  An argument which is not there is undefined behaviour, here as everywhere below. *)
Definition make_nascent (g : genus) (type : text) (args : list text) : res nascent :=
  match g with
  | Semantic =>
      let? a := rget args 0 in let? b := rget args 1 in
      Ok (Nascent g type a [b] [] [] [] false [] [] false 0)                          (* L138-L142 *)
  | Allocation => let? a := rget args 0 in Ok (Nascent g type [] [] [] [] a false [] [] false 0)    (* L143-L146 *)
  | Behavioural => let? a := rget args 0 in Ok (Nascent g type [] [] [] a [] false [] [] false 0)   (* L147-L150 *)
  end.

Definition with_suite x n := Nascent (n_genus n) (n_type n) (n_qualified n) (n_equivalent n) x (n_header n) (n_forename n) (n_source n) (n_dir n) (n_namespace n) (n_diagnostics n) (n_final n).
Definition with_header x n := Nascent (n_genus n) (n_type n) (n_qualified n) (n_equivalent n) (n_suite n) x (n_forename n) (n_source n) (n_dir n) (n_namespace n) (n_diagnostics n) (n_final n).
Definition with_forename x n := Nascent (n_genus n) (n_type n) (n_qualified n) (n_equivalent n) (n_suite n) (n_header n) x (n_source n) (n_dir n) (n_namespace n) (n_diagnostics n) (n_final n).
Definition with_source n := Nascent (n_genus n) (n_type n) (n_qualified n) (n_equivalent n) (n_suite n) (n_header n) (n_forename n) true (n_dir n) (n_namespace n) (n_diagnostics n) (n_final n).
Definition with_dir x n := Nascent (n_genus n) (n_type n) (n_qualified n) (n_equivalent n) (n_suite n) (n_header n) (n_forename n) (n_source n) x (n_namespace n) (n_diagnostics n) (n_final n).
Definition with_namespace x n := Nascent (n_genus n) (n_type n) (n_qualified n) (n_equivalent n) (n_suite n) (n_header n) (n_forename n) (n_source n) (n_dir n) x (n_diagnostics n) (n_final n).
Definition with_diagnostics n := Nascent (n_genus n) (n_type n) (n_qualified n) (n_equivalent n) (n_suite n) (n_header n) (n_forename n) (n_source n) (n_dir n) (n_namespace n) true (n_final n).
Definition finalize n := Nascent (n_genus n) (n_type n) (n_qualified n) (n_equivalent n) (n_suite n) (n_header n) (n_forename n) (n_source n) (n_dir n) (n_namespace n) (n_diagnostics n) (S (n_final n)).

(** A function is applied to the last element; [none]: what happens if there is none. *)
Definition at_back {A} (l : list A) (none : res (list A)) (f : A -> res A) : res (list A) :=
  match last l with
  | None => none
  | Some x => let? y := f x in Ok (take (length l - 1) l ++ [y])
  end.

Definition on_nascent (f : nascent -> res nascent) (s : state) : res state :=
  let? l := at_back (nascents s) (Throw LogicError) f in Ok (set_nascents l s).
Definition on_project (f : project -> res project) (s : state) : res state :=
  let? l := at_back (projects s) UB f in Ok (set_projects l s).

Definition namespace_text : text := ⌜"::"⌝.
(** L527: the characters "\t" *)
Definition tab_text : text := ⌜"\t"⌝.

Definition go_serial (s : state) : state := match conc s with Dynamic => set_conc Serial s | _ => s end.

(** The functions of the options.  [rget args 0] is [args[0]] or [args.front()]. *)
Definition apply (a : action) (args : list text) (s : state) : res state :=
  match a with
  | ATest => let? x := rget args 0 in Ok (set_suites (suites s ++ [x]) (set_mode_test true s))              (* L465-L469 *)
  | ASelect => let? x := rget args 0 in Ok (set_items (items s ++ [x]) (set_mode_test true s))              (* L472-L476 *)
  | APrune => Ok (set_pruning true (set_mode_test true s))                                                  (* L479-L482 *)
  | ACutoff => let? x := rget args 0 in Ok (set_cutoff x s)                                                 (* L485-L487 *)
  | ACreate => Ok s                                                                                         (* L491 *)
  | AFinalize =>                                                                                            (* L492-L499 *)
      match nascents s with
      | [] => Ok s
      | l => on_nascent (fun n => Ok (finalize n)) (set_mode_create true s)
      end
  | ANascent g type => let? n := make_nascent g type args in Ok (set_nascents (nascents s ++ [n]) s)
  | ASuite => on_nascent (fun n => let? x := rget args 0 in Ok (with_suite x n)) s                          (* L380-L385 *)
  | ADiagnostics => on_nascent (fun n => Ok (with_diagnostics n)) s                                         (* L389-L394 *)
  | AHeader => on_nascent (fun n => let? x := rget args 0 in Ok (with_header x n)) s                        (* L398-L403 *)
  | AForename => on_nascent (fun n => let? x := rget args 0 in Ok (with_forename x n)) s                    (* L407-L412 *)
  | AGenFree =>                                                                                             (* L416-L433 *)
      on_nascent (fun n =>
        match n_genus n with
        | Behavioural => let? x := rget args 0 in Ok (if decide (x = namespace_text) then with_source n else with_namespace x (with_source n))
        | _ => Ok n
        end) s
  | AGenSemantics =>                                                                                        (* L437-L454 *)
      on_nascent (fun n =>
        match n_genus n with
        | Semantic => let? x := rget args 0 in Ok (with_dir x (with_source n))
        | _ => Ok n
        end) s
  | AInit =>                                                                                                (* L521-L533 *)
      let? c := rget args 0 in let? r := rget args 1 in let? i := rget args 2 in
      let? i := replace_all (S (length i)) i tab_text ["009"%char] in
      Ok (set_projects (projects s ++ [Project c r i LaunchIde true []]) (set_mode_init true s))
  | ANoBuild => on_project (fun p => Ok (Project (p_copyright p) (p_root p) (p_indent p) NoBuild (p_git p) (p_output p))) s   (* L536 *)
  | ANoGit => on_project (fun p => Ok (Project (p_copyright p) (p_root p) (p_indent p) (p_build p) false (p_output p))) s     (* L538 *)
  | AToFiles =>                                                                                             (* L540 *)
      on_project (fun p => let? x := rget args 0 in Ok (Project (p_copyright p) (p_root p) (p_indent p) (p_build p) (p_git p) x)) s
  | ANoIde =>                                                                                               (* L542-L545 *)
      on_project (fun p => Ok (Project (p_copyright p) (p_root p) (p_indent p)
        (match p_build p with LaunchIde => Build | b => b end) (p_git p) (p_output p))) s
  | AUpdate => Ok (set_updating true (set_mode_test true s))                                                (* L550-L553 *)
  | ALocate =>                                                                                              (* L556-L576 *)
      let? x := rget args 0 in
      let? i := match stoi x with Throw _ => Throw RuntimeError | r => r end in
      if (i <? 2)%Z then Throw RuntimeError else Ok (set_reps i (set_instab SingleInstance s))
  | ASandbox => Ok (set_instab Coordinator s)                                                               (* L579-L581 *)
  | ARunnerId => let? x := rget args 0 in let? i := stoi x in Ok (set_instab Sandbox (set_runner_id (to_size i) s))  (* L583-L586 *)
  | ARecover =>                                                                                             (* L590-L598 *)
      let d := match recovery_dir s with None => Folder None None | Some d => Folder None (dump_file d) end in
      Ok (go_serial (set_recovering true (set_recovery_dir (Some d) s)))
  | ADump =>                                                                                                (* L601-L609 *)
      let d := match recovery_dir s with None => Folder None None | Some d => Folder (recovery_file d) None end in
      Ok (go_serial (set_dumping true (set_recovery_dir (Some d) s)))
  | ASerial => Ok (set_conc Serial s)                                                                       (* L611 *)
  | APool =>                                                                                                (* L613-L623 *)
      let? x := rget args 0 in let? n := stoi x in
      Ok (if (0 <? n)%Z then set_pool n (set_conc Fixed s) else warn PoolWarning s)
  | AVerbose => Ok (set_verbose true s)                                                                     (* L625 *)
  end.

(** *** The options, L379-L460, L464-L626.  An option without a second function: std::function is empty. *)
Definition leaf (name : text) (aliases params : list text) (a : action) : opt action := Opt name aliases params (Some a) None [].

Definition suite_option := leaf ⌜"--suite"⌝ [⌜"-s"⌝] [⌜"suite name"⌝] ASuite.
Definition diagnostics_option := leaf ⌜"--framework-diagnostics"⌝ [⌜"--diagnostics"⌝] [] ADiagnostics.
Definition header_option := leaf ⌜"--header"⌝ [⌜"-h"⌝] [⌜"header of class to test"⌝] AHeader.
Definition forename_option := leaf ⌜"--test-class-forename"⌝ [⌜"--forename"⌝] [⌜"test class is named <forename>_..."⌝] AForename.
Definition gen_free_option := leaf ⌜"gen-source"⌝ [⌜"g"⌝] [⌜"namespace"⌝] AGenFree.
Definition gen_semantics_option := leaf ⌜"gen-source"⌝ [⌜"g"⌝] [⌜"source dir"⌝] AGenSemantics.

Definition nascent_option (name : text) (aliases params : list text) (g : genus) (type : text) (children : list (opt action)) : opt action :=
  Opt name aliases params (Some (ANascent g type)) None children.

Definition create_options : list (opt action) :=
  [ nascent_option ⌜"regular_test"⌝ [⌜"regular"⌝] [⌜"qualified::class_name<class T>"⌝; ⌜"equivalent type"⌝] Semantic ⌜"regular"⌝
      [suite_option; header_option; gen_semantics_option];
    nascent_option ⌜"move_only_test"⌝ [⌜"move_only"⌝] [⌜"qualified::class_name<class T>"⌝; ⌜"equivalent type"⌝] Semantic ⌜"move_only"⌝
      [suite_option; header_option; gen_semantics_option];
    nascent_option ⌜"regular_allocation_test"⌝ [⌜"regular_allocation"⌝; ⌜"allocation_test"⌝] [⌜"raw class name"⌝] Allocation ⌜"regular_allocation"⌝
      [suite_option; header_option];
    nascent_option ⌜"move_only_allocation_test"⌝ [⌜"move_only_allocation"⌝] [⌜"raw class name"⌝] Allocation ⌜"move_only_allocation"⌝
      [suite_option; header_option];
    nascent_option ⌜"free_test"⌝ [⌜"free"⌝] [⌜"header"⌝] Behavioural ⌜"free"⌝
      [suite_option; forename_option; gen_free_option; diagnostics_option];
    nascent_option ⌜"performance_test"⌝ [⌜"performance"⌝] [⌜"header"⌝] Behavioural ⌜"performance"⌝ [suite_option] ].

Definition runner_options : list (opt action) :=
  [ leaf ⌜"test"⌝ [⌜"t"⌝] [⌜"test suite name"⌝] ATest;
    leaf ⌜"select"⌝ [⌜"s"⌝] [⌜"source file name"⌝] ASelect;
    Opt ⌜"prune"⌝ [⌜"p"⌝] [] (Some APrune) None
      [leaf ⌜"--cutoff"⌝ [⌜"-c"⌝] [⌜"Cutoff for #include search e.g. 'namespace'"⌝] ACutoff];
    Opt ⌜"create"⌝ [⌜"c"⌝] [] (Some ACreate) (Some AFinalize) create_options;
    Opt ⌜"init"⌝ [⌜"i"⌝] [⌜"copyright owner"⌝; ⌜"path ending with project name"⌝; ⌜"code indent"⌝] (Some AInit) None
      [leaf ⌜"--no-build"⌝ [] [] ANoBuild; leaf ⌜"--no-git"⌝ [] [] ANoGit; leaf ⌜"--to-files"⌝ [] [⌜"output filename"⌝] AToFiles;
       leaf ⌜"--no-ide"⌝ [] [] ANoIde];
    leaf ⌜"update-materials"⌝ [⌜"u"⌝] [] AUpdate;
    Opt ⌜"locate-instabilities"⌝ [⌜"locate"⌝] [⌜"number of repetitions >= 2"⌝] (Some ALocate) None
      [leaf ⌜"--sandbox"⌝ [] [] ASandbox; leaf ⌜"--runner-id"⌝ [] [⌜"private option, best avoided"⌝] ARunnerId];
    leaf ⌜"recover"⌝ [] [] ARecover;
    leaf ⌜"dump"⌝ [] [] ADump;
    leaf ⌜"--serial"⌝ [] [] ASerial;
    leaf ⌜"--thread-pool"⌝ [] [⌜"Number of threads, must be >= 1"⌝] APool;
    leaf ⌜"--verbose"⌝ [⌜"-v"⌝] [] AVerbose ].

(** *** The run *)

(** The calls are made in turn; an exception ends this. *)
Fixpoint perform (cs : list (call action)) (s : state) : res state :=
  match cs with
  | [] => Ok s
  | Zeroth _ :: cs => perform cs s                                                                          (* L627 *)
  | Invoke a args :: cs => let? s := apply a args s in perform cs s
  end.

(** m_Filter as a bool: something has been selected, Suite.hpp L408-L412 *)
Definition filtered (s : state) : bool := negb (bool_decide (suites s = [])) || negb (bool_decide (items s = [])).

(** L661-L680 *)
Definition check_consistency (s : state) : res state :=
  let s := match instab s, updating s with
           | Stable, _ | _, false => s
           | _, true => warn UpdateWarning (set_updating false s)
           end in
  let? _ := match conc s with
            | Serial => Ok tt
            | _ => if recovering s || dumping s then Throw RuntimeError else Ok tt
            end in
  Ok (if pruning s && filtered s then warn PruneWarning (set_pruning false s) else s).

(** L636-L640; L630-L634: the help is written, and the mode becomes none. *)
Definition process_args (args : list text) (d : option folder) : res (text * state) :=
  let? p := parse_invoke args runner_options in
  let? s := perform (snd p) (initial d) in
  match fst p with
  | [] =>
      let s := if mode_test s || mode_create s || mode_init s then s else set_mode_test true s in
      let? s := check_consistency s in Ok ([], s)
  | h => Ok (h, set_mode_test false (set_mode_create false (set_mode_init false s)))
  end.

(** *** Runs in a sandbox *)

(** to_async_option, L158-L171 *)
Definition async_option (c : concurrency) (size : Z) : text :=
  match c with
  | Serial => ⌜" --serial"⌝
  | Dynamic => []
  | Fixed => ⌜" --thread-pool "⌝ ++ Failure.Model.decimal (Z.to_N size)
  end.

(** L746-L768: those which have been found, in their order *)
Definition specified (items suites : list (text * bool)) : text :=
  concat (map (fun p : text * bool => if snd p then ⌜" select "⌝ ++ fst p else []) items) ++
  concat (map (fun p : text * bool => if snd p then ⌜" test "⌝ ++ fst p else []) suites).

(** L772-L774 *)
Definition sandbox_command (exe : text) (items suites : list (text * bool)) (s : state) (i : N) : text :=
  exe ++ ⌜" locate "⌝ ++ Failure.Model.decimal (Z.to_N (reps s)) ++ ⌜" --runner-id "⌝ ++ Failure.Model.decimal i
  ++ specified items suites ++ async_option (conc s) (pool s).

(** L770 *)
Definition sandbox_commands (exe : text) (items suites : list (text * bool)) (s : state) : list text :=
  map (fun i => sandbox_command exe items suites s (N.of_nat i)) (seq 0 (Z.to_nat (reps s))).
