(** C96: the commands of the test runner; C97: runs in a sandbox. *)
From Coq Require Import Ascii String ZArith.
From stdpp Require Import list sets.
From Verif.Base Require Import Outcome.
From Verif.Text Require Import Model.
From Verif.Text Require Spec.
From Verif.Shell Require Spec.
From Verif.Shell Require Model.
From Verif.Commands Require Import Model Spec ProofsNumbers ProofsLines ProofsRun ProofsSandbox.
Local Notation "⌜ s ⌝" := (list_ascii_of_string s%string).
Local Notation plain := Shell.Spec.plain.

(** ** C96 *)

(** A number is read from a text which begins with one, after white space; otherwise there is an exception. *)
Theorem C96_numbers t z : stoi t = Ok z <-> number t z /\ fits z.
Proof. exact (stoi_ok t z). Qed.
Print Assumptions C96_numbers.

Theorem C96_no_numbers t e : stoi t = Throw e <-> bad_number t e.
Proof. exact (stoi_bad t e). Qed.
Print Assumptions C96_no_numbers.

Example C96_numbers_example : number ⌜" -12"⌝ (-12) /\ fits (-12) /\ stoi ⌜" -12"⌝ = Ok (-12)%Z /\ stoi ⌜"x1"⌝ = Throw LogicError /\
  stoi ⌜"2147483648"⌝ = Throw OutOfRange.
Proof.
  assert (stoi ⌜" -12"⌝ = Ok (-12)%Z) as H by (by vm_compute). destruct (proj1 (stoi_ok _ _) H) as [H1 H2]. split; [done|]. split; [done|]. split; [done|].
  split; by vm_compute.
Qed.

(** Whatever is asked for, in any number and order, the runner is as wanted: suites and files are selected in the order given,
    each new test and each new project is as described by what belongs to it, of several numbers the last one counts, and nothing
    else happens but warnings about what is of no use. *)
Theorem C96_wanted z us wss vs d : Forall2 says us wss -> Forall2 means us vs -> ~ contradictory vs ->
  process_args (z :: concat wss) d = Ok ([], as_wanted vs d).
Proof. exact (process_wanted z us wss vs d). Qed.
Print Assumptions C96_wanted.

(** Recovery together with a pool of threads is rejected. *)
Theorem C96_contradictory z us wss vs d : Forall2 says us wss -> Forall2 means us vs -> contradictory vs ->
  process_args (z :: concat wss) d = Throw RuntimeError.
Proof. exact (process_contradictory z us wss vs d). Qed.
Print Assumptions C96_contradictory.

(** The first number which is none, or does not fit, is rejected. *)
Theorem C96_bad z us u us' wss vs e d : Forall2 says (us ++ u :: us') wss -> Forall2 means us vs -> bad u e ->
  process_args (z :: concat wss) d = Throw e.
Proof. exact (process_bad z us u us' wss vs e d). Qed.
Print Assumptions C96_bad.

(** One of these applies to everything which can be asked for. *)
Theorem C96_all us : (exists vs, Forall2 means us vs) \/ (exists us1 vs u us2 e, us = us1 ++ u :: us2 /\ Forall2 means us1 vs /\ bad u e).
Proof. exact (line_cases us). Qed.
Print Assumptions C96_all.

(** The indentation of a new project: "\t" is replaced, everywhere, from the left. *)
Theorem C96_indent l : Text.Spec.replaced ⌜"\t"⌝ ["009"%char] l (untab l).
Proof. exact (untab_replaced l). Qed.
Print Assumptions C96_indent.

Definition ex_us : list (usage text) :=
  [CreateTest (Regular ⌜"foo::bar"⌝ ⌜"int"⌝) [InSuite ⌜"create"⌝; Source ⌜"Maths"⌝]; Verbose; InitProject ⌜"Me"⌝ ⌜"/p"⌝ ⌜"\t\t"⌝ [WithoutIde];
   LocateInstabilities ⌜"3"⌝ [InSandboxes]; TestSuite ⌜"A B"⌝; SelectFile ⌜"x.cpp"⌝; ThreadPool ⌜"2"⌝; PruneTests [⌜"namespace"⌝]].
Definition ex_line : list (list text) :=
  [[⌜"create"⌝; ⌜"regular"⌝; ⌜"foo::bar"⌝; ⌜"int"⌝; ⌜"-s"⌝; ⌜"create"⌝; ⌜"g"⌝; ⌜"Maths"⌝]; [⌜"-v"⌝]; [⌜"init"⌝; ⌜"Me"⌝; ⌜"/p"⌝; ⌜"\t\t"⌝; ⌜"--no-ide"⌝];
   [⌜"locate"⌝; ⌜"3"⌝; ⌜"--sandbox"⌝]; [⌜"test"⌝; ⌜"A B"⌝]; [⌜"s"⌝; ⌜"x.cpp"⌝]; [⌜"--thread-pool"⌝; ⌜"2"⌝]; [⌜"p"⌝; ⌜"-c"⌝; ⌜"namespace"⌝]].
Definition ex_vs : list (usage Z) :=
  [CreateTest (Regular ⌜"foo::bar"⌝ ⌜"int"⌝) [InSuite ⌜"create"⌝; Source ⌜"Maths"⌝]; Verbose; InitProject ⌜"Me"⌝ ⌜"/p"⌝ ⌜"\t\t"⌝ [WithoutIde];
   LocateInstabilities 3%Z [InSandboxes]; TestSuite ⌜"A B"⌝; SelectFile ⌜"x.cpp"⌝; ThreadPool 2%Z; PruneTests [⌜"namespace"⌝]].
Lemma ex_says : Forall2 says ex_us ex_line.
Proof.
  unfold ex_us, ex_line. repeat apply Forall2_cons_2; [..|done].
  - apply (says_create (Regular ⌜"foo::bar"⌝ ⌜"int"⌝) _ _ [⌜"regular"⌝; ⌜"foo::bar"⌝; ⌜"int"⌝] [[⌜"-s"⌝; ⌜"create"⌝]; [⌜"g"⌝; ⌜"Maths"⌝]]); [set_solver| |].
    + exists ⌜"regular"⌝. split; [set_solver|done].
    + repeat apply Forall2_cons_2; [..|done]; [exists ⌜"-s"⌝|exists ⌜"g"⌝]; (split; [set_solver|done]).
  - constructor. set_solver.
  - apply (says_init _ _ _ [WithoutIde] _ [[⌜"--no-ide"⌝]]); [set_solver|]. by repeat constructor.
  - apply (says_locate _ [InSandboxes] _ [[⌜"--sandbox"⌝]]); [set_solver|]. by repeat constructor.
  - constructor. set_solver.
  - constructor. set_solver.
  - constructor.
  - apply (says_prune [⌜"namespace"⌝] _ [[⌜"-c"⌝; ⌜"namespace"⌝]]); [set_solver|]. repeat constructor. exists ⌜"-c"⌝. split; [set_solver|done].
Qed.
Lemma ex_means : Forall2 means ex_us ex_vs.
Proof.
  unfold ex_us, ex_vs. repeat apply Forall2_cons_2; [..|done].
  all: try by constructor.
  - destruct (proj1 (stoi_ok ⌜"3"⌝ 3)) as [H1 H2]; [by vm_compute|]. constructor; [done|done|done|by repeat constructor].
  - destruct (proj1 (stoi_ok ⌜"2"⌝ 2)) as [H1 H2]; [by vm_compute|]. by constructor.
Qed.
Example C96_wanted_example : Forall2 says ex_us ex_line /\ Forall2 means ex_us ex_vs /\ ~ contradictory ex_vs /\
  (let s := as_wanted ex_vs None in suites s = [⌜"A B"⌝] /\ items s = [⌜"x.cpp"⌝] /\ instab s = Coordinator /\ reps s = 3%Z /\ pool s = 2%Z /\
    length (nascents s) = 1 /\ length (projects s) = 1 /\ pruning s = false /\ warnings s = [PruneWarning]) /\
  process_args (⌜"x"⌝ :: concat ex_line) None = Ok ([], as_wanted ex_vs None).
Proof.
  assert (~ contradictory ex_vs) as Hc by (intros [[?|?] _]; done).
  split; [apply ex_says|]. split; [apply ex_means|]. split; [done|]. split; [by vm_compute|].
  apply (C96_wanted _ ex_us); [apply ex_says|apply ex_means|done].
Qed.

Example C96_contradictory_example : exists us wss vs, Forall2 says us wss /\ Forall2 means us vs /\ contradictory vs.
Proof.
  exists [ThreadPool ⌜"4"⌝; RecoverTests], [[⌜"--thread-pool"⌝; ⌜"4"⌝]; [⌜"recover"⌝]], [ThreadPool 4%Z; RecoverTests].
  split; [by repeat constructor|]. split.
  - destruct (proj1 (stoi_ok ⌜"4"⌝ 4)) as [H1 H2]; [by vm_compute|]. repeat apply Forall2_cons_2; by constructor.
  - split; [by left|done].
Qed.

Example C96_bad_example : bad (LocateInstabilities ⌜"1"⌝ []) RuntimeError /\ bad (ThreadPool ⌜"many"⌝) LogicError.
Proof.
  split.
  - constructor. intros z H1 H2. assert (stoi ⌜"1"⌝ = Ok z) as E by (by apply stoi_ok). vm_compute in E. injection E as <-. done.
  - constructor. apply stoi_bad. by vm_compute.
Qed.

(** C96 is false for two tests below one "create": only the last of them is finalized. *)
Theorem C96_two_tests_refuted : exists args s, process_args args None = Ok ([], s) /\ map n_final (nascents s) = [0; 1].
Proof.
  exists [⌜"x"⌝; ⌜"create"⌝; ⌜"free"⌝; ⌜"A.hpp"⌝; ⌜"free"⌝; ⌜"B.hpp"⌝].
  exists (match process_args [⌜"x"⌝; ⌜"create"⌝; ⌜"free"⌝; ⌜"A.hpp"⌝; ⌜"free"⌝; ⌜"B.hpp"⌝] None with Ok (_, s) => s | _ => initial None end).
  split; by vm_compute.
Qed.
Print Assumptions C96_two_tests_refuted.

(** C96 is false for "create" alone: all tests are run; after another "create", the test of that one is finalized twice. *)
Theorem C96_nothing_refuted : (exists args s, args = [⌜"x"⌝; ⌜"create"⌝] /\ process_args args None = Ok ([], s) /\ mode_create s = false /\
    mode_test s = true /\ filtered s = false) /\
  exists args s, process_args args None = Ok ([], s) /\ map n_final (nascents s) = [2].
Proof.
  split.
  - exists [⌜"x"⌝; ⌜"create"⌝], (match process_args [⌜"x"⌝; ⌜"create"⌝] None with Ok (_, s) => s | _ => initial None end). split; [done|]. by vm_compute.
  - exists [⌜"x"⌝; ⌜"create"⌝; ⌜"free"⌝; ⌜"A.hpp"⌝; ⌜"create"⌝].
    exists (match process_args [⌜"x"⌝; ⌜"create"⌝; ⌜"free"⌝; ⌜"A.hpp"⌝; ⌜"create"⌝] None with Ok (_, s) => s | _ => initial None end).
    split; by vm_compute.
Qed.
Print Assumptions C96_nothing_refuted.

(** C96 is false for aliases which are written together: arguments which are not there are read. *)
Theorem C96_aliases_refuted : process_args [⌜"x"⌝; ⌜"prune"⌝; ⌜"-cc"⌝] None = UB /\ process_args [⌜"x"⌝; ⌜"prune"⌝; ⌜"cc"⌝] None = UB.
Proof. split; by vm_compute. Qed.
Print Assumptions C96_aliases_refuted.

(** C96 is false for wrong words and numbers: some are accepted. *)
Theorem C96_accepted_refuted :
  (exists s, process_args [⌜"x"⌝; ⌜"xv"⌝] None = Ok ([], s) /\ verbose s = true) /\
  (exists s, process_args [⌜"x"⌝; ⌜"locate"⌝; ⌜"3x"⌝] None = Ok ([], s) /\ reps s = 3%Z) /\
  (exists s, process_args [⌜"x"⌝; ⌜"locate"⌝; ⌜"3"⌝; ⌜"--runner-id"⌝; ⌜"-1"⌝] None = Ok ([], s) /\ runner_id s = (2 ^ 64 - 1)%Z).
Proof.
  split; [|split].
  - exists (match process_args [⌜"x"⌝; ⌜"xv"⌝] None with Ok (_, s) => s | _ => initial None end). split; by vm_compute.
  - exists (match process_args [⌜"x"⌝; ⌜"locate"⌝; ⌜"3x"⌝] None with Ok (_, s) => s | _ => initial None end). split; by vm_compute.
  - exists (match process_args [⌜"x"⌝; ⌜"locate"⌝; ⌜"3"⌝; ⌜"--runner-id"⌝; ⌜"-1"⌝] None with Ok (_, s) => s | _ => initial None end). split; by vm_compute.
Qed.
Print Assumptions C96_accepted_refuted.

(** ** C97 *)

(** A runner which is to locate instabilities in sandboxes makes as many commands as there are to be repetitions.  Each is read by
    the shell as one command: the program, with arguments by which it becomes the runner of the sandbox with this number, with the
    same number of repetitions and the same threads, and with those of the selected suites and files which have been found.
    Texts must be plain, i.e. must not contain anything special to the shell. *)
Theorem C97_sandboxes_partial us vs d exe its sts i d' (s := as_wanted vs d) : Forall2 means us vs -> wanted_instab vs = Coordinator ->
  plain exe -> Forall plain (found its) -> Forall plain (found sts) -> (0 <= i < reps s)%Z ->
  exists cmd ws, sandbox_commands exe its sts s !! Z.to_nat i = Some cmd /\
    Shell.Spec.reading cmd = Some [Shell.Spec.Command (exe :: ws) []] /\
    process_args (exe :: ws) d' = Ok ([], in_sandbox s (found its) (found sts) i d').
Proof. exact (sandbox_runs us vs d exe its sts i d'). Qed.
Print Assumptions C97_sandboxes_partial.

Theorem C97_number us vs d exe its sts : Forall2 means us vs -> wanted_instab vs = Coordinator ->
  length (sandbox_commands exe its sts (as_wanted vs d)) = Z.to_nat (wanted_reps vs) /\ (2 <= wanted_reps vs)%Z.
Proof. exact (sandbox_number us vs d exe its sts). Qed.
Print Assumptions C97_number.

Example C97_sandboxes_example : Forall2 means ex_us ex_vs /\ wanted_instab ex_vs = Coordinator /\ plain ⌜"/b/TestAll"⌝ /\
  Forall plain (found [(⌜"x.cpp"⌝, true); (⌜"no.cpp"⌝, false)]) /\ (0 <= 1 < reps (as_wanted ex_vs None))%Z /\
  sandbox_commands ⌜"/b/TestAll"⌝ [(⌜"x.cpp"⌝, true); (⌜"no.cpp"⌝, false)] [] (as_wanted ex_vs None) !! 1 =
    Some ⌜"/b/TestAll locate 3 --runner-id 1 select x.cpp --thread-pool 2"⌝.
Proof.
  split; [apply ex_means|]. split; [done|]. split; [apply plain_check; by vm_compute|].
  split; [apply Forall_cons_2; [apply plain_check; by vm_compute|apply Forall_nil_2]|]. split; [by vm_compute|by vm_compute].
Qed.

(** C97 is false for a suite whose name contains a blank: the runner of the sandbox rejects its arguments. *)
Theorem C97_blank_refuted : exists vs exe sts cmd ws, wanted_instab vs = Coordinator /\ suites (as_wanted vs None) = found sts /\
  sandbox_commands exe [] sts (as_wanted vs None) !! 0 = Some cmd /\ Shell.Spec.reading cmd = Some [Shell.Spec.Command (exe :: ws) []] /\
  process_args (exe :: ws) None = Throw RuntimeError.
Proof.
  exists [LocateInstabilities 3%Z [InSandboxes]; TestSuite ⌜"A B"⌝], ⌜"TestAll"⌝, [(⌜"A B"⌝, true)].
  exists ⌜"TestAll locate 3 --runner-id 0 test A B"⌝, [⌜"locate"⌝; ⌜"3"⌝; ⌜"--runner-id"⌝; ⌜"0"⌝; ⌜"test"⌝; ⌜"A"⌝; ⌜"B"⌝].
  split; [done|]. split; [done|]. split; [by vm_compute|]. split; by vm_compute.
Qed.
Print Assumptions C97_blank_refuted.

(** C97 is false for recovery: tests in a sandbox leave no recovery file although it was asked for. *)
Theorem C97_recovery_refuted : exists vs exe cmd ws, wanted_instab vs = Coordinator /\ recovering (as_wanted vs None) = true /\
  ~ contradictory vs /\ sandbox_commands exe [] [] (as_wanted vs None) !! 0 = Some cmd /\
  Shell.Spec.reading cmd = Some [Shell.Spec.Command (exe :: ws) []] /\
  exists s, process_args (exe :: ws) None = Ok ([], s) /\ recovering s = false /\ recovery_dir s = None.
Proof.
  exists [LocateInstabilities 3%Z [InSandboxes]; RecoverTests], ⌜"TestAll"⌝.
  exists ⌜"TestAll locate 3 --runner-id 0 --serial"⌝, [⌜"locate"⌝; ⌜"3"⌝; ⌜"--runner-id"⌝; ⌜"0"⌝; ⌜"--serial"⌝].
  split; [done|]. split; [done|]. split; [by intros [_ ?]|]. split; [by vm_compute|]. split; [by vm_compute|].
  exists (match process_args [⌜"TestAll"⌝; ⌜"locate"⌝; ⌜"3"⌝; ⌜"--runner-id"⌝; ⌜"0"⌝; ⌜"--serial"⌝] None with Ok (_, s) => s | _ => initial None end).
  split; by vm_compute.
Qed.
Print Assumptions C97_recovery_refuted.
