(** What is claimed of the commands of the test runner (C96, C97). *)
From Coq Require Import Ascii String ZArith.
From stdpp Require Import list.
From Verif.Base Require Import Outcome.
From Verif.Text Require Import Model.
From Verif.Commands Require Import Model.
Local Notation "⌜ s ⌝" := (list_ascii_of_string s%string).

(** *** Numbers *)
Definition white (c : char) : Prop := c ∈ [" "; "009"; "010"; "011"; "012"; "013"]%char.
Definition is_digit (c : char) : Prop := c ∈ ⌜"0123456789"⌝.
Definition value (ds : text) : Z := fold_left (fun z c => 10 * z + (Z.of_N (N_of_ascii c) - 48))%Z ds 0%Z.

(** A text begins, after white space, with the digits of a number, with or without sign. *)
Inductive number : text -> Z -> Prop :=
  | number_text sp sg ds rest :
      Forall white sp -> sg ∈ [[]; ⌜"+"⌝; ⌜"-"⌝] -> ds <> [] -> Forall is_digit ds -> (forall c r, rest = c :: r -> ~ is_digit c) ->
      number (sp ++ sg ++ ds ++ rest) (if decide (sg = ⌜"-"⌝) then - value ds else value ds)%Z.

Definition fits (z : Z) : Prop := (- 2 ^ 31 <= z < 2 ^ 31)%Z.

(** *** What can be asked for.  [A] is what stands for a number: a text on the command line, a number afterwards. *)
Inductive novelty :=
  | Regular (class equivalent : text) | MoveOnly (class equivalent : text) | RegularAllocation (class : text)
  | MoveOnlyAllocation (class : text) | Free (header : text) | Performance (header : text).
Inductive setting := InSuite (name : text) | WithHeader (header : text) | Forename (name : text) | Source (x : text) | DiagnosticTest.
Inductive initing := WithoutBuild | WithoutGit | ToFiles (file : text) | WithoutIde.
Inductive locating (A : Type) := InSandboxes | AsRunner (id : A).
Arguments InSandboxes {A}. Arguments AsRunner {A}.

Inductive usage (A : Type) :=
  | TestSuite (name : text) | SelectFile (file : text) | PruneTests (cutoffs : list text)
  | CreateTest (t : novelty) (ss : list setting) | InitProject (copyright root indent : text) (is : list initing)
  | UpdateMaterials | LocateInstabilities (n : A) (ls : list (locating A)) | RecoverTests | DumpTests | RunSerially
  | ThreadPool (n : A) | Verbose.
Arguments TestSuite {A}. Arguments SelectFile {A}. Arguments PruneTests {A}. Arguments CreateTest {A}. Arguments InitProject {A}.
Arguments UpdateMaterials {A}. Arguments LocateInstabilities {A}. Arguments RecoverTests {A}. Arguments DumpTests {A}.
Arguments RunSerially {A}. Arguments ThreadPool {A}. Arguments Verbose {A}.

(** *** How it is asked for *)
Definition says_setting (t : novelty) (s : setting) (ws : list text) : Prop :=
  match s with
  | InSuite x => exists w, w ∈ [⌜"--suite"⌝; ⌜"-s"⌝] /\ ws = [w; x]
  | WithHeader x =>
      match t with Free _ | Performance _ => False | _ => exists w, w ∈ [⌜"--header"⌝; ⌜"-h"⌝] /\ ws = [w; x] end
  | Forename x => match t with Free _ => exists w, w ∈ [⌜"--test-class-forename"⌝; ⌜"--forename"⌝] /\ ws = [w; x] | _ => False end
  | Source x => match t with Regular _ _ | MoveOnly _ _ | Free _ => exists w, w ∈ [⌜"gen-source"⌝; ⌜"g"⌝] /\ ws = [w; x] | _ => False end
  | DiagnosticTest => match t with Free _ => exists w, w ∈ [⌜"--framework-diagnostics"⌝; ⌜"--diagnostics"⌝] /\ ws = [w] | _ => False end
  end.
Definition says_novelty (t : novelty) (ws : list text) : Prop :=
  match t with
  | Regular c e => exists w, w ∈ [⌜"regular_test"⌝; ⌜"regular"⌝] /\ ws = [w; c; e]
  | MoveOnly c e => exists w, w ∈ [⌜"move_only_test"⌝; ⌜"move_only"⌝] /\ ws = [w; c; e]
  | RegularAllocation c => exists w, w ∈ [⌜"regular_allocation_test"⌝; ⌜"regular_allocation"⌝; ⌜"allocation_test"⌝] /\ ws = [w; c]
  | MoveOnlyAllocation c => exists w, w ∈ [⌜"move_only_allocation_test"⌝; ⌜"move_only_allocation"⌝] /\ ws = [w; c]
  | Free h => exists w, w ∈ [⌜"free_test"⌝; ⌜"free"⌝] /\ ws = [w; h]
  | Performance h => exists w, w ∈ [⌜"performance_test"⌝; ⌜"performance"⌝] /\ ws = [w; h]
  end.
Definition says_initing (i : initing) (ws : list text) : Prop :=
  match i with
  | WithoutBuild => ws = [⌜"--no-build"⌝] | WithoutGit => ws = [⌜"--no-git"⌝] | ToFiles x => ws = [⌜"--to-files"⌝; x]
  | WithoutIde => ws = [⌜"--no-ide"⌝]
  end.
Definition says_locating (l : locating text) (ws : list text) : Prop :=
  match l with InSandboxes => ws = [⌜"--sandbox"⌝] | AsRunner x => ws = [⌜"--runner-id"⌝; x] end.
Definition says_cutoff (c : text) (ws : list text) : Prop := exists w, w ∈ [⌜"--cutoff"⌝; ⌜"-c"⌝] /\ ws = [w; c].

(** The command comes first, what belongs to it afterwards. *)
Inductive says : usage text -> list text -> Prop :=
  | says_test x w : w ∈ [⌜"test"⌝; ⌜"t"⌝] -> says (TestSuite x) [w; x]
  | says_select x w : w ∈ [⌜"select"⌝; ⌜"s"⌝] -> says (SelectFile x) [w; x]
  | says_prune cs w wss : w ∈ [⌜"prune"⌝; ⌜"p"⌝] -> Forall2 says_cutoff cs wss -> says (PruneTests cs) (w :: List.concat wss)
  | says_create t ss w ws wss : w ∈ [⌜"create"⌝; ⌜"c"⌝] -> says_novelty t ws -> Forall2 (says_setting t) ss wss ->
      says (CreateTest t ss) (w :: ws ++ List.concat wss)
  | says_init c r i is w wss : w ∈ [⌜"init"⌝; ⌜"i"⌝] -> Forall2 says_initing is wss -> says (InitProject c r i is) (w :: c :: r :: i :: List.concat wss)
  | says_update w : w ∈ [⌜"update-materials"⌝; ⌜"u"⌝] -> says UpdateMaterials [w]
  | says_locate x ls w wss : w ∈ [⌜"locate-instabilities"⌝; ⌜"locate"⌝] -> Forall2 says_locating ls wss ->
      says (LocateInstabilities x ls) (w :: x :: List.concat wss)
  | says_recover : says RecoverTests [⌜"recover"⌝]
  | says_dump : says DumpTests [⌜"dump"⌝]
  | says_serial : says RunSerially [⌜"--serial"⌝]
  | says_pool x : says (ThreadPool x) [⌜"--thread-pool"⌝; x]
  | says_verbose w : w ∈ [⌜"--verbose"⌝; ⌜"-v"⌝] -> says Verbose [w].

(** *** Numbers of a command *)
Definition means_locating (l : locating text) (m : locating Z) : Prop :=
  match l, m with
  | InSandboxes, InSandboxes => True
  | AsRunner x, AsRunner z => number x z /\ fits z
  | _, _ => False
  end.
Inductive means : usage text -> usage Z -> Prop :=
  | means_test x : means (TestSuite x) (TestSuite x)
  | means_select x : means (SelectFile x) (SelectFile x)
  | means_prune cs : means (PruneTests cs) (PruneTests cs)
  | means_create t ss : means (CreateTest t ss) (CreateTest t ss)
  | means_init c r i is : means (InitProject c r i is) (InitProject c r i is)
  | means_update : means UpdateMaterials UpdateMaterials
  | means_locate x z ls ms : number x z -> fits z -> (2 <= z)%Z -> Forall2 means_locating ls ms ->
      means (LocateInstabilities x ls) (LocateInstabilities z ms)
  | means_recover : means RecoverTests RecoverTests
  | means_dump : means DumpTests DumpTests
  | means_serial : means RunSerially RunSerially
  | means_pool x z : number x z -> fits z -> means (ThreadPool x) (ThreadPool z)
  | means_verbose : means Verbose Verbose.

(** *** What is wanted *)
Notation wanted := (list (usage Z)) (only parsing).

Definition last_or {A} (d : A) (l : list A) : A := default d (last l).

Definition suite_of (u : usage Z) : option text := match u with TestSuite x => Some x | _ => None end.
Definition file_of (u : usage Z) : option text := match u with SelectFile x => Some x | _ => None end.
Definition cutoffs_of (u : usage Z) : list text := match u with PruneTests cs => cs | _ => [] end.
Definition is_prune (u : usage Z) : bool := match u with PruneTests _ => true | _ => false end.
Definition is_update (u : usage Z) : bool := match u with UpdateMaterials => true | _ => false end.
Definition is_create (u : usage Z) : bool := match u with CreateTest _ _ => true | _ => false end.
Definition is_init (u : usage Z) : bool := match u with InitProject _ _ _ _ => true | _ => false end.
Definition is_verbose (u : usage Z) : bool := match u with Verbose => true | _ => false end.
Definition is_recover (u : usage Z) : bool := match u with RecoverTests => true | _ => false end.
Definition is_dump (u : usage Z) : bool := match u with DumpTests => true | _ => false end.
Definition is_locate (u : usage Z) : bool := match u with LocateInstabilities _ _ => true | _ => false end.
Definition is_testing (u : usage Z) : bool := match u with TestSuite _ | SelectFile _ | PruneTests _ | UpdateMaterials => true | _ => false end.

Definition selecting (us : wanted) : bool := existsb (fun u => match u with TestSuite _ | SelectFile _ => true | _ => false end) us.

(** How tests are run: by what was said last.  If nothing was said: one by one for the sake of recovery. *)
Definition said_conc (u : usage Z) : option concurrency :=
  match u with
  | RunSerially => Some Serial
  | ThreadPool n => if (0 <? n)%Z then Some Fixed else None
  | _ => None
  end.
Definition wanted_conc (us : wanted) : concurrency :=
  match last (omap said_conc us) with
  | Some c => c
  | None => if existsb is_recover us || existsb is_dump us then Serial else Dynamic
  end.
Definition pool_of (u : usage Z) : option Z := match u with ThreadPool n => if (0 <? n)%Z then Some n else None | _ => None end.
Definition senseless_pool (u : usage Z) : option warning := match u with ThreadPool n => if (0 <? n)%Z then None else Some PoolWarning | _ => None end.

(** Instabilities: the last request counts. *)
Definition said_locate (u : usage Z) : option (Z * list (locating Z)) := match u with LocateInstabilities n ls => Some (n, ls) | _ => None end.
Definition wanted_instab (us : wanted) : instability :=
  match last (omap said_locate us) with
  | None => Stable
  | Some (_, ls) => match last ls with None => SingleInstance | Some InSandboxes => Coordinator | Some (AsRunner _) => Sandbox end
  end.
Definition wanted_reps (us : wanted) : Z := match last (omap said_locate us) with None => 1%Z | Some (n, _) => n end.
Definition ids_of (u : usage Z) : list Z :=
  match u with LocateInstabilities _ ls => omap (fun l => match l with AsRunner z => Some z | InSandboxes => None end) ls | _ => [] end.

(** A new test *)
Definition genus_of (t : novelty) : genus :=
  match t with Regular _ _ | MoveOnly _ _ => Semantic | RegularAllocation _ | MoveOnlyAllocation _ => Allocation | _ => Behavioural end.
Definition type_of (t : novelty) : text :=
  match t with
  | Regular _ _ => ⌜"regular"⌝ | MoveOnly _ _ => ⌜"move_only"⌝ | RegularAllocation _ => ⌜"regular_allocation"⌝
  | MoveOnlyAllocation _ => ⌜"move_only_allocation"⌝ | Free _ => ⌜"free"⌝ | Performance _ => ⌜"performance"⌝
  end.
Definition created (t : novelty) (ss : list setting) : nascent :=
  let names := omap (fun s => match s with InSuite x => Some x | _ => None end) ss in
  let headers := omap (fun s => match s with WithHeader x => Some x | _ => None end) ss in
  let forenames := omap (fun s => match s with Forename x => Some x | _ => None end) ss in
  let sources := omap (fun s => match s with Source x => Some x | _ => None end) ss in
  Nascent (genus_of t) (type_of t)
    (match t with Regular c _ | MoveOnly c _ => c | _ => [] end)
    (match t with Regular _ e | MoveOnly _ e => [e] | _ => [] end)
    (last_or [] names)
    (last_or (match t with Free h | Performance h => h | _ => [] end) headers)
    (last_or (match t with RegularAllocation c | MoveOnlyAllocation c => c | _ => [] end) forenames)
    (existsb (fun s => match s with Source _ => true | _ => false end) ss)
    (match genus_of t with Semantic => last_or [] sources | _ => [] end)
    (match genus_of t with Behavioural => last_or [] (filter (fun x => x <> ⌜"::"⌝) sources) | _ => [] end)
    (existsb (fun s => match s with DiagnosticTest => true | _ => false end) ss)
    1.
Definition created_of (u : usage Z) : option nascent := match u with CreateTest t ss => Some (created t ss) | _ => None end.

(** A new project; "\t" stands for a tab. *)
Fixpoint untab (l : text) : text :=
  match l with
  | [] => []
  | c :: r =>
      match r with
      | d :: r' => if decide (c = "\"%char /\ d = "t"%char) then "009"%char :: untab r' else c :: untab r
      | [] => [c]
      end
  end.
Definition inited (c r i : text) (is : list initing) : project :=
  Project c r (untab i)
    (if existsb (fun i => match i with WithoutBuild => true | _ => false end) is then NoBuild
     else if existsb (fun i => match i with WithoutIde => true | _ => false end) is then Build else LaunchIde)
    (negb (existsb (fun i => match i with WithoutGit => true | _ => false end) is))
    (last_or [] (omap (fun i => match i with ToFiles x => Some x | _ => None end) is)).
Definition inited_of (u : usage Z) : option project := match u with InitProject c r i is => Some (inited c r i is) | _ => None end.

(** Files of former runs are removed. *)
Definition cleared (us : wanted) (d : option folder) : option folder :=
  if existsb is_recover us || existsb is_dump us then
    Some (match d with
          | None => Folder None None
          | Some d => Folder (if existsb is_recover us then None else recovery_file d) (if existsb is_dump us then None else dump_file d)
          end)
  else d.

(** The runner as wanted; [d]: the files of former runs *)
Definition as_wanted (us : wanted) (d : option folder) : state :=
  let create := existsb is_create us in
  let init := existsb is_init us in
  State (omap suite_of us) (omap file_of us)
    (existsb is_testing us || negb (create || init)) create init
    (existsb is_prune us && negb (selecting us)) (last_or [] (List.concat (map cutoffs_of us))) (existsb is_verbose us)
    (existsb is_update us && negb (existsb is_locate us)) (existsb is_recover us) (existsb is_dump us)
    (wanted_conc us) (wanted_instab us) (wanted_reps us) (last_or 0%Z (map (fun z => z mod 2 ^ 64)%Z (List.concat (map ids_of us))))
    (last_or 8%Z (omap pool_of us)) (omap created_of us) (omap inited_of us)
    (omap senseless_pool us ++ (if existsb is_update us && existsb is_locate us then [UpdateWarning] else [])
       ++ (if existsb is_prune us && selecting us then [PruneWarning] else []))
    (cleared us d).

(** Recovery needs tests to be run one by one. *)
Definition contradictory (us : wanted) : Prop :=
  (existsb is_recover us = true \/ existsb is_dump us = true) /\ wanted_conc us = Fixed.

(** *** Numbers which are none, and the exceptions they cause *)
Inductive bad_number : text -> exn -> Prop :=
  | bad_text x : (forall z, ~ number x z) -> bad_number x LogicError
  | bad_size x z : number x z -> ~ fits z -> bad_number x OutOfRange.
Inductive bad : usage text -> exn -> Prop :=
  | bad_pool x e : bad_number x e -> bad (ThreadPool x) e
  | bad_locate x ls : (forall z, number x z -> fits z -> (z < 2)%Z) -> bad (LocateInstabilities x ls) RuntimeError
  | bad_runner x z ls ms y ls' e : number x z -> fits z -> (2 <= z)%Z -> Forall2 means_locating ls ms -> bad_number y e ->
      bad (LocateInstabilities x (ls ++ AsRunner y :: ls')) e.

(** *** Runs in a sandbox *)

Definition found (l : list (text * bool)) : list text := omap (fun p : text * bool => if p.2 then Some p.1 else None) l.

(** The runner of a sandbox: the number [i] of those the runner [s] starts, when [is] and [ss] of what was selected has been found *)
Definition in_sandbox (s : state) (is ss : list text) (i : Z) (d : option folder) : state :=
  State ss is true false false false [] false false false false (conc s) Sandbox (reps s) i
    (match conc s with Fixed => pool s | _ => 8%Z end) [] [] [] d.
