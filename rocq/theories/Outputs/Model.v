(** Model of the locations of files of a project and of what is written to them in a run:
    Source/sequoia/TestFramework/IndividualTestPaths.cpp, ProjectPaths.cpp, Output.cpp L352-367, TestRunner.cpp
    L178-273 and L306-313, TestRunner.hpp L175-217.  A path is the list of its elements; that of an absolute path
    starts with a slash. *)
From Coq Require Import Ascii String.
From stdpp Require Import list gmap strings.
From Verif.Base Require Import Outcome.
From Verif.Text Require Import Model.
From Verif.SoftUpdate Require Model.
From Verif.Prune Require Model.
From Verif.Failure Require Model.
Local Open Scope res_scope.
Local Notation "⌜ s ⌝" := (list_ascii_of_string s%string).
Notation path := (list text) (only parsing).
Notation files := (gmap (list text) text) (only parsing).

Definition root : text := ⌜"/"⌝.
Definition is_absolute (p : path) : bool := bool_decide (head p = Some root).

(** [path::operator/=]; the right-hand side is not empty here *)
Definition extend (p q : path) : path := if is_absolute q then q else p ++ q.
(** [std::accumulate] with [/=] on the elements of [q] *)
Definition extend_all (p q : path) : path := fold_left (fun p x => extend p [x]) q p.

(** FileSystem.hpp L46-53 *)
Definition back (p : path) : res text := match last p with Some x => Ok x | None => Throw RuntimeError end.

(** [replace_extension(ext)] *)
Definition replace_extension (p : path) (ext : text) : path :=
  match p with [] => [] | _ => removelast p ++ [Verif.SoftUpdate.Model.stem (List.last p []) ++ ext] end.

(** ** Diagnostics, IndividualTestPaths.cpp *)
Inductive mode := Standard | FalsePositive | FalseNegative.
Inductive kind := Messages | Exceptions.

(** L27-41 *)
Definition to_tag (m : mode) : text := match m with FalsePositive => ⌜"FP"⌝ | FalseNegative => ⌜"FN"⌝ | Standard => [] end.
(** L152-153 *)
Definition suffix_of (k : kind) : text := match k with Messages => ⌜"Output"⌝ | Exceptions => ⌜"Exceptions"⌝ end.
Definition platform_text (platform : option text) : text :=
  match platform with Some (c :: p) => ⌜"_"⌝ ++ c :: p | _ => [] end.

(** L44-57; [dir] is output_paths::diagnostics, ProjectPaths.cpp L325-327 and L337-339.  The names of suites have no
    slashes. *)
Definition diagnostics_name (source : path) (m : mode) (k : kind) (platform : option text) : text :=
  Verif.SoftUpdate.Model.stem (List.last source []) ++ ⌜"_"⌝ ++ to_tag m ++ suffix_of k ++ platform_text platform ++ ⌜".txt"⌝.
Definition diagnostics_dir (project : path) : path := project ++ [⌜"output"⌝; ⌜"DiagnosticsOutput"⌝].
Definition diagnostics_path (project : path) (suite : text) (source : path) (m : mode) (k : kind) (platform : option text) : res path :=
  let? s := replace_all (S (length suite)) suite ⌜" "⌝ ⌜"_"⌝ in
  Ok (diagnostics_dir project ++ [s; diagnostics_name source m k platform]).

(** ** Summaries, IndividualTestPaths.cpp L60-92 *)
Definition summaries_dir (project : path) : path := project ++ [⌜"output"⌝; ⌜"TestSummaries"⌝].
Definition summary_path (project : path) (source : path) (discriminator : option text) : res path :=
  let repo := project ++ [⌜"Tests"⌝] in
  match source with
  | [] => Throw RuntimeError                                                          (* L63 *)
  | _ =>
      let file := replace_extension source ⌜".txt"⌝ in                                (* L68 *)
      let name := match discriminator with                                            (* L69-70 *)
                  | Some (c :: d) => removelast file ++ [Verif.SoftUpdate.Model.stem (List.last file []) ++ ⌜"_"⌝ ++ (c :: d)
                                       ++ Verif.SoftUpdate.Model.extension (List.last file [])]
                  | _ => file
                  end in
      if negb (is_absolute name) then                                                 (* L76 *)
        let? b := back repo in
        let? r := Verif.Prune.Model.rebase_from name repo in
        Ok (extend (summaries_dir project ++ [b]) r)                                  (* L80 *)
      else Ok (extend_all (summaries_dir project) (Verif.Prune.Model.strip_common name (summaries_dir project)))  (* L85-89 *)
  end.

(** ** What is reported, Output.cpp L352-367 *)
Definition path_for_reporting (file repository : path) : res path :=
  if negb (is_absolute file) then Ok (extend_all [] (Verif.Prune.Model.drop_up file))
  else match repository with
       | [] => Ok file
       | _ => let? b := back repository in Ok (extend_all [b] (Verif.Prune.Model.strip_common file repository))
       end.

(** ** Where a project is, ProjectPaths.cpp L39-97.  [exec] is the canonical path of the executable, [names] gives the
    names of the entries of a folder. *)
Definition build_name : text := ⌜"build"⌝.
Definition cache_name : text := ⌜"CMakeCache.txt"⌝.

Definition get_cmake_cache (names : path -> list text) (dir : path) : res path :=
  if bool_decide (cache_name ∈ names dir) then Ok (dir ++ [cache_name])
  else if bool_decide (cache_name ∈ names (removelast dir)) then Ok (removelast dir ++ [cache_name])
  else Throw RuntimeError.

(** The elements before and from the first "build" *)
Fixpoint split_build (p : path) : path * path :=
  match p with
  | [] => ([], [])
  | x :: p' => if decide (x = build_name) then ([], p) else let '(a, b) := split_build p' in (x :: a, b)
  end.
Definition discover (names : path -> list text) (exec : path) : res (path * path) :=
  let '(before, from) := split_build exec in
  match before, from with
  | _ :: _, _ :: _ :: _ =>
      let? c := get_cmake_cache names (removelast exec) in Ok (extend_all [] before, c)
  | _, _ => Throw RuntimeError
  end.

(** ** Files for pruning, ProjectPaths.cpp L255-317.  [build] is the folder of the executable relative to that of builds. *)
Inductive prune_file := Stamp | Failures (id : option N) | Passes (id : option N) | External.
Definition prune_dir (project build : path) : path := project ++ [⌜"output"⌝; ⌜"Prune"⌝] ++ build.
Definition make_path (dir : path) (stem : text) (id : option N) (ext : text) : path :=
  match id with
  | None => dir ++ [stem ++ ext]
  | Some n => dir ++ [⌜"InstabilityAnalysis"⌝; stem ++ Verif.Failure.Model.decimal n ++ ext]
  end.
Definition prune_path (dir : path) (stem : text) (f : prune_file) : path :=
  match f with
  | Stamp => dir ++ [stem ++ ⌜".prune"⌝]
  | Failures id => make_path dir stem id ⌜".failures"⌝
  | Passes id => make_path dir stem id ⌜".passes"⌝
  | External => make_path dir stem None ⌜".external"⌝
  end.

(** ** What is written *)

(** TestRunner.cpp L307-313 *)
Definition versioned_write (fs : files) (file : path) (t : text) : files :=
  match t, fs !! file with
  | [], None => fs
  | _, _ => <[file := t]> fs
  end.

(** What the execution of a test leads to: where diagnostics and exceptions are to be written, whether there were
    critical failures, and what there is to write. *)
Record executed := Executed { diagnostics_file : path; exceptions_file : path; critical : bool; diagnostics : text; exceptions : text }.

(** TestRunner.hpp L206-217 *)
Definition write_versioned_output (fs : files) (e : executed) : files :=
  if critical e then fs
  else versioned_write (versioned_write fs (diagnostics_file e) (diagnostics e)) (exceptions_file e) (exceptions e).
Definition write_all (fs : files) (l : list executed) : files := fold_left write_versioned_output l fs.

(** TestRunner.cpp L230-257.  [written]: m_FilesWrittenTo; folders are made as necessary *)
Definition to_file (st : files * list path) (file : path) (t : text) : files * list path :=
  let '(fs, written) := st in
  match file with
  | [] => st
  | _ =>
      if bool_decide (file ∈ written) then (<[file := default [] (fs !! file) ++ t]> fs, written)
      else (<[file := t]> fs, file :: written)
  end.

(** What is known about a test when it is processed: its file, where the summary goes, the text of the summary, the
    numbers of failures, and the materials as far as they are there. *)
Record processed := Processed { test_file : path; summary_file : path; summary_text : text;
  soft_failures : nat; critical_failures : nat; working_copy : option path; predictions : option path }.

(** TestRunner.cpp L216-228; [m_Updateables] is a set with the working copies as keys. *)
Record tracker := Tracker { out : files * list path; executed_tests : list path; failed_tests : list path; updateables : list (path * path) }.
Definition insert_update (l : list (path * path)) (w p : path) : list (path * path) :=
  if bool_decide (w ∈ l.*1) then l else l ++ [(w, p)].

(** TestRunner.cpp L202-221 *)
Definition process_test (update : bool) (t : tracker) (x : processed) : tracker :=
  Tracker (to_file (out t) (summary_file x) (summary_text x))
    (executed_tests t ++ [test_file x])
    (if bool_decide (soft_failures x = 0 /\ critical_failures x = 0) then failed_tests t else failed_tests t ++ [test_file x])
    (if update then
       if bool_decide (soft_failures x = 0) then updateables t
       else match working_copy x, predictions x with
            | Some w, Some p => insert_update (updateables t) w p
            | _, _ => updateables t
            end
     else updateables t).
Definition process_all (update : bool) (fs : files) (l : list processed) : tracker :=
  fold_left (process_test update) l (Tracker (fs, []) [] [] []).
