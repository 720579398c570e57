(** C93, C94 and C95: the files of a run, the summaries, and the locations. *)
From Coq Require Import Ascii String.
From stdpp Require Import list gmap strings.
From Verif.Base Require Import Outcome.
From Verif.Text Require Import Model.
From Verif.Outputs Require Import Model Spec Proofs ProofsLocations.
Local Notation "⌜ s ⌝" := (list_ascii_of_string s%string).

(** ** C93 *)
Theorem C93_apart_partial project suite suite' source source' m m' k k' pl p :
  diagnostics_path project suite source m k pl = Ok p -> diagnostics_path project suite' source' m' k' pl = Ok p ->
  underscored suite = underscored suite' /\ stem_of source = stem_of source' /\ m = m' /\ k = k'.
Proof. exact (diagnostics_apart project suite suite' source source' m m' k k' pl p). Qed.
Print Assumptions C93_apart_partial.

Definition proj : list text := [⌜"/"⌝; ⌜"p"⌝].
Example C93_apart_ex : exists p q,
  diagnostics_path proj ⌜"My Suite"⌝ [⌜"Tests"⌝; ⌜"Foo.cpp"⌝] FalsePositive Messages (Some ⌜"win"⌝) = Ok p /\
  p = proj ++ [⌜"output"⌝; ⌜"DiagnosticsOutput"⌝; ⌜"My_Suite"⌝; ⌜"Foo_FPOutput_win.txt"⌝] /\
  diagnostics_path proj ⌜"My Suite"⌝ [⌜"Tests"⌝; ⌜"Foo.cpp"⌝] FalseNegative Messages (Some ⌜"win"⌝) = Ok q /\ p <> q.
Proof. do 2 eexists. split; [vm_compute; reflexivity|]. split; [vm_compute; reflexivity|]. split; [vm_compute; reflexivity|]. apply (bool_decide_unpack _). by vm_compute. Qed.

(** Provided that the files of the tests are different, what is found in them in the end is what the tests said; tests
    with critical failures leave everything as it was; nothing else is touched. *)
Theorem C93_written fs l e : NoDup (concat (map files_of l)) -> e ∈ l ->
  (critical e = true -> forall f, f ∈ files_of e -> write_all fs l !! f = fs !! f) /\
  (critical e = false -> write_all fs l !! diagnostics_file e = after_write (fs !! diagnostics_file e) (diagnostics e) /\
     write_all fs l !! exceptions_file e = after_write (fs !! exceptions_file e) (exceptions e)).
Proof. exact (written fs l e). Qed.
Print Assumptions C93_written.

Theorem C93_untouched fs l f : f ∉ concat (map files_of l) -> write_all fs l !! f = fs !! f.
Proof. exact (write_all_other l fs f). Qed.
Print Assumptions C93_untouched.

Definition one : executed := Executed [⌜"a"⌝] [⌜"b"⌝] false ⌜"bad"⌝ [].
Definition two : executed := Executed [⌜"c"⌝] [⌜"d"⌝] true ⌜"worse"⌝ [].
Example C93_written_ex : NoDup (concat (map files_of [one; two])) /\ two ∈ [one; two] /\ one ∈ [one; two] /\ critical two = true /\ critical one = false /\
  write_all (<[[⌜"c"⌝] := ⌜"before"⌝]> ∅) [one; two] !! [⌜"a"⌝] = Some ⌜"bad"⌝ /\ write_all (<[[⌜"c"⌝] := ⌜"before"⌝]> ∅) [one; two] !! [⌜"b"⌝] = None /\
  write_all (<[[⌜"c"⌝] := ⌜"before"⌝]> ∅) [one; two] !! [⌜"c"⌝] = Some ⌜"before"⌝.
Proof.
  split; [apply (bool_decide_unpack _); by vm_compute|]. split; [by right; left|]. split; [by left|]. by vm_compute.
Qed.

(** Different tests of a suite may have the same file for their diagnostics: sources of the same name in different
    folders; suites the names of which differ in blanks.  What the first test said is lost then. *)
Theorem C93_shared_refuted :
  (exists suite s s' p t t', s <> s' /\ diagnostics_path proj suite s Standard Messages None = Ok p /\ diagnostics_path proj suite s' Standard Messages None = Ok p /\
     t <> [] /\ write_all ∅ [Executed p [⌜"x"⌝] false t []; Executed p [⌜"y"⌝] false t' []] !! p = Some t' /\ t' <> t) /\
  (exists suite suite' s p, suite <> suite' /\ diagnostics_path proj suite s Standard Messages None = Ok p /\ diagnostics_path proj suite' s Standard Messages None = Ok p).
Proof.
  split.
  - exists ⌜"S"⌝, [⌜"Tests"⌝; ⌜"A"⌝; ⌜"Foo.cpp"⌝], [⌜"Tests"⌝; ⌜"B"⌝; ⌜"Foo.cpp"⌝],
      (proj ++ [⌜"output"⌝; ⌜"DiagnosticsOutput"⌝; ⌜"S"⌝; ⌜"Foo_Output.txt"⌝]), ⌜"first"⌝, ⌜"second"⌝.
    by repeat (split; [vm_compute; first [reflexivity | discriminate | congruence]|]).
  - exists ⌜"a b"⌝, ⌜"a_b"⌝, [⌜"Tests"⌝; ⌜"Foo.cpp"⌝], (proj ++ [⌜"output"⌝; ⌜"DiagnosticsOutput"⌝; ⌜"a_b"⌝; ⌜"Foo_Output.txt"⌝]).
    split; [discriminate|]. by vm_compute.
Qed.
Print Assumptions C93_shared_refuted.

(** ** C94 *)
Theorem C94_summaries update fs l f : f <> [] ->
  (out (process_all update fs l)).1 !! f = (if decide (summaries_for f l = []) then fs !! f else Some (concat (summaries_for f l))).
Proof. exact (summaries update fs l f). Qed.
Print Assumptions C94_summaries.

Theorem C94_recorded update fs l :
  executed_tests (process_all update fs l) = map test_file l /\ failed_tests (process_all update fs l) = map test_file (List.filter failed l).
Proof. exact (lists update fs l). Qed.
Print Assumptions C94_recorded.

Theorem C94_updates fs l : let r := updateables (process_all true fs l) in
  NoDup r.*1 /\ (forall w, w ∈ r.*1 <-> exists x p, x ∈ l /\ outdated x w p) /\ (forall w p, (w, p) ∈ r -> exists x, x ∈ l /\ outdated x w p).
Proof. exact (updates fs l). Qed.
Print Assumptions C94_updates.

Theorem C94_no_updates fs l : updateables (process_all false fs l) = [].
Proof. exact (no_updates l (Tracker (fs, []) [] [] [])). Qed.
Print Assumptions C94_no_updates.

Definition tx (f s t : string) (n m : nat) (w : option (list text)) : processed := Processed [⌜f⌝] [⌜s⌝] ⌜t⌝ n m w (option_map (fun x => x ++ [⌜"P"⌝]) w).
Definition some_tests : list processed :=
  [tx "A.cpp" "s" "one " 1 0 (Some [⌜"W"⌝]); tx "B.cpp" "t" "other" 0 1 (Some [⌜"V"⌝]); tx "A.cpp" "s" "two" 2 0 (Some [⌜"W"⌝]); tx "C.cpp" "u" "" 0 0 None].
Example C94_ex :
  let r := process_all true (<[[⌜"s"⌝] := ⌜"old"⌝]> (<[[⌜"z"⌝] := ⌜"kept"⌝]> ∅)) some_tests in
  (out r).1 !! [⌜"s"⌝] = Some ⌜"one two"⌝ /\ (out r).1 !! [⌜"z"⌝] = Some ⌜"kept"⌝ /\
  failed_tests r = [[⌜"A.cpp"⌝]; [⌜"B.cpp"⌝]; [⌜"A.cpp"⌝]] /\ updateables r = [([⌜"W"⌝], [⌜"W"⌝; ⌜"P"⌝])].
Proof. by vm_compute. Qed.

(** The summary of a test is found in the same place for a relative and for an absolute path to the source. *)
Theorem C94_place names n rel d : plain names -> rel <> [] -> plain rel -> let project := ⌜"/"⌝ :: names in
  let p := project ++ [⌜"output"⌝; ⌜"TestSummaries"⌝; ⌜"Tests"⌝] ++ summary_name rel d in
  summary_path project (ups n ++ ⌜"Tests"⌝ :: rel) d = Ok p /\ summary_path project (project ++ ⌜"Tests"⌝ :: rel) d = Ok p.
Proof.
  exact (summary_place names n rel d).
Qed.
Print Assumptions C94_place.

Theorem C94_places_apart rel rel' : summary_name rel None = summary_name rel' None -> removelast rel = removelast rel' /\ stem_of rel = stem_of rel'.
Proof. exact (summary_name_inj rel rel'). Qed.
Print Assumptions C94_places_apart.

Example C94_place_ex : plain [⌜"home"⌝; ⌜"p"⌝] /\ plain [⌜"Maths"⌝; ⌜"Foo.cpp"⌝] /\
  summary_path [⌜"/"⌝; ⌜"home"⌝; ⌜"p"⌝] [⌜".."⌝; ⌜"Tests"⌝; ⌜"Maths"⌝; ⌜"Foo.cpp"⌝] (Some ⌜"win"⌝) =
    Ok [⌜"/"⌝; ⌜"home"⌝; ⌜"p"⌝; ⌜"output"⌝; ⌜"TestSummaries"⌝; ⌜"Tests"⌝; ⌜"Maths"⌝; ⌜"Foo_win.txt"⌝].
Proof. split; [by unfold plain; rewrite !Forall_cons|]. split; [by unfold plain; rewrite !Forall_cons|]. by vm_compute. Qed.

(** With discriminators, different tests may have their summaries in the same place. *)
Theorem C94_discriminator_refuted : exists rel rel' d d', stem_of rel <> stem_of rel' /\ summary_name rel d = summary_name rel' d' /\ rel <> [] /\ rel' <> [].
Proof. exists [⌜"a.cpp"⌝], [⌜"a_b.cpp"⌝], (Some ⌜"b"⌝), None. split; [by vm_compute|]. by vm_compute. Qed.
Print Assumptions C94_discriminator_refuted.

(** ** C95 *)
Theorem C95_reported_partial n r b rel : plain (b :: rel) ->
  path_for_reporting (ups n ++ b :: rel) (⌜"/"⌝ :: r ++ [b]) = Ok (b :: rel) /\
  path_for_reporting (⌜"/"⌝ :: r ++ b :: rel) (⌜"/"⌝ :: r ++ [b]) = Ok (b :: rel).
Proof. intros H. split; [exact (reported_relative n (b :: rel) _ H)|]. apply (reported_absolute r b rel). exact (Forall_inv_tail H). Qed.
Print Assumptions C95_reported_partial.

Example C95_reported_ex : plain [⌜"Tests"⌝; ⌜"A.cpp"⌝] /\
  path_for_reporting [⌜"/"⌝; ⌜"p"⌝; ⌜"Tests"⌝; ⌜"A.cpp"⌝] [⌜"/"⌝; ⌜"p"⌝; ⌜"Tests"⌝] = Ok [⌜"Tests"⌝; ⌜"A.cpp"⌝].
Proof. split; [by unfold plain; rewrite !Forall_cons|]. by vm_compute. Qed.

(** A file outside of the repository is reported as if it were in it. *)
Theorem C95_outside_refuted : exists file repo p, ~ repo `prefix_of` file /\ path_for_reporting file repo = Ok p /\ head p = last repo.
Proof.
  exists [⌜"/"⌝; ⌜"me"⌝; ⌜"other"⌝; ⌜"x.cpp"⌝], [⌜"/"⌝; ⌜"me"⌝; ⌜"p"⌝; ⌜"Tests"⌝], [⌜"Tests"⌝; ⌜"other"⌝; ⌜"x.cpp"⌝].
  split; [intros [k Hk]; by vm_compute in Hk|]. by vm_compute.
Qed.
Print Assumptions C95_outside_refuted.

(** The root of the project is found from the path of the executable, and CMake's cache next to it or one folder up. *)
Theorem C95_discovered_partial names r sub exe : plain r -> ⌜"build"⌝ ∉ r -> let project := ⌜"/"⌝ :: r in
  let dir := project ++ ⌜"build"⌝ :: sub in
  discover names (dir ++ [exe]) =
    (if decide (⌜"CMakeCache.txt"⌝ ∈ names dir) then Ok (project, dir ++ [⌜"CMakeCache.txt"⌝])
     else if decide (⌜"CMakeCache.txt"⌝ ∈ names (removelast dir)) then Ok (project, removelast dir ++ [⌜"CMakeCache.txt"⌝])
     else Throw RuntimeError).
Proof. exact (discovered names r sub exe). Qed.
Print Assumptions C95_discovered_partial.

Theorem C95_no_build names p : ⌜"build"⌝ ∉ p -> discover names p = Throw RuntimeError.
Proof. exact (not_discovered names p). Qed.
Print Assumptions C95_no_build.

Example C95_discovered_ex : plain [⌜"p"⌝] /\ ⌜"build"⌝ ∉ [⌜"p"⌝] /\
  discover (fun d => if decide (d = [⌜"/"⌝; ⌜"p"⌝; ⌜"build"⌝; ⌜"gcc"⌝]) then [⌜"CMakeCache.txt"⌝] else []) [⌜"/"⌝; ⌜"p"⌝; ⌜"build"⌝; ⌜"gcc"⌝; ⌜"Debug"⌝; ⌜"exe"⌝] =
    Ok ([⌜"/"⌝; ⌜"p"⌝], [⌜"/"⌝; ⌜"p"⌝; ⌜"build"⌝; ⌜"gcc"⌝; ⌜"CMakeCache.txt"⌝]).
Proof. split; [by unfold plain; rewrite !Forall_cons|]. split; [apply (bool_decide_unpack _); by vm_compute|]. by vm_compute. Qed.

(** A project below a folder called "build" is not found. *)
Theorem C95_build_refuted : exists names project exec q, project `prefix_of` exec /\ last project = Some ⌜"p"⌝ /\
  exec = project ++ [⌜"build"⌝; ⌜"gcc"⌝; ⌜"exe"⌝] /\ discover names exec = Ok (q, project ++ [⌜"build"⌝; ⌜"gcc"⌝; ⌜"CMakeCache.txt"⌝]) /\ q <> project.
Proof.
  exists (fun _ => [⌜"CMakeCache.txt"⌝]), [⌜"/"⌝; ⌜"build"⌝; ⌜"p"⌝], [⌜"/"⌝; ⌜"build"⌝; ⌜"p"⌝; ⌜"build"⌝; ⌜"gcc"⌝; ⌜"exe"⌝], [⌜"/"⌝].
  split; [by eexists|]. by vm_compute.
Qed.
Print Assumptions C95_build_refuted.

(** The files for pruning do not get in each other's way. *)
Theorem C95_prune_apart dir stem f f' : prune_path dir stem f = prune_path dir stem f' -> f = f'.
Proof. exact (prune_paths_apart dir stem f f'). Qed.
Print Assumptions C95_prune_apart.

Example C95_prune_ex : prune_path [] ⌜"p"⌝ (Failures (Some 12%N)) = [⌜"InstabilityAnalysis"⌝; ⌜"p12.failures"⌝] /\
  prune_path [] ⌜"p"⌝ (Failures (Some 12%N)) <> prune_path [] ⌜"p"⌝ (Passes (Some 12%N)).
Proof. by vm_compute. Qed.
