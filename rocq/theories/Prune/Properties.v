(** Properties of the prune files (C43). *)
From Coq Require Import Ascii String NArith.
From stdpp Require Import list sets.
From Verif.Base Require Import Outcome Compare.
From Verif.Text Require Import Model.
From Verif.Failure Require Import Model.
From Verif.Prune Require Import Model Spec Proofs.
Local Open Scope res_scope.

Definition txt (s : string) : text := list_ascii_of_string s.
Definition example_repo : list text := [txt "home"; txt "me"; txt "Project"].
Definition test_a : list text := [txt "Maths"; txt "A.cpp"].
Definition test_b : list text := [txt "Maths"; txt "B.cpp"].
Definition test_c : list text := [txt "Text"; txt "C.cpp"].

(** C43: after any history of runs of all tests, and of some of the tests, the file of failures holds the tests whose last
    execution failed, and the file of passes those which have passed since the last run of all tests and have not failed
    since; each is held once, and none is in both. *)
Theorem prune_files_history : forall repo h, repo <> [] -> Forall (proper repo) h ->
  exists f, history repo h = Ok f /\ records (failures f) (failing h) /\ records (passes f) (passing h) /\
    forall p, failing h p -> ~ passing h p.
Proof. exact history_records. Qed.
Print Assumptions prune_files_history.

Example prune_files_history_example :
  let h := [Some_ [test_c; test_a] [test_c]; Some_ [test_b] []; All [test_b; test_a] 3] in
  Forall (proper example_repo) h /\
  history example_repo h = Ok (mk_files (Some (txt "Text/C.cpp" ++ [nl])) (Some (txt "Maths/A.cpp" ++ [nl] ++ txt "Maths/B.cpp" ++ [nl])) (Some 3)).
Proof.
  split; [|by vm_compute].
  assert (forall p, p = test_a \/ p = test_b \/ p = test_c -> good_path example_repo p) as Hg.
  { intros p [->|[->| ->]]; (split; [|split; [by vm_compute|split; [by vm_compute|apply (bool_decide_unpack _); by vm_compute]]]);
      repeat constructor; try done. }
  repeat apply Forall_cons_2; try apply Forall_nil_2.
  - split; [apply (bool_decide_unpack _); by vm_compute|]. split; [apply (bool_decide_unpack _); by vm_compute|].
    split; [set_solver|]. repeat apply Forall_cons_2; try apply Forall_nil_2; apply Hg; auto.
  - split; [apply (bool_decide_unpack _); by vm_compute|]. split; [apply (bool_decide_unpack _); by vm_compute|].
    split; [set_solver|]. repeat apply Forall_cons_2; try apply Forall_nil_2; apply Hg; auto.
  - split; [apply (bool_decide_unpack _); by vm_compute|]. repeat apply Forall_cons_2; try apply Forall_nil_2; apply Hg; auto.
Qed.

(** C43: the files of the repetitions of a filtered run are put together: a test failing in any repetition is recorded as
    failing, one passing in all of them as passing. *)
Theorem prune_files_aggregate : forall repo h f rs reps time, repo <> [] -> rs <> [] -> Forall (proper repo) h -> history repo h = Ok f ->
  Forall (fun r => proper repo (Some_ (fst r) (snd r))) rs ->
  Forall2 (fun r g => repetition repo r = Ok g) rs reps ->
  exists f', aggregate repo false f reps time = Ok f' /\
    records (failures f') (fun p => (exists r, r ∈ rs /\ p ∈ snd r) \/
        (failing h p /\ (forall r, r ∈ rs -> p ∉ snd r) /\ exists r, r ∈ rs /\ p ∉ fst r)) /\
    records (passes f') (fun p => (forall r, r ∈ rs -> p ∉ snd r) /\ (passing h p \/ forall r, r ∈ rs -> p ∈ fst r)).
Proof. exact aggregate_history. Qed.
Print Assumptions prune_files_aggregate.

Theorem prune_files_repetition : forall repo r, repo <> [] -> proper repo (Some_ (fst r) (snd r)) -> exists g, repetition repo r = Ok g /\
  records (failures g) (fun p => p ∈ snd r) /\ records (passes g) (fun p => p ∈ fst r /\ p ∉ snd r).
Proof. exact repetition_ok. Qed.
Print Assumptions prune_files_repetition.

Example prune_files_aggregate_example :
  (let? r1 := repetition example_repo ([test_a; test_b], [test_b]) in
   let? r2 := repetition example_repo ([test_a; test_b], []) in
   aggregate example_repo false (mk_files None None None) [r1; r2] 0) =
  Ok (mk_files (Some (txt "Maths/B.cpp" ++ [nl])) (Some (txt "Maths/A.cpp" ++ [nl])) None).
Proof. by vm_compute. Qed.

(** C43: a list of tests is written and read without change. *)
Theorem prune_files_round_trip : forall repo l t acc, repo <> [] -> Forall (good_path repo) l -> write_tests repo l = Ok t ->
  read_tests (Some t) acc = Ok (acc ++ l).
Proof. exact write_read. Qed.
Print Assumptions prune_files_round_trip.

(** A test executed twice (in two suites), and failing once, is in both files afterwards. *)
Theorem prune_files_twice_refuted : exists repo executed failed f, NoDup failed /\ (forall p, p ∈ failed -> p ∈ executed) /\
  Forall (good_path repo) executed /\ update_filtered repo (mk_files None None None) executed failed = Ok f /\
  read_tests (failures f) [] = Ok failed /\ read_tests (passes f) [] = Ok failed /\ failed <> [].
Proof.
  exists example_repo, [test_a; test_a], [test_a]. eexists. split; [apply (bool_decide_unpack _); by vm_compute|].
  split; [set_solver|]. split.
  { repeat apply Forall_cons_2; try apply Forall_nil_2; (split; [|split; [by vm_compute|split; [by vm_compute|apply (bool_decide_unpack _); by vm_compute]]]);
      repeat constructor; try done. }
  split; [by vm_compute|]. split; [by vm_compute|]. by split; [vm_compute|].
Qed.
Print Assumptions prune_files_twice_refuted.

(** A test in a folder with the name of a folder above it is recorded with another path. *)
Theorem prune_files_rebased_refuted : exists repo p t, write_tests repo [p] = Ok t /\ read_tests (Some t) [] <> Ok [p] /\
  Forall plain_element p.
Proof.
  exists [txt "home"; txt "Tests"], [txt "Tests"; txt "A.cpp"]. eexists. split; [by vm_compute|]. split; [by vm_compute|].
  repeat constructor; try done.
Qed.
Print Assumptions prune_files_rebased_refuted.

(** A path with a space is read as two. *)
Theorem prune_files_space_refuted : exists repo p t, p <> [] /\ write_tests repo [p] = Ok t /\
  exists q r, read_tests (Some t) [] = Ok [q; r].
Proof.
  exists example_repo, [txt "My Tests"; txt "A.cpp"]. eexists. split; [done|]. split; [by vm_compute|]. eexists _, _. by vm_compute.
Qed.
Print Assumptions prune_files_space_refuted.

(** Tests executed are given as the compiler has their paths, those in the files relative to the repository.  A test which failed, and
    passes when it is run again, is in both files afterwards; *)
Theorem prune_files_compiled_refuted : exists repo e p f f', rebase_from e repo = Ok p /\ good_path repo p /\
  update_all repo (mk_files None None None) [e] 0 = Ok f /\ update_filtered repo f [e] [] = Ok f' /\
  read_tests (failures f') [] = Ok [p] /\ read_tests (passes f') [] = Ok [p].
Proof.
  exists [txt "home"; txt "Tests"], [up; txt "Tests"; txt "A.cpp"], [txt "A.cpp"]. eexists _, _. split; [by vm_compute|].
  split; [split; [repeat constructor; done|split; [by vm_compute|split; [by vm_compute|apply (bool_decide_unpack _); by vm_compute]]]|].
  split; [by vm_compute|]. split; [by vm_compute|]. by vm_compute.
Qed.
Print Assumptions prune_files_compiled_refuted.

(** one which passed, and fails when it is run again, is no longer recorded as failing after another one has been run. *)
Theorem prune_files_forgotten_refuted : exists repo e p e' f1 f2 f3, rebase_from e repo = Ok p /\ good_path repo p /\ e <> e' /\
  update_filtered repo (mk_files None None None) [e] [] = Ok f1 /\ update_filtered repo f1 [e] [e] = Ok f2 /\
  update_filtered repo f2 [e'] [] = Ok f3 /\ read_tests (failures f2) [] = Ok [p] /\ read_tests (failures f3) [] = Ok [].
Proof.
  exists [txt "home"; txt "Tests"], [up; txt "Tests"; txt "A.cpp"], [txt "A.cpp"], [up; txt "Tests"; txt "B.cpp"]. eexists _, _, _.
  split; [by vm_compute|].
  split; [split; [repeat constructor; done|split; [by vm_compute|split; [by vm_compute|apply (bool_decide_unpack _); by vm_compute]]]|].
  split; [done|]. split; [by vm_compute|]. split; [by vm_compute|]. split; [by vm_compute|]. by split; vm_compute.
Qed.
Print Assumptions prune_files_forgotten_refuted.
