(** Properties of the prune files after repeated runs (C114). *)
From Coq Require Import Ascii String NArith.
From stdpp Require Import list sets.
From Verif.Base Require Import Outcome Compare.
From Verif.Text Require Import Model.
From Verif.Failure Require Import Model.
From Verif.Prune Require Import Model Spec Proofs Properties ModelRepeat SpecRepeat ProofsRepeat.
Local Open Scope res_scope.

(** C114: if the repetitions are pruned, or at least one of them is not of a selection, then precisely the tests which failed in a
    repetition are recorded as failing, whatever was recorded before. *)
Theorem C114_whole : forall repo active f l time, repo <> [] -> Forall (proper_attempt repo) l ->
  active = true \/ ~ Forall of_selection l ->
  exists f', coordinate repo active f [] l time = Ok f' /\ records (failures f') (fun p => exists a, a ∈ l /\ failed_in a p) /\
    passes f' = None /\ stamp f' = Some time.
Proof. exact coordinate_whole. Qed.
Print Assumptions C114_whole.

Lemma example_good p : p = test_a \/ p = test_b \/ p = test_c -> good_path example_repo p.
Proof.
  intros [->|[->| ->]]; (split; [|split; [by vm_compute|split; [by vm_compute|apply (bool_decide_unpack _); by vm_compute]]]);
    repeat constructor; try done.
Qed.

Example C114_whole_example :
  let l := [FinishedAll [test_b] 5; FinishedAll [test_c; test_b] 5; FinishedAll [] 5] in
  Forall (proper_attempt example_repo) l /\ ~ Forall of_selection l /\
  coordinate example_repo false (mk_files (Some (txt "Maths/A.cpp" ++ [nl])) None (Some 3)) [] l 5 =
    Ok (mk_files (Some (txt "Maths/B.cpp" ++ [nl] ++ txt "Text/C.cpp" ++ [nl])) None (Some 5)).
Proof.
  split; [|split; [intros H; by apply Forall_cons in H as [[] _]|by vm_compute]].
  repeat apply Forall_cons_2; try apply Forall_nil_2;
    (split; [apply (bool_decide_unpack _); by vm_compute|repeat apply Forall_cons_2; try apply Forall_nil_2; apply example_good; auto]).
Qed.

(** If all repetitions are of a selection, the others keep what was recorded before, and so does the time stamp. *)
Theorem C114_selected : forall repo h f l time, repo <> [] -> l <> [] -> Forall (proper repo) h -> history repo h = Ok f ->
  Forall (proper_attempt repo) l -> Forall of_selection l ->
  exists f', coordinate repo false f [] l time = Ok f' /\ stamp f' = stamp f /\
    records (failures f') (fun p => (exists a, a ∈ l /\ failed_in a p) \/
      (failing h p /\ (forall a, a ∈ l -> ~ failed_in a p) /\ exists a, a ∈ l /\ ~ executed_in a p)) /\
    records (passes f') (fun p => (forall a, a ∈ l -> ~ failed_in a p) /\ (passing h p \/ forall a, a ∈ l -> executed_in a p)).
Proof. exact coordinate_selected. Qed.
Print Assumptions C114_selected.

Example C114_selected_example :
  let l := [FinishedSome [test_b; test_c] [test_b]; FinishedSome [test_c; test_b] []] in
  Forall (proper example_repo) [All [test_c; test_a] 3] /\
  history example_repo [All [test_c; test_a] 3] = Ok (mk_files (Some (txt "Maths/A.cpp" ++ [nl] ++ txt "Text/C.cpp" ++ [nl])) None (Some 3)) /\
  Forall (proper_attempt example_repo) l /\ Forall of_selection l /\
  coordinate example_repo false (mk_files (Some (txt "Maths/A.cpp" ++ [nl] ++ txt "Text/C.cpp" ++ [nl])) None (Some 3)) [] l 5 =
    Ok (mk_files (Some (txt "Maths/A.cpp" ++ [nl] ++ txt "Maths/B.cpp" ++ [nl])) (Some (txt "Text/C.cpp" ++ [nl])) (Some 3)).
Proof.
  split; [|split; [by vm_compute|split; [|split; [by repeat constructor|by vm_compute]]]].
  - constructor; [|done]. split; [apply (bool_decide_unpack _); by vm_compute|].
    repeat apply Forall_cons_2; try apply Forall_nil_2; apply example_good; auto.
  - repeat apply Forall_cons_2; try apply Forall_nil_2;
    (split; [apply (bool_decide_unpack _); by vm_compute|]; split; [apply (bool_decide_unpack _); by vm_compute|];
     split; [set_solver|]; repeat apply Forall_cons_2; try apply Forall_nil_2; apply example_good; auto).
Qed.

(** Whichever repetitions crash, a test which failed in one that finished is recorded as failing. *)
Theorem C114_recorded : forall repo active h f l time, repo <> [] -> l <> [] -> Forall (proper repo) h -> history repo h = Ok f ->
  Forall (proper_attempt repo) l ->
  exists f' F, coordinate repo active f [] l time = Ok f' /\ read_tests (failures f') [] = Ok F /\
    forall a p, a ∈ l -> failed_in a p -> p ∈ F.
Proof. exact coordinate_recorded. Qed.
Print Assumptions C114_recorded.

Example C114_recorded_example :
  let l := [FinishedSome [test_b] [test_b]; Crashed] in
  Forall (proper_attempt example_repo) l /\
  coordinate example_repo false (mk_files None None None) [] l 5 = Ok (mk_files (Some (txt "Maths/B.cpp" ++ [nl])) None (Some 5)).
Proof.
  split; [|by vm_compute]. apply Forall_cons_2; [|by repeat constructor].
  split; [apply (bool_decide_unpack _); by vm_compute|]. split; [apply (bool_decide_unpack _); by vm_compute|].
  split; [set_solver|]. repeat apply Forall_cons_2; try apply Forall_nil_2; apply example_good; auto.
Qed.

(** If none crashes, it makes no difference whether the repetitions are processes of their own, *)
Theorem C114_same : forall repo active l f reps time, Forall finished l ->
  repeat_here repo active f reps l time = coordinate repo active f reps l time.
Proof. exact repeat_finished. Qed.
Print Assumptions C114_same.

Example C114_same_example :
  Forall finished [FinishedAll [test_b] 5; FinishedAll [] 5] /\
  repeat_here example_repo true (mk_files None None None) [] [FinishedAll [test_b] 5; FinishedAll [] 5] 5 =
    Ok (mk_files (Some (txt "Maths/B.cpp" ++ [nl])) None (Some 5)).
Proof. split; [by repeat constructor|by vm_compute]. Qed.

(** and after a crash in a common process the files of failures and passes are as before: only the time stamp may have changed. *)
Theorem C114_interrupted : forall repo active l l' f reps time, Forall finished l -> Forall (proper_attempt repo) l -> repo <> [] ->
  exists f', repeat_here repo active f reps (l ++ Crashed :: l') time = Ok f' /\ failures f' = failures f /\ passes f' = passes f /\
    (Forall of_selection l -> stamp f' = stamp f).
Proof. exact repeat_interrupted. Qed.
Print Assumptions C114_interrupted.

Example C114_interrupted_example :
  let l := [FinishedSome [test_b] [test_b]] in
  Forall finished l /\ Forall of_selection l /\ Forall (proper_attempt example_repo) l /\
  repeat_here example_repo false (mk_files None None (Some 3)) [] (l ++ [Crashed]) 5 = Ok (mk_files None None (Some 3)).
Proof.
  split; [by repeat constructor|]. split; [by repeat constructor|]. split; [|by vm_compute]. apply Forall_cons_2; [|done].
  split; [apply (bool_decide_unpack _); by vm_compute|]. split; [apply (bool_decide_unpack _); by vm_compute|].
  split; [set_solver|]. repeat apply Forall_cons_2; try apply Forall_nil_2; apply example_good; auto.
Qed.

(** But if one repetition of a selection crashes, a failing test which was not selected, and so not executed, is no longer recorded
    as failing, and the time stamp says that all tests have been run. *)
Theorem C114_crash_refuted : exists repo h f l time p f', Forall (proper repo) h /\ history repo h = Ok f /\
  Forall (proper_attempt repo) l /\ failing h p /\ (forall a, a ∈ l -> ~ executed_in a p /\ (of_selection a \/ a = Crashed)) /\
  coordinate repo false f [] l time = Ok f' /\ read_tests (failures f') [] = Ok [] /\ stamp f' = Some time /\ stamp f <> Some time.
Proof.
  exists example_repo, [All [test_a] 3]. eexists. exists [FinishedSome [test_b] []; Crashed], 5, test_a. eexists.
  split. { constructor; [|done]. split; [apply (bool_decide_unpack _); by vm_compute|].
    repeat apply Forall_cons_2; try apply Forall_nil_2; apply example_good; auto. }
  split; [by vm_compute|].
  split. { apply Forall_cons_2; [|by repeat constructor].
    split; [apply (bool_decide_unpack _); by vm_compute|]. split; [apply (bool_decide_unpack _); by vm_compute|].
    split; [set_solver|]. repeat apply Forall_cons_2; try apply Forall_nil_2; apply example_good; auto. }
  split; [cbn; set_solver|].
  split. { intros a [->|[->|Ha%elem_of_nil]%elem_of_cons]%elem_of_cons; [|by split; [intros []|right]|done].
    split; [|by left]. cbn. intros [E|Ha%elem_of_nil]%elem_of_cons; done. }
  split; [by vm_compute|]. split; [by vm_compute|]. by split.
Qed.
Print Assumptions C114_crash_refuted.

(** If all of them crash, nothing is recorded as failing, and the time stamp is set likewise. *)
Theorem C114_crashes_refuted : exists repo h f l time p f', Forall (proper repo) h /\ history repo h = Ok f /\ failing h p /\
  Forall (eq Crashed) l /\ l <> [] /\
  coordinate repo false f [] l time = Ok f' /\ read_tests (failures f') [] = Ok [] /\ stamp f' = Some time /\ stamp f <> Some time.
Proof.
  exists example_repo, [All [test_a] 3]. eexists. exists [Crashed; Crashed], 5, test_a. eexists.
  split. { constructor; [|done]. split; [apply (bool_decide_unpack _); by vm_compute|].
    repeat apply Forall_cons_2; try apply Forall_nil_2; apply example_good; auto. }
  split; [by vm_compute|]. split; [cbn; set_solver|]. split; [by repeat constructor|]. split; [done|].
  split; [by vm_compute|]. split; [by vm_compute|]. by split.
Qed.
Print Assumptions C114_crashes_refuted.

(** If a common process ends in its second repetition, a test which failed in the first is not recorded although the time stamp has
    been set. *)
Theorem C114_forgotten_refuted : exists repo h f l time p f', Forall (proper repo) h /\ history repo h = Ok f /\
  Forall (proper_attempt repo) l /\ (exists a, a ∈ l /\ failed_in a p) /\
  repeat_here repo false f [] l time = Ok f' /\ read_tests (failures f') [] = Ok [] /\ stamp f' = Some time /\ stamp f <> Some time.
Proof.
  exists example_repo, [All [] 3]. eexists. exists [FinishedAll [test_a] 5; Crashed], 5, test_a. eexists.
  split. { constructor; [|done]. split; [apply (bool_decide_unpack _); by vm_compute|]. constructor. }
  split; [by vm_compute|].
  split. { apply Forall_cons_2; [|by repeat constructor]. split; [apply (bool_decide_unpack _); by vm_compute|].
    repeat apply Forall_cons_2; try apply Forall_nil_2; apply example_good; auto. }
  split. { exists (FinishedAll [test_a] 5). split; [by left|cbn; set_solver]. }
  split; [by vm_compute|]. split; [by vm_compute|]. by split.
Qed.
Print Assumptions C114_forgotten_refuted.
