(** Properties of the creation of tests which may fail (C116). *)
From Coq Require Import Ascii String.
From stdpp Require Import list.
From Verif.Base Require Import Outcome ListLemmas.
From Verif.Text Require Import Model Spec.
From Verif.Edit Require Import Model ModelSuite.
From Verif.Creator Require Import SpecHeader ModelCreate SpecCreate ProofsCreateStop PropertiesCreate.
Local Open Scope res_scope.
Local Notation "⌜ s ⌝" := (list_ascii_of_string s%string).

(** Whether or not the creation is completed, there are as many main files as before, and each is as before or has got the test; what
    has been put into the includes and into the lists of sources are files which have been asked for. *)
Theorem C116_stopped : forall tests host camel templates transform p es suite ind cs p',
  end_of (create tests host camel templates transform p es suite ind cs) = Some p' ->
  (exists hs, Forall (.∈ es) hs /\ edits (fun l e => add_include l (slashed (host ++ [camel ++ e]))) (includes p) hs = Ok (includes p')) /\
  Forall2 (fun m m' => (fst m' = fst m \/ add_to_suite (fst m) suite ind cs = Ok (fst m')) /\
    exists ss, Forall (.∈ es) ss /\ edits (fun l e => add_to_cmake l ⌜"target_sources("⌝ ⌜")
"⌝ (⌜"${TestDir}/"⌝ ++ slashed (host ++ [camel ++ e]))) (snd m) ss = Ok (snd m')) (mains p) (mains p').
Proof. exact create_came. Qed.
Print Assumptions C116_stopped.

(** The second main file cannot be amended. *)
Example C116_stopped_example : exists p p', ex_create p [⌜"C"⌝] = Stopped p' /\ length (mains p) = 3 /\ length (mains p') = 3 /\
  fst <$> (mains p' !! 0) <> fst <$> (mains p !! 0) /\ mains p' !! 2 <> mains p !! 2 /\ fst <$> (mains p' !! 2) = fst <$> (mains p !! 2).
Proof.
  exists (with_mains ex_project [(ex_main, ex_cmake); ([], ex_cmake); (ex_main, ex_cmake)]). eexists. split; [vm_compute; reflexivity|]. by vm_compute.
Qed.
