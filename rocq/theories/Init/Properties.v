(** C100: projects which are created. *)
From Coq Require Import Ascii String.
From stdpp Require Import list gmap strings.
From Verif.Base Require Import Outcome ListLemmas.
From Verif.Text Require Import Model.
From Verif.Materials Require Import Model Spec.
From Verif.Creator Require Import Model.
From Verif.Init Require Import Model ModelTemplate Spec ProofsCheck ProofsAll ProofsWitness.
Local Notation "⌜ s ⌝" := (list_ascii_of_string s%string).

(** A project is accepted if and only if it is acceptable. *)
Theorem C100_accepted : forall d x, check d x = Ok tt <-> acceptable d x.
Proof. exact check_accepts. Qed.
Print Assumptions C100_accepted.

(** Otherwise there is an error, and nothing more is done; what was created before stays. *)
Theorem C100_rejected_partial : forall parent year d xs x ys d', init_projects parent year d xs = Created d' ->
  Forall (fun c => code c <= 127)%nat (List.last (project_root x) []) -> ~ acceptable d' x ->
  init_projects parent year d (xs ++ x :: ys) = Rejected RuntimeError d'.
Proof. exact (fun parent year d xs x ys d' => rejected_from parent year (template parent d) xs d x ys d'). Qed.
Print Assumptions C100_rejected_partial.

(** Every project comes to be as is expected, and nothing changes elsewhere, apart from folders on the way. *)
Theorem C100_created_partial : forall parent year new d xs, in_folders d ->
  Forall (fun x => acceptable d x /\ disjoint_paths parent (project_root x) /\ way_free d (project_root x) /\ complete parent d x /\ changed parent d x year (new x)) xs ->
  ForallOrdPairs (fun x y => disjoint_paths (project_root x) (project_root y)) xs ->
  exists d', init_projects parent year d xs = Created d' /\
    (forall x, x ∈ xs -> forall r, d' !! (project_root x ++ r) = expected parent d x (new x) r) /\
    (forall q, (forall x, x ∈ xs -> ~ project_root x `prefix_of` q) ->
       d' !! q = d !! q \/ (d !! q = None /\ d' !! q = Some Folder /\ exists x, x ∈ xs /\ q `prefix_of` project_root x)).
Proof. exact all_created. Qed.
Print Assumptions C100_created_partial.

Example C100_created_holds : exists d', init_projects here year start [foos; bars] = Created d' /\
  (forall x, x ∈ [foos; bars] -> forall r, d' !! (project_root x ++ r) = expected here start x (new_texts x) r) /\
  (forall q, (forall x, x ∈ [foos; bars] -> ~ project_root x `prefix_of` q) ->
     d' !! q = start !! q \/ (start !! q = None /\ d' !! q = Some Folder /\ exists x, x ∈ [foos; bars] /\ q `prefix_of` project_root x)).
Proof.
  apply C100_created_partial; [exact start_in_folders| |].
  - apply Forall_cons_2; [exact foos_ready|]. apply Forall_cons_2; [exact bars_ready|]. apply Forall_nil_2.
  - apply FOP_cons; [apply List.Forall_cons; [exact apart|apply List.Forall_nil]|]. apply FOP_cons; [apply List.Forall_nil|apply FOP_nil].
Qed.
Example C100_created_has : as_wanted (init_projects here year start [foos; bars]) = true.
Proof. exact made_foos. Qed.

(** The new project is built in the same way as the one which is running. *)
Theorem C100_build : forall root base e c, ⌜"/"⌝ ∉ base ->
  new_build root ((⌜"/"⌝ :: base) ++ e) ((⌜"/"⌝ :: base) ++ [c]) true = Ok (root ++ [⌜"build"⌝; ⌜"TestAll"⌝] ++ e, root ++ [⌜"build"⌝; ⌜"TestAll"⌝; c]).
Proof. exact new_build_spec. Qed.
Print Assumptions C100_build.

(** It is not the case that nothing is created if one of the projects is not acceptable, *)
Theorem C100_all_or_none_refuted : exists parent year d xs d', Exists (fun x => ~ acceptable d x) xs /\ init_projects parent year d xs = Rejected RuntimeError d' /\ d' <> d.
Proof. exact (ex_intro _ here (ex_intro _ year (ex_intro _ start some_stay))). Qed.
Print Assumptions C100_all_or_none_refuted.

(** that a project which is accepted can be created, *)
Theorem C100_within_refuted : exists parent year d x, acceptable d x /\ init_projects parent year d [x] = Broken UB.
Proof. exact (ex_intro _ here (ex_intro _ year (ex_intro _ start into_itself_again))). Qed.
Print Assumptions C100_within_refuted.

(** that every name which is not acceptable is rejected, *)
Theorem C100_rejected_refuted : exists parent year d x, init_projects parent year d [x] = Broken UB /\
  exists dir name, project_root x = ⌜"/"⌝ :: dir ++ [name] /\ ~ Forall name_char name.
Proof.
  exists here, year, start, accented. split; [exact accented_undefined|]. exists [⌜"home"⌝], [ascii_of_nat 195; ascii_of_nat 169]. split; [reflexivity|].
  intros H. apply some_other_false in H. discriminate H.
Qed.
Print Assumptions C100_rejected_refuted.

(** and that the name of a project which is accepted can be that of a namespace. *)
Theorem C100_namespace_refuted : exists parent year d x d', acceptable d x /\ init_projects parent year d [x] = Created d' /\
  exists c pos, d' !! (project_root x ++ [⌜"TestAll"⌝; ⌜"TestAllMain.cpp"⌝]) = Some (File c) /\ find_first ⌜"namespace my-app::testing"⌝ c = Some pos.
Proof. exact (ex_intro _ here (ex_intro _ year (ex_intro _ start (ex_intro _ dashed dashed_main)))). Qed.
Print Assumptions C100_namespace_refuted.
