(** Properties of the headers of nascent tests (C115). *)
From Coq Require Import Ascii String.
From stdpp Require Import list.
From Verif.Base Require Import Outcome ListLemmas.
From Verif.Text Require Import Model.
From Verif.Select Require Import Model Spec.
From Verif.Creator Require Import ModelHeader SpecHeader ProofsHeader.
Local Open Scope res_scope.
Local Notation "⌜ s ⌝" := (list_ascii_of_string s%string).

(** C115: the header found is the first file the path of which ends as given, or else with another extension of headers, *)
Theorem C115_found : forall es d n s x e, name_parts n s x -> Forall (fun e => e <> []) es -> e <> [] ->
  build_source_path (Folder es) (d ++ [n]) = Ok e <-> first_found es (spellings d s x) e.
Proof. exact build_found. Qed.
Print Assumptions C115_found.

Definition srcs : path := [⌜"home"⌝; ⌜"Source"⌝].
Definition es_example : list path := map absolute
  [srcs ++ [⌜"proj"⌝]; srcs ++ [⌜"proj"⌝; ⌜"Maths"⌝]; srcs ++ [⌜"proj"⌝; ⌜"Maths"⌝; ⌜"Foo.h"⌝]; srcs ++ [⌜"proj"⌝; ⌜"Foo.h"⌝]].

Example C115_found_example : name_parts ⌜"Foo.hpp"⌝ ⌜"Foo"⌝ ⌜".hpp"⌝ /\ Forall (fun e => e <> []) es_example /\
  build_source_path (Folder es_example) [⌜"Foo.hpp"⌝] = Ok (absolute (srcs ++ [⌜"proj"⌝; ⌜"Maths"⌝; ⌜"Foo.h"⌝])).
Proof.
  split; [|split; [by repeat constructor|by vm_compute]]. apply (parts_dot ⌜"Foo"⌝ ⌜"hpp"⌝); [done|]. apply (bool_decide_unpack _). by vm_compute.
Qed.

(** and nothing is found only if there is none of these. *)
Theorem C115_missing : forall es d n s x, name_parts n s x -> Forall (fun e => e <> []) es ->
  build_source_path (Folder es) (d ++ [n]) = Ok [] <-> Forall (absent_in es) (spellings d s x).
Proof. exact build_missing. Qed.
Print Assumptions C115_missing.

Example C115_missing_example : build_source_path (Folder es_example) [⌜"Text"⌝; ⌜"Foo.hpp"⌝] = Ok [] /\
  spellings [⌜"Text"⌝] ⌜"Foo"⌝ ⌜".hpp"⌝ = [[⌜"Text"⌝; ⌜"Foo.hpp"⌝]; [⌜"Text"⌝; ⌜"Foo.h"⌝]; [⌜"Text"⌝; ⌜"Foo.hxx"⌝]].
Proof. by vm_compute. Qed.

(** Then the exception says which files have been looked for, unless a header is to be generated. *)
Theorem C115_error : forall es root src tests d n s x, name_parts n s x -> named (d ++ [n]) -> Forall (fun e => e <> []) es -> src <> tests ->
  Forall (absent_in es) (spellings d s x) ->
  locate (Folder es) (absolute (root ++ [src])) (absolute (root ++ [tests])) None (d ++ [n]) =
    Ok (inr (⌜"Unable to locate file "⌝ ++ slashed (d ++ [n]) ++ concat (map (fun c => ⌜" or "⌝ ++ slashed c) (tail (spellings d s x))) ++
             ⌜" in the source repository
../"⌝ ++ src)).
Proof. exact locate_error. Qed.
Print Assumptions C115_error.

Example C115_error_example :
  locate (Folder es_example) (absolute srcs) (absolute [⌜"home"⌝; ⌜"Tests"⌝]) None [⌜"Text"⌝; ⌜"Foo.h"⌝] =
    Ok (inr ⌜"Unable to locate file Text/Foo.h or Text/Foo.hpp or Text/Foo.hxx in the source repository
../Source"⌝).
Proof. by vm_compute. Qed.

Theorem C115_error_absolute : forall es root src tests d n s x, name_parts n s x -> Forall (fun e => e <> []) es -> src <> tests ->
  Forall (absent_in es) (map absolute (spellings d s x)) ->
  locate (Folder es) (absolute (root ++ [src])) (absolute (root ++ [tests])) None (absolute (d ++ [n])) =
    Ok (inr (⌜"Unable to locate file /"⌝ ++ slashed (d ++ [n]) ++ concat (map (fun c => ⌜" or /"⌝ ++ slashed c) (tail (spellings d s x))) ++
             ⌜" in the source repository
../"⌝ ++ src)).
Proof. exact locate_error_absolute. Qed.
Print Assumptions C115_error_absolute.

Example C115_error_absolute_example :
  locate (Folder es_example) (absolute srcs) (absolute [⌜"home"⌝; ⌜"Tests"⌝]) None (absolute [⌜"Text"⌝; ⌜"Foo"⌝]) =
    Ok (inr ⌜"Unable to locate file /Text/Foo or /Text/Foo.hpp or /Text/Foo.h or /Text/Foo.hxx in the source repository
../Source"⌝).
Proof. by vm_compute. Qed.

(** A header which is found is taken as it is. *)
Theorem C115_located : forall es repo tests absent d n s x e, name_parts n s x -> Forall (fun e => e <> []) es ->
  first_found es (spellings d s x) e -> e <> [] -> locate (Folder es) repo tests absent (d ++ [n]) = Ok (inl e).
Proof. exact locate_found. Qed.
Print Assumptions C115_located.

Example C115_located_example :
  locate (Folder es_example) (absolute srcs) (absolute [⌜"home"⌝; ⌜"Tests"⌝]) None [⌜"proj"⌝; ⌜"Foo.hxx"⌝] =
    Ok (inl (absolute (srcs ++ [⌜"proj"⌝; ⌜"Foo.h"⌝]))).
Proof. by vm_compute. Qed.

(** A header which is generated is put where it is wanted in the project, if the path does not start like a folder around it, *)
Theorem C115_generated : forall es es' repo tests src dir d n s x w l, name_parts n s x -> Forall (fun e => e <> []) es ->
  Forall (absent_in es) (spellings d s x) -> named (dir ++ d ++ [n]) -> dir ++ d ++ [n] = w :: l -> w ∉ src ->
  locate (Folder es) repo tests (Some (absent_header (Folder es') (absolute src) dir)) (d ++ [n]) = Ok (inl (absolute (src ++ dir ++ d ++ [n]))).
Proof. exact locate_generated. Qed.
Print Assumptions C115_generated.

Example C115_generated_example :
  locate (Folder es_example) (absolute srcs) (absolute [⌜"home"⌝; ⌜"Tests"⌝])
    (Some (absent_header (Folder []) (absolute (srcs ++ [⌜"proj"⌝])) [⌜"Utilities"⌝])) [⌜"Text"⌝; ⌜"Bar.hpp"⌝] =
    Ok (inl (absolute (srcs ++ [⌜"proj"⌝; ⌜"Utilities"⌝; ⌜"Text"⌝; ⌜"Bar.hpp"⌝]))).
Proof. by vm_compute. Qed.

(** and it is found the next time, or one called likewise. *)
Theorem C115_again : forall es1 es2 repo w l d n s x, name_parts n s x -> named (w :: l) -> w :: l = d ++ [n] ->
  Forall (fun e => e <> []) (es1 ++ es2) ->
  exists e, build_source_path (Folder (es1 ++ absolute (repo ++ w :: l) :: es2)) (d ++ [n]) = Ok e /\ e <> [] /\ (w :: l) `suffix_of` e.
Proof. exact absent_found. Qed.
Print Assumptions C115_again.

Example C115_again_example :
  build_source_path (Folder (es_example ++ [absolute (srcs ++ [⌜"proj"⌝; ⌜"Bar.hpp"⌝])])) [⌜"Bar.hpp"⌝] =
    Ok (absolute (srcs ++ [⌜"proj"⌝; ⌜"Bar.hpp"⌝])).
Proof. by vm_compute. Qed.

(** The test of a header of the project is put in the folder of tests which corresponds to that of the header, and includes it from
    the repository. *)
Theorem C115_inside : forall tests repo name r f,
  host_dir (absolute tests) (absolute (repo ++ [name])) (absolute (repo ++ name :: r ++ [f])) = absolute (tests ++ r) /\
  header_path (absolute repo) (absolute (repo ++ name :: r ++ [f])) = name :: r ++ [f].
Proof. exact host_inside. Qed.
Print Assumptions C115_inside.

Example C115_inside_example :
  host_dir (absolute [⌜"home"⌝; ⌜"Tests"⌝]) (absolute (srcs ++ [⌜"proj"⌝])) (absolute (srcs ++ [⌜"proj"⌝; ⌜"Maths"⌝; ⌜"Foo.h"⌝])) =
    absolute [⌜"home"⌝; ⌜"Tests"⌝; ⌜"Maths"⌝].
Proof. by vm_compute. Qed.

(** That of a header elsewhere in the repository is put next to the folder of tests, not into it. *)
Theorem C115_outside : forall tests t repo name r f, named (tests ++ [t]) -> named (r ++ [f]) -> head (r ++ [f]) <> Some name ->
  normal (host_dir (absolute (tests ++ [t])) (absolute (repo ++ [name])) (absolute (repo ++ r ++ [f]))) = absolute (tests ++ r) /\
  header_path (absolute repo) (absolute (repo ++ r ++ [f])) = r ++ [f].
Proof. exact host_outside. Qed.
Print Assumptions C115_outside.

Example C115_outside_example :
  normal (host_dir (absolute [⌜"home"⌝; ⌜"Tests"⌝]) (absolute (srcs ++ [⌜"proj"⌝])) (absolute (srcs ++ [⌜"other"⌝; ⌜"Foo.h"⌝]))) =
    absolute [⌜"home"⌝; ⌜"other"⌝].
Proof. by vm_compute. Qed.

(** So it is not true that tests are put into the folder of tests, *)
Theorem C115_outside_refuted : exists tests repo name e h es, build_source_path (Folder es) h = Ok e /\ absolute repo `prefix_of` e /\
  ~ absolute tests `prefix_of` normal (host_dir (absolute tests) (absolute (repo ++ [name])) e).
Proof.
  exists [⌜"home"⌝; ⌜"Tests"⌝], srcs, ⌜"proj"⌝, (absolute (srcs ++ [⌜"other"⌝; ⌜"Foo.h"⌝])), [⌜"Foo.h"⌝], [absolute (srcs ++ [⌜"other"⌝; ⌜"Foo.h"⌝])].
  split; [by vm_compute|]. split; [by exists [⌜"other"⌝; ⌜"Foo.h"⌝]|]. apply (bool_decide_unpack _). by vm_compute.
Qed.
Print Assumptions C115_outside_refuted.

(** nor that it depends on the files only which header is found: it may be their order as well, *)
Theorem C115_order_refuted : exists es es' h e e', es ≡ₚ es' /\ build_source_path (Folder es) h = Ok e /\
  build_source_path (Folder es') h = Ok e' /\ e <> e' /\ e <> [] /\ e' <> [].
Proof.
  exists [absolute [⌜"A"⌝; ⌜"Foo.h"⌝]; absolute [⌜"B"⌝; ⌜"Foo.h"⌝]], [absolute [⌜"B"⌝; ⌜"Foo.h"⌝]; absolute [⌜"A"⌝; ⌜"Foo.h"⌝]], [⌜"Foo.h"⌝].
  eexists _, _. split; [apply Permutation_swap|]. split; [by vm_compute|]. split; [by vm_compute|]. done.
Qed.
Print Assumptions C115_order_refuted.

(** nor that it is a file: without extension, it may be a folder although there is a header, *)
Theorem C115_folder_refuted : exists es h e f, build_source_path (Folder es) [h] = Ok e /\ e ++ [f] ∈ es /\
  exists d, d ++ [h ++ ⌜".hpp"⌝] ∈ es.
Proof.
  exists [absolute [⌜"Maths"⌝]; absolute [⌜"Maths"⌝; ⌜"Foo.h"⌝]; absolute [⌜"Maths.hpp"⌝]], ⌜"Maths"⌝. eexists. exists ⌜"Foo.h"⌝.
  split; [by vm_compute|]. split; [right; left|]. exists [⌜"/"⌝]. right. right. by left.
Qed.
Print Assumptions C115_folder_refuted.

(** nor that a header which has been generated is found afterwards. *)
Theorem C115_again_refuted : exists es project h e, build_source_path (Folder es) h = Ok [] /\ named h /\
  absent_header (Folder []) (absolute project) [] h = Ok e /\ build_source_path (Folder (es ++ [e])) h = Ok [].
Proof.
  exists [absolute (srcs ++ [⌜"proj"⌝])], (srcs ++ [⌜"proj"⌝]), [⌜"Source"⌝; ⌜"Foo.hpp"⌝]. eexists.
  split; [by vm_compute|]. split; [apply (bool_decide_unpack _); by vm_compute|]. split; by vm_compute.
Qed.
Print Assumptions C115_again_refuted.
