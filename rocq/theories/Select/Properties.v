(** C98: the selection of tests by files. *)
From Coq Require Import Ascii String.
From stdpp Require Import list relations.
From Verif.Base Require Import Outcome.
From Verif.Text Require Import Model.
From Verif.Select Require Import Model Spec Proofs.
Local Notation "⌜ s ⌝" := (list_ascii_of_string s%string).

(** What is found in a folder is the first entry the path of which ends as wanted. *)
Theorem C98_found es s e : s <> [] -> Forall (fun e => e <> []) es -> e <> [] ->
  find_in_tree (Folder es) s = Ok e <-> first_ending es s e.
Proof. exact (find_in_tree_first es s e). Qed.
Print Assumptions C98_found.

Theorem C98_not_found es s : s <> [] -> Forall (fun e => e <> []) es ->
  find_in_tree (Folder es) s = Ok [] <-> Forall (fun e => ~ s `suffix_of` e) es.
Proof. exact (find_in_tree_none es s). Qed.
Print Assumptions C98_not_found.

(** A path which starts with a name other than those of the folders around: selected are the test with this path, seen from the
    repository, and the first file the path of which ends like this.  It does not matter how the compiler gives the source. *)
Theorem C98_named es repo n w s f r : named repo -> within repo es -> named (w :: s) -> w ∉ repo -> r <> [] -> named r -> compiled repo r f ->
  exists b, selects (Folder es) (absolute repo) (ups n ++ w :: s) f = Ok b /\
    (b = true <-> w :: s = r \/ (n = 0 /\ first_ending es (w :: s) (absolute repo ++ r))).
Proof. exact (selects_named es repo n w s f r). Qed.
Print Assumptions C98_named.

(** A path which leads through the repository *)
Theorem C98_through es repo n q r' f r : named repo -> within repo es -> last_part q repo -> r' <> [] -> named r' -> r <> [] -> named r -> compiled repo r f ->
  exists b, selects (Folder es) (absolute repo) (ups n ++ q ++ r') f = Ok b /\
    (b = true <-> r' = r \/ (n = 0 /\ first_ending es (q ++ r') (absolute repo ++ r))).
Proof. exact (selects_through es repo n q r' f r). Qed.
Print Assumptions C98_through.

(** An absolute path: just this file *)
Theorem C98_absolute es repo p f r : named repo -> within repo es -> named p -> r <> [] -> named r -> compiled repo r f ->
  exists b, selects (Folder es) (absolute repo) (absolute p) f = Ok b /\ (b = true <-> p = repo ++ r).
Proof. exact (selects_absolute es repo p f r). Qed.
Print Assumptions C98_absolute.

(** If no two files end like this, then the tests selected are those which do. *)
Theorem C98_only_partial es repo w s f r : named repo -> within repo es -> named (w :: s) -> w ∉ repo -> r <> [] -> named r -> compiled repo r f ->
  (forall e e', e ∈ es -> e' ∈ es -> (w :: s) `suffix_of` e -> (w :: s) `suffix_of` e' -> e = e') -> absolute repo ++ r ∈ es ->
  exists b, selects (Folder es) (absolute repo) (w :: s) f = Ok b /\ (b = true <-> (w :: s) `suffix_of` r).
Proof. exact (selects_only es repo w s f r). Qed.
Print Assumptions C98_only_partial.

(** What pruning finds, relative to the repository, is selected, unless it starts with the name of a folder around. *)
Theorem C98_pruned_partial es repo f r w s : named repo -> within repo es -> r = w :: s -> named r -> w ∉ repo -> compiled repo r f ->
  selects (Folder es) (absolute repo) r f = Ok true.
Proof. exact (selects_pruned es repo f r w s). Qed.
Print Assumptions C98_pruned_partial.

(** Paths may be written with references to folders and their parents. *)
Theorem C98_written t repo sel sel' f f' : rtc shorter sel sel' -> sel' <> [] -> rtc shorter f f' -> f' <> [] ->
  selects t repo sel f = selects t repo sel' f'.
Proof. exact (selects_shorter t repo sel sel' f f'). Qed.
Print Assumptions C98_written.

Lemma named_check p : forallb (fun x => bool_decide (x ∉ [⌜".."⌝; ⌜"."⌝; ⌜"/"⌝; []])) p = true -> named p.
Proof. intros H. rewrite forallb_forall in H. apply Forall_forall. intros x Hx. apply elem_of_list_In, H in Hx. by apply bool_decide_eq_true in Hx. Qed.

Definition ex_repo : path := [⌜"p"⌝; ⌜"Tests"⌝].
Definition ex_entries : list path :=
  [absolute ex_repo ++ [⌜"A"⌝]; absolute ex_repo ++ [⌜"A"⌝; ⌜"Foo.cpp"⌝]; absolute ex_repo ++ [⌜"B"⌝]; absolute ex_repo ++ [⌜"B"⌝; ⌜"Bar.cpp"⌝]].
Example C98_example : named ex_repo /\ within ex_repo ex_entries /\ last_part [⌜"Tests"⌝] ex_repo /\
  compiled ex_repo [⌜"A"⌝; ⌜"Foo.cpp"⌝] [⌜".."⌝; ⌜".."⌝; ⌜"Tests"⌝; ⌜"A"⌝; ⌜"Foo.cpp"⌝] /\
  selects (Folder ex_entries) (absolute ex_repo) [⌜"Foo.cpp"⌝] [⌜".."⌝; ⌜".."⌝; ⌜"Tests"⌝; ⌜"A"⌝; ⌜"Foo.cpp"⌝] = Ok true /\
  selects (Folder ex_entries) (absolute ex_repo) [⌜"Tests"⌝; ⌜"A"⌝; ⌜"Foo.cpp"⌝] (absolute ex_repo ++ [⌜"A"⌝; ⌜"Foo.cpp"⌝]) = Ok true /\
  selects (Folder ex_entries) (absolute ex_repo) [⌜"B"⌝; ⌜"Foo.cpp"⌝] (absolute ex_repo ++ [⌜"A"⌝; ⌜"Foo.cpp"⌝]) = Ok false.
Proof.
  assert (last_part [⌜"Tests"⌝] ex_repo) as Hl by (exists [⌜"p"⌝], ⌜"Tests"⌝, []; split; [done|]; split; [done|by apply not_elem_of_nil]).
  split; [by apply named_check|]. split.
  { unfold within, ex_entries. rewrite !Forall_cons. repeat split; [..|done]; (eexists; split; [|split; [|reflexivity]]; [done|by apply named_check]). }
  split; [done|]. split; [apply (compiled_relative ex_repo _ 2 [⌜"Tests"⌝]); done|]. split; [by vm_compute|]. split; by vm_compute.
Qed.

Example C98_written_example : rtc shorter [⌜"."⌝; ⌜"B"⌝; ⌜".."⌝; ⌜"A"⌝; ⌜"Foo.cpp"⌝] [⌜"A"⌝; ⌜"Foo.cpp"⌝].
Proof.
  eapply rtc_l; [apply (shorter_here [])|]. eapply rtc_l; [|apply rtc_refl]. apply (shorter_up [] ⌜"B"⌝ [⌜"A"⌝; ⌜"Foo.cpp"⌝]). by apply named_check.
Qed.

(** C98 is false for files of the same name in different folders: which one is selected depends on the order of the folders;
    the other is not. *)
Theorem C98_same_name_refuted : exists repo es es' r r' s, es ≡ₚ es' /\ absolute repo ++ r ∈ es /\ absolute repo ++ r' ∈ es /\
  s `suffix_of` r /\ s `suffix_of` r' /\
  selects (Folder es) (absolute repo) s (absolute repo ++ r) = Ok true /\ selects (Folder es) (absolute repo) s (absolute repo ++ r') = Ok false /\
  selects (Folder es') (absolute repo) s (absolute repo ++ r) = Ok false /\ selects (Folder es') (absolute repo) s (absolute repo ++ r') = Ok true.
Proof.
  exists ex_repo, [absolute ex_repo ++ [⌜"A"⌝; ⌜"Foo.cpp"⌝]; absolute ex_repo ++ [⌜"B"⌝; ⌜"Foo.cpp"⌝]],
    [absolute ex_repo ++ [⌜"B"⌝; ⌜"Foo.cpp"⌝]; absolute ex_repo ++ [⌜"A"⌝; ⌜"Foo.cpp"⌝]], [⌜"A"⌝; ⌜"Foo.cpp"⌝], [⌜"B"⌝; ⌜"Foo.cpp"⌝], [⌜"Foo.cpp"⌝].
  split; [apply perm_swap|]. split; [by left|]. split; [right; by left|]. split; [by exists [⌜"A"⌝]|]. split; [by exists [⌜"B"⌝]|].
  repeat split; by vm_compute.
Qed.
Print Assumptions C98_same_name_refuted.

(** C98 is false for files around the repository: a test of this name in the repository is selected instead. *)
Theorem C98_outside_refuted : exists repo es s r, ~ s `suffix_of` (absolute repo ++ r) /\
  selects (Folder es) (absolute repo) s (absolute repo ++ r) = Ok true.
Proof.
  exists ex_repo, [absolute ex_repo ++ [⌜"Foo.cpp"⌝]], [⌜"p"⌝; ⌜"Foo.cpp"⌝], [⌜"Foo.cpp"⌝]. split; [|by vm_compute].
  intros H%ends_suffix. by vm_compute in H.
Qed.
Print Assumptions C98_outside_refuted.

(** C98 is false for a folder of the repository which is called like a folder around: pruning finds a test to be run, which is not
    selected; another one is. *)
Theorem C98_pruned_refuted : exists repo es r r', r <> r' /\ absolute repo ++ r ∈ es /\
  selects (Folder es) (absolute repo) r (absolute repo ++ r) = Ok false /\ selects (Folder es) (absolute repo) r (absolute repo ++ r') = Ok true.
Proof.
  exists ex_repo, [absolute ex_repo ++ [⌜"Foo.cpp"⌝]; absolute ex_repo ++ [⌜"Tests"⌝; ⌜"Foo.cpp"⌝]], [⌜"Tests"⌝; ⌜"Foo.cpp"⌝], [⌜"Foo.cpp"⌝].
  split; [done|]. split; [right; by left|]. split; by vm_compute.
Qed.
Print Assumptions C98_pruned_refuted.
