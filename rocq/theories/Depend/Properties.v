(** C42: the dependency analysis. *)
From Coq Require Import Ascii String.
From stdpp Require Import list relations.
From Verif.Base Require Import Outcome.
From Verif.Text Require Import Model.
From Verif.Prune Require Import Model Proofs.
From Verif.Depend Require Import Model Spec Proofs ProofsTop ProofsLayout ProofsWitness.
Local Notation "⌜ s ⌝" := (list_ascii_of_string s%string).

(** The nodes are the source files and headers found; if one of them is not older than the executable then this is reported. *)
Theorem C42_nodes : forall w prune ns n, make_nodes w prune = Ok ns ->
  n ∈ ns <-> file n ∈ listing w /\ is_code (file n) = true /\ n = Info (file n) (written w (file n)) (prune <? written w (file n))%N.
Proof. exact nodes_spec. Qed.
Print Assumptions C42_nodes.

Theorem C42_executable_up_to_date : forall w prune,
  (exists ns, make_nodes w prune = Ok ns) <->
  forall e f, executable w = Some e -> f ∈ listing w -> is_cpp f = true \/ is_header f = true -> (written w f < e)%N.
Proof. exact make_nodes_iff. Qed.
Print Assumptions C42_executable_up_to_date.

Theorem C42_executable_out_of_date : forall w cutoff prune e f, stamp w = Some prune -> executable w = Some e -> f ∈ listing w ->
  is_cpp f = true \/ is_header f = true -> (e <= written w f)%N -> tests_to_run w cutoff = Throw RuntimeError.
Proof. exact tests_to_run_throws. Qed.
Print Assumptions C42_executable_out_of_date.

(** Without a time stamp there is no selection. *)
Theorem C42_first_run : forall w cutoff, stamp w = None -> tests_to_run w cutoff = Ok None.
Proof. exact tests_to_run_first. Qed.
Print Assumptions C42_first_run.

(** After the traversal a node has the time of the last change to something on which it depends, if it is not above a cycle;
    otherwise of a change to something on which it depends. *)
Theorem C42_times_partial : forall w cutoff prune ns, make_nodes w prune = Ok ns -> paired w cutoff ns ->
  exists ns', analyse w cutoff prune = Ok ns' /\ file <$> ns' = file <$> ns
    /\ (forall n, n ∈ ns' -> stale n = (prune <? time n)%N)
    /\ (forall u n, ns' !! u = Some n -> exists v n0, rtc (depends w cutoff ns) u v /\ ns !! v = Some n0 /\ time n = time n0)
    /\ (forall u n v n0, ns' !! u = Some n -> no_cycle w cutoff ns u -> rtc (depends w cutoff ns) u v -> ns !! v = Some n0 ->
          (time n0 <= time n)%N).
Proof. exact analyse_ok. Qed.
Print Assumptions C42_times_partial.

(** The tests which are run are the right ones, except that those above a cycle may be missing. *)
Theorem C42_selection_partial : forall w cutoff prune ns passing failing,
  stamp w = Some prune -> NoDup (listing w) -> make_nodes w prune = Ok ns -> paired w cutoff ns ->
  read_tests (snd <$> passes w) [] = Ok passing -> psorted passing ->
  read_tests (failures w) [] = Ok failing -> psorted failing ->
  exists l, tests_to_run w cutoff = Ok (Some l) /\ psorted l
    /\ (forall u n rel t, ns !! u = Some n -> is_cpp (file n) = true -> file n = tests w ++ rel -> rel <> [] ->
          no_cycle w cutoff ns u -> last_change w cutoff ns u t -> rel ∈ l <-> selected w prune passing failing rel t)
    /\ (forall rel, rel ∈ l -> rel ∈ failing \/
          exists u n v m, ns !! u = Some n /\ is_cpp (file n) = true /\ file n = tests w ++ rel /\ rel <> []
            /\ rtc (depends w cutoff ns) u v /\ ns !! v = Some m /\ selected w prune passing failing rel (time m)).
Proof. exact tests_to_run_ok. Qed.
Print Assumptions C42_selection_partial.

(** Also if the prune files are not in order: all failing tests are run; of those which are not run nothing has changed since the
    last run of all tests, or since the passing tests were written. *)
Theorem C42_left_out_partial : forall w cutoff prune ns passing failing,
  stamp w = Some prune -> NoDup (listing w) -> make_nodes w prune = Ok ns -> paired w cutoff ns ->
  read_tests (snd <$> passes w) [] = Ok passing -> read_tests (failures w) [] = Ok failing ->
  exists l, tests_to_run w cutoff = Ok (Some l)
    /\ (forall rel, rel ∈ failing -> rel ∈ l)
    /\ (forall u n rel, ns !! u = Some n -> is_cpp (file n) = true -> file n = tests w ++ rel -> rel <> [] ->
          no_cycle w cutoff ns u -> rel ∉ l ->
          exists t, (t = prune \/ exists s, passes w = Some (t, s))
            /\ (forall v m, rtc (depends w cutoff ns) u v -> ns !! v = Some m -> (time m <= t)%N)
            /\ Forall (fun x => (x <= t)%N) (inside w rel)).
Proof. exact tests_to_run_left_out. Qed.
Print Assumptions C42_left_out_partial.

(** The condition on the order of the files follows from one on their names. *)
Theorem C42_layout : forall w cutoff prune ns,
  make_nodes w prune = Ok ns -> NoDup (listing w) -> layout w cutoff ns -> paired w cutoff ns.
Proof. exact layout_paired. Qed.
Print Assumptions C42_layout.

Example C42_example : NoDup (listing sound) /\ make_nodes sound 10 = Ok (nodes sound) /\ layout sound cut (nodes sound)
  /\ (forall u, no_cycle sound cut (nodes sound) u)
  /\ read_tests (snd <$> passes sound) [] = Ok [[⌜"V.cpp"⌝]] /\ read_tests (failures sound) [] = Ok [[⌜"W.cpp"⌝]]
  /\ tests_to_run sound cut = Ok (Some [[⌜"T.cpp"⌝]; [⌜"W.cpp"⌝]]).
Proof. exact sound_ok. Qed.

Example C42_example_sorted : psorted [[⌜"V.cpp"⌝]].
Proof. repeat constructor. Qed.

Example C42_example_change : last_change sound cut (nodes sound) 0 20.
Proof. exact sound_change. Qed.

(** The claim is false of headers which include each other, *)
Theorem C42_include_cycle_refuted : exists w cutoff prune ns rel, layout w cutoff ns /\ missed w cutoff prune ns rel.
Proof. exact (ex_intro _ _ (ex_intro _ _ (ex_intro _ _ (ex_intro _ _ (ex_intro _ _ mutual_missed))))). Qed.
Print Assumptions C42_include_cycle_refuted.

(** also, without cycles of includes, of a source file which includes a header which includes its own header, *)
Theorem C42_source_includes_refuted : exists w cutoff prune ns rel,
  layout w cutoff ns /\ (forall u, ~ tc (uses w cutoff ns) u u) /\ missed w cutoff prune ns rel.
Proof. exact (ex_intro _ _ (ex_intro _ _ (ex_intro _ _ (ex_intro _ _ (ex_intro _ _ furnished_missed))))). Qed.
Print Assumptions C42_source_includes_refuted.

(** and of two source files each of which includes the header of the other. *)
Theorem C42_mutual_sources_refuted : exists w cutoff prune ns rel,
  paired w cutoff ns /\ (forall u, ~ tc (uses w cutoff ns) u u) /\ missed w cutoff prune ns rel.
Proof. exact (ex_intro _ _ (ex_intro _ _ (ex_intro _ _ (ex_intro _ _ (ex_intro _ _ cyclic_missed))))). Qed.
Print Assumptions C42_mutual_sources_refuted.

(** Without cycles of any kind it is false when source files in two folders have the same name, *)
Theorem C42_same_name_refuted : exists w cutoff prune ns rel,
  (forall u, ~ tc (link w cutoff ns) u u)
  /\ (forall i j n m, ns !! i = Some n -> ns !! j = Some m -> file n = file m -> i = j)
  /\ missed w cutoff prune ns rel.
Proof. exact (ex_intro _ _ (ex_intro _ _ (ex_intro _ _ (ex_intro _ _ (ex_intro _ _ doubled_missed))))). Qed.
Print Assumptions C42_same_name_refuted.

(** when the name of a file comes between those of a source file and its header, *)
Theorem C42_dotted_name_refuted : exists w cutoff prune ns rel,
  (forall u, ~ tc (link w cutoff ns) u u)
  /\ NoDup (map (fun n => file_name (file n)) ns)
  /\ missed w cutoff prune ns rel.
Proof. exact (ex_intro _ _ (ex_intro _ _ (ex_intro _ _ (ex_intro _ _ (ex_intro _ _ dotted_missed))))). Qed.
Print Assumptions C42_dotted_name_refuted.

(** when a header which is directly in the folder of the sources is included from elsewhere, *)
Theorem C42_bare_name_refuted : exists w prune f h name,
  stamp w = Some prune /\ f ∈ listing w /\ f = tests w ++ [⌜"T.cpp"⌝]
  /\ contents w f = ⌜"#include """⌝ ++ name ++ ⌜""""⌝ ++ [nl] /\ h ∈ listing w /\ h = sources w ++ [name]
  /\ parent_path f ++ [name] ∉ listing w /\ (prune < written w h)%N /\ tests_to_run w cut = Ok (Some []).
Proof. exact bare_missed. Qed.
Print Assumptions C42_bare_name_refuted.

(** and when the folder of materials has changed, but nothing in it. *)
Theorem C42_removed_material_refuted : exists w prune rel t ts,
  stamp w = Some prune /\ tests w ++ rel ∈ listing w /\ materials w rel = Some (t, ts) /\ (prune < t)%N
  /\ passes w = None /\ tests_to_run w cut = Ok (Some []).
Proof. exact removed_missed. Qed.
Print Assumptions C42_removed_material_refuted.
