(** What is claimed of runs of the tests one after the other (C99). *)
From Coq Require Import Ascii String NArith.
From stdpp Require Import list relations.
From Verif.Base Require Import Outcome Compare.
From Verif.Text Require Import Model.
From Verif.Prune Require Import Model Spec.
From Verif.Depend Require Import Model Spec.
From Verif.Select Require Import Spec.
From Verif.Suite Require Import Model Spec.
From Verif.History Require Import Model.

(** *** Files on which others depend *)
Section files.
  Context (w : project) (cutoff : text).

  (** The source files and headers of the project *)
  Definition code (f : list text) : Prop := f ∈ listing w /\ (is_cpp f = true \/ is_header f = true).

  (** They are looked through by name, and by path for those with the same name. *)
  Definition before (f g : list text) : Prop :=
    text_compare (file_name f) (file_name g) = Lt \/ (file_name f = file_name g /\ Prune.Model.path_compare f g = Lt).

  (** The directive [inc] in [f] stands for the file [g]: the first candidate. *)
  Definition stands_for (f inc g : list text) : Prop :=
    (exists incs, includes_of w cutoff f = Ok incs /\ inc ∈ incs) /\ code f /\ code g /\ candidate w f inc g
    /\ forall g', code g' -> before g' g -> ~ candidate w f inc g'.

  (** [f] includes [g]; or it is a header which is included by the source file [g] with the same name. *)
  Definition needs (f g : list text) : Prop :=
    (exists inc, stands_for f inc g)
    \/ (exists inc, stands_for g inc f /\ is_cpp g = true /\ stem_of inc = stem_of g).

  (** The names of the files are such that the analysis works (see C42). *)
  Definition orderly : Prop := NoDup (listing w) /\
    forall prune ns, make_nodes w prune = Ok ns -> paired w cutoff ns /\ forall u, no_cycle w cutoff ns u.
End files.

(** *** Changes between one run and the next, after the time [t]: nothing is removed; what is changed or new has a later time. *)
Record edited (t : N) (w w' : project) : Prop := {
  edited_folders : sources w' = sources w /\ tests w' = tests w /\ others w' = others w;
  edited_kept : forall f, f ∈ listing w -> f ∈ listing w';
  edited_files : forall f, f ∈ listing w' -> (t < written w' f)%N \/
    (f ∈ listing w /\ written w' f = written w f /\ contents w' f = contents w f);
  edited_names : forall p f, f ∈ listing w -> canonical w' p = Some f <-> canonical w p = Some f;
  edited_materials : forall r x, x ∈ inside w' r -> (t < x)%N \/ x ∈ inside w r
}.

(** All on which the file [f] and the test [r] depend is what it was. *)
Definition unchanged (cutoff : text) (w w' : project) (f r : list text) : Prop :=
  (forall g, rtc (needs w' cutoff) f g -> rtc (needs w cutoff) f g /\ g ∈ listing w /\ written w' g = written w g /\ contents w' g = contents w g)
  /\ (forall x, x ∈ inside w' r -> x ∈ inside w r).

Section history.
  Context {T : Type} (cutoff : text) (repo : list text) (source rel : T -> list text).

  (** The tests of a run *)
  Definition has_test (e : event T) (t : T) : Prop := exists s ns, s ∈ suites e /\ (t, ns) ∈ items_of [] s.

  (** A run: the files are older than it; the tests are source files in the folder of the tests, which can be written to and read
      from the prune files, and whose paths are found. *)
  Record proper_event (e : event T) : Prop := {
    proper_suites : suites e <> [];
    proper_folder : tests (world e) = absolute repo;
    proper_orderly : orderly (world e) cutoff;
    proper_entries : within repo (entries e);
    proper_times : (start e <= finish e)%N;
    proper_tests : forall t, has_test e t -> absolute repo ++ rel t ∈ listing (world e) /\ is_cpp (rel t) = true
      /\ good_path (absolute repo) (rel t) /\ named (rel t) /\ compiled repo (rel t) (source t)
  }.

  (** One run and the next; files are changed after the time [since] *)
  Record next (since : event T -> N) (e e' : event T) : Prop := {
    next_time : (finish e <= start e')%N;
    next_edited : edited (since e) (world e) (world e')
  }.

  (** Tests which are new are in new or changed files. *)
  Definition new_files (since : event T -> N) (e e' : event T) : Prop :=
    forall t, has_test e' t -> has_test e t \/ (since e < written (world e') (absolute repo ++ rel t))%N.

  Inductive proper_history (since : event T -> N) (new : (event T -> N) -> event T -> event T -> Prop) : list (event T * list T) -> Prop :=
    | proper_nothing : proper_history since new []
    | proper_first e ts : proper_event e -> proper_history since new [(e, ts)]
    | proper_next e ts e' ts' h : proper_event e -> next since e' e -> new since e' e -> proper_history since new ((e', ts') :: h) ->
        proper_history since new ((e, ts) :: (e', ts') :: h).

  (** The last execution of the test [t] was in the run [e]. *)
  Definition last_execution (h : list (event T * list T)) (t : T) (e : event T) : Prop :=
    exists h1 ts h2, h = h1 ++ (e, ts) :: h2 /\ t ∈ ts /\ Forall (fun x => t ∉ snd x) h1.

  (** The executable is newer than the source files and headers. *)
  Definition up_to_date (e : event T) : Prop :=
    forall x f, executable (world e) = Some x -> code (world e) f -> (written (world e) f < x)%N.

  (** Complete runs, and pruned ones *)
  Definition not_chosen (e : event T) : Prop := match wish e with Chosen _ _ => False | _ => True end.

  (** After these runs, the pruned run [e], for which the executable is up to date, does not execute the test [t]. *)
  Definition leaves_out (since : event T -> N) (new : (event T -> N) -> event T -> event T -> Prop) (h : list (event T * list T)) (e : event T) (t : T) : Prop :=
    exists m ts m', happened cutoff source h m /\ proper_history since new ((e, ts) :: h) /\ wish e = Pruned /\ up_to_date e
      /\ run cutoff source e m = Ok (ts, m') /\ has_test e t /\ t ∉ ts.
End history.
