(** What is claimed of the dependency analysis (C42). *)
From Coq Require Import Ascii String.
From stdpp Require Import list relations.
From Verif.Base Require Import Outcome.
From Verif.Text Require Import Model.
From Verif.Depend Require Import Model.

(** Where the file named [inc] in an include directive of the file [f] may be: in the folders of the sources, of the tests or
    in further folders, or at the place given by the path relative to [f]. *)
Definition candidate (w : project) (f inc p : list text) : Prop :=
  file_name p = file_name inc
  /\ if decide (head inc = Some root_dir) then p = inc
     else p = sources w ++ inc \/ p = tests w ++ inc \/ (exists d, d ∈ others w /\ p = d ++ inc)
          \/ canonical w (removelast f ++ inc) = Some p.

Section spec.
  Context (w : project) (cutoff : text) (ns : list info).

  (** The file [u] has an include directive [inc], which names the file [v]: the first candidate. *)
  Definition names_file (u : nat) (inc : list text) (v : nat) : Prop :=
    exists n incs m, ns !! u = Some n /\ includes_of w cutoff (file n) = Ok incs /\ inc ∈ incs
      /\ ns !! v = Some m /\ candidate w (file n) inc (file m)
      /\ forall v' m', v' < v -> ns !! v' = Some m' -> ~ candidate w (file n) inc (file m').

  Definition uses (u v : nat) : Prop := exists inc, names_file u inc v.

  (** The source file [s] has the header [h]: it includes a file with its own name. *)
  Definition own_header (s h : nat) : Prop :=
    exists n inc, ns !! s = Some n /\ is_cpp (file n) = true /\ names_file s inc h /\ stem_of inc = stem_of (file n).

  (** A file depends on those it includes, a header also on the source file it belongs to. *)
  Definition depends (u v : nat) : Prop := uses u v \/ own_header v u.

  (** A header comes directly after the source file it belongs to, and nothing else with its name does. *)
  Record paired : Prop := {
    paired_next : forall s h, own_header s h -> h = S s;
    paired_header : forall s h n, own_header s h -> ns !! h = Some n -> is_cpp (file n) = false;
    paired_only : forall s n m, ns !! s = Some n -> ns !! S s = Some m -> is_cpp (file n) = true ->
      stem_of (file m) = stem_of (file n) -> own_header s (S s)
  }.

  (** This is so if no file name other than that of its header, which it includes, begins with the name of a source file
      and a dot, and no source file includes itself. *)
  Record layout : Prop := {
    layout_names : forall s v n m r, ns !! s = Some n -> is_cpp (file n) = true -> ns !! v = Some m ->
      file_name (file m) = stem_of (file n) ++ "."%char :: r -> v = s \/ (is_header (file m) = true /\ own_header s v);
    layout_one : forall s v v', own_header s v -> own_header s v' -> v = v';
    layout_self : forall s, ~ own_header s s
  }.

  (** The edges of the graph: a header has also those of its source file. *)
  Definition link (u v : nat) : Prop := uses u v \/ exists s, own_header s u /\ uses s v /\ u <> v.

  (** No include cycle can be reached from [u]. *)
  Definition no_cycle (u : nat) : Prop := forall v, rtc link u v -> ~ tc link v v.

  (** The time of the last change to something on which [u] depends. *)
  Definition last_change (u : nat) (t : N) : Prop :=
    (exists v n, rtc depends u v /\ ns !! v = Some n /\ time n = t)
    /\ forall v n, rtc depends u v -> ns !! v = Some n -> (time n <= t)%N.
End spec.

(** Something among the times is later than [t]. *)
Definition newer (t : N) (ts : list N) : Prop := exists x, x ∈ ts /\ (t < x)%N.

(** The times of last change of what is in the folder of materials, and of this and the folder. *)
Definition inside (w : project) (rel : list text) : list N :=
  match materials w rel with Some (_, ts) => ts | None => [] end.
Definition folder (w : project) (rel : list text) : list N :=
  match materials w rel with Some (t, ts) => t :: ts | None => [] end.

(** Whether a test is to be run: [t] is the time of the last change to something on which it depends.  A test which passed
    in a later run is not run again unless something has changed since. *)
Definition selected (w : project) (prune : N) (passing failing : list (list text)) (rel : list text) (t : N) : Prop :=
  rel ∈ failing
  \/ (rel ∉ passing /\ newer prune (t :: inside w rel))
  \/ (exists ps s, passes w = Some (ps, s) /\ rel ∈ passing /\ newer prune (t :: folder w rel) /\ newer ps (t :: folder w rel)).

(** A test is not run although something on which it depends was changed after the time [prune]. *)
Definition missed (w : project) (cutoff : text) (prune : N) (ns : list info) (rel : list text) : Prop :=
  exists u v n m l, NoDup (listing w) /\ stamp w = Some prune /\ make_nodes w prune = Ok ns
    /\ ns !! u = Some n /\ is_cpp (file n) = true /\ file n = tests w ++ rel /\ rel <> []
    /\ rtc (depends w cutoff ns) u v /\ ns !! v = Some m /\ (prune < time m)%N
    /\ passes w = None /\ tests_to_run w cutoff = Ok (Some l) /\ rel ∉ l.
