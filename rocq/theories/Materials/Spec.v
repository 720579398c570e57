(** What tests find in the folder for temporary data. *)
From Coq Require Import Ascii String.
From stdpp Require Import list gmap strings.
From Verif.Text Require Import Model.
From Verif.Materials Require Import Model.
Local Notation "⌜ s ⌝" := (list_ascii_of_string s%string).

(** What is at [p] in [d], and everything below, is also at [q] in [d']. *)
Definition mirrored (d : disk) (p : path) (d' : disk) (q : path) : Prop := forall r, d' !! (q ++ r) = d !! (p ++ r).

(** There is nothing at [p]. *)
Definition nothing (d : disk) (p : path) : Prop := forall r, d !! (p ++ r) = None.

(** The materials [m] of a test in [d] are provided at [t] in [d']: either there is a prediction, and a working
    copy - empty if there is none to start from - and auxiliary materials are provided, and nothing else; or
    everything is provided. *)
Definition provided (d : disk) (m : path) (d' : disk) (t : path) : Prop :=
  match d !! m, d !! (m ++ [⌜"Prediction"⌝]) with
  | None, _ => True
  | Some _, None => mirrored d m d' t
  | Some _, Some _ =>
      d' !! t = Some Folder /\
      (match d !! (m ++ [⌜"WorkingCopy"⌝]) with
       | Some _ => mirrored d (m ++ [⌜"WorkingCopy"⌝]) d' (t ++ [⌜"WorkingCopy"⌝])
       | None => forall r, d' !! (t ++ [⌜"WorkingCopy"⌝] ++ r) = if decide (r = []) then Some Folder else None
       end) /\
      (match d !! (m ++ [⌜"Auxiliary"⌝]) with
       | Some _ => mirrored d (m ++ [⌜"Auxiliary"⌝]) d' (t ++ [⌜"Auxiliary"⌝])
       | None => nothing d' (t ++ [⌜"Auxiliary"⌝])
       end) /\
      (forall n, n <> ⌜"WorkingCopy"⌝ -> n <> ⌜"Auxiliary"⌝ -> nothing d' (t ++ [n]))
  end.

(** No path lies below another one. *)
Definition side_by_side (l : list path) : Prop := forall p q, p ∈ l -> q ∈ l -> p `prefix_of` q -> p = q.
Definition disjoint_paths (p q : path) : Prop := ~ p `prefix_of` q /\ ~ q `prefix_of` p.

(** There is no file on the way to [p]. *)
Definition way_free (d : disk) (p : path) : Prop := forall q c, q `prefix_of` p -> q <> p -> d !! q <> Some (File c).

(** Apart from what lies below [t] nothing changes, except for folders on the way to [t]. *)
Definition only_below (t : path) (d d' : disk) : Prop :=
  forall q, ~ t `prefix_of` q -> d' !! q = d !! q \/ (d !! q = None /\ d' !! q = Some Folder /\ q `prefix_of` t).

(** Every entry lies in a folder. *)
Definition in_folders (d : disk) : Prop := forall p n, is_Some (d !! (p ++ [n])) -> p <> [] -> d !! p = Some Folder.
