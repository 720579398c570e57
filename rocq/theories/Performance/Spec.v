(** What checks of relative performance should do, independently of the model's loops. *)
From Coq Require Import Ascii String QArith Qcanon.
From stdpp Require Import list.
From Verif.Text Require Import Model Spec.
From Verif.Stats Require Spec.
From Verif.Log Require Model.
From Verif.Performance Require Import Model.
Local Open Scope Qc_scope.

(** Arguments which are accepted. *)
Definition valid (a : arguments) : Prop :=
  1 < min_speed_up a /\ min_speed_up a <= max_speed_up a /\ 1 < num_sds a /\ (0 < max_attempts a)%nat /\
  (5 <= trials a)%nat.

(** The data without one of the smallest and one of the largest. *)
Definition trimmed (data mid : list Qc) : Prop :=
  exists lo hi, data ≡ₚ lo :: hi :: mid /\ Forall (fun x => lo <= x <= hi) data.

(** Mean and estimated standard deviation of the trimmed data. *)
Definition statistics (root : Qc -> Qc) (data : list Qc) (st : stats) : Prop :=
  exists mid, trimmed data mid /\ Stats.Spec.is_mean mid (mean_of st) /\
    sd_of st = root (Stats.Spec.sum_squares mid (mean_of st) / (Stats.Spec.count mid - Stats.Spec.Qc_of_Z 3 / Stats.Spec.Qc_of_Z 2)).

(** [x] is within [d] of [y]. *)
Definition within (d x y : Qc) : Prop := y - d <= x <= y + d.

(** The tasks differ in speed beyond one standard deviation of each, and some speed-up in the range
    predicted explains the slow task by the fast one (or the fast by the slow one, whichever has the
    larger spread) up to the number of standard deviations. *)
Definition criterion (a : arguments) (f s : stats) : Prop :=
  mean_of f + sd_of f < mean_of s - sd_of s /\
  exists c, min_speed_up a <= c <= max_speed_up a /\
    if Qc_leb (sd_of s) (sd_of f) then within (num_sds a * sd_of s) (c * mean_of f) (mean_of s)
    else within (num_sds a * sd_of f) (mean_of s / c) (mean_of f).

(** Statistics in other units. *)
Definition scale (c : Qc) (st : stats) : stats := Stats (c * mean_of st) (c * sd_of st).

(** Is the quotient of two times in the range predicted? *)
Definition exactly (a : arguments) (tf ts : Qc) : bool :=
  Qc_leb (min_speed_up a * tf) ts && Qc_leb ts (max_speed_up a * tf).

Section course.
  Context (root : Qc -> Qc) (coin : list task -> bool) (clock : list task -> task -> Qc).

  (** [n] trials after [base]: both tasks, the order of which is left to the coin (latest run first). *)
  Inductive paired (base : list task) : nat -> list task -> Prop :=
    | paired_none : paired base 0 []
    | paired_fast n seg : paired base n seg -> coin (seg ++ base) = true -> paired base (S n) (Slow :: Fast :: seg)
    | paired_slow n seg : paired base n seg -> coin (seg ++ base) = false -> paired base (S n) (Fast :: Slow :: seg).

  (** How long the runs of one of the tasks took. *)
  Fixpoint times (t : task) (seg base : list task) : list Qc :=
    match seg with
    | [] => []
    | x :: seg' => times t seg' base ++
        match t, x with Fast, Fast | Slow, Slow => [clock (seg' ++ base) x] | _, _ => [] end
    end.

  (** The [j]-th attempt after [base] runs [seg] and measures [f] and [s]. *)
  Definition attempt (a : arguments) (base : list task) (j : nat) (seg : list task) (f s : stats) : Prop :=
    paired base (trials a * j) seg /\ statistics root (times Fast seg base) f /\ statistics root (times Slow seg base) s.

  (** Is the result of an attempt what is hoped for? *)
  Definition hoped (md : Log.Model.mode) (passed : bool) : bool :=
    match md with Log.Model.FalseNegative => negb passed | _ => passed end.

  (** Attempts number [j] to [k], the last of which measures [f] and [s]: the first with the result hoped
      for is the last one, or the last one allowed. *)
  Inductive course (md : Log.Model.mode) (a : arguments) (k : nat) (f s : stats) : nat -> list task -> list task -> Prop :=
    | course_last base seg : attempt a base k seg f s ->
        hoped md (verdict a f s) = true \/ k = max_attempts a -> course md a k f s k base (seg ++ base)
    | course_next j base seg f' s' h : attempt a base j seg f' s' -> hoped md (verdict a f' s') = false ->
        (j < max_attempts a)%nat -> course md a k f s (S j) (seg ++ base) h -> course md a k f s j base h.
End course.

(** What the logger should count: one performance check of the mode, and a failure (or, for false negatives,
    a failure if the check passed). *)
Definition expected_counters (md : Log.Model.mode) (passed : bool) : list Z :=
  match md with
  | Log.Model.Standard => [0; 0; 1; 0; 0; 0; 0; 0; 0; if passed then 0 else 1; 0; 0; 0; 0; 0]
  | Log.Model.FalsePositive => [0; 0; 0; 0; 0; 1; 0; 0; 0; 0; 0; 0; if passed then 0 else 1; 0; 0]
  | Log.Model.FalseNegative => [0; 0; 0; 0; 0; 0; 1; 0; 0; 0; 0; 0; 0; if passed then 1 else 0; 0]
  end%Z.

(** The text about a check. *)
Section message.
  Context (show : Qc -> text).
  Local Notation "⌜ s ⌝" := (list_ascii_of_string s%string).
  Definition fast_line (a : arguments) (f : stats) : text :=
    ⌜ "Fast Task duration: " ⌝ ++ show (mean_of f) ++ ⌜ "s +- " ⌝ ++ show (num_sds a) ++ ⌜ " * " ⌝ ++ show (sd_of f) ++ ⌜ "s" ⌝.
  Definition slow_line (a : arguments) (f s : stats) : text :=
    ⌜ "Slow Task duration: " ⌝ ++ show (mean_of s) ++ ⌜ "s +- " ⌝ ++ show (num_sds a) ++ ⌜ " * " ⌝ ++ show (sd_of s) ++
    ⌜ "s [" ⌝ ++ show (mean_of s / mean_of f) ++ ⌜ "; (" ⌝ ++ show (min_speed_up a) ++ ⌜ ", " ⌝ ++ show (max_speed_up a) ++ ⌜ ")]" ⌝.
  Definition message (description : text) (a : arguments) (f s : stats) : text :=
    (if decide (description = []) then [] else description ++ [nl]) ++ fast_line a f ++ [nl] ++ slow_line a f s.
End message.

(** ** Comparison with earlier texts *)

(** Two lines with the same predictions and other measurements: [x], [y] and [q] may differ.  [bounds] is
    given for the second line of a check only. *)
Definition plain (x : text) : Prop := Forall (fun c => c ∉ list_ascii_of_string "-*()s;") x /\ nl ∉ x.

Local Notation "⌜ s ⌝" := (list_ascii_of_string s%string).
Definition measured_line (before x k y : text) (bounds : option (text * text * text)) : text :=
  before ++ ⌜ "Task duration: " ⌝ ++ x ++ ⌜ "s +- " ⌝ ++ k ++ ⌜ " * " ⌝ ++ y ++ ⌜ "s" ⌝ ++
  match bounds with
  | None => []
  | Some (q, mn, mx) => ⌜ " [" ⌝ ++ q ++ ⌜ "; (" ⌝ ++ mn ++ ⌜ ", " ⌝ ++ mx ++ ⌜ ")]" ⌝
  end.

Inductive same_but_measured : text -> text -> Prop :=
  | same_line l : nl ∉ l -> same_but_measured l l
  | measured_short before x y x' y' k : nl ∉ before -> plain x -> plain y -> plain x' -> plain y' -> plain k ->
      same_but_measured (measured_line before x k y None) (measured_line before x' k y' None)
  | measured_long before x y q x' y' q' k mn mx : nl ∉ before -> plain x -> plain y -> plain q ->
      plain x' -> plain y' -> plain q' -> plain k -> plain mn -> plain mx ->
      same_but_measured (measured_line before x k y (Some (q, mn, mx)))
                        (measured_line before x' k y' (Some (q', mn, mx))).

(** Lines, each ended by a line break. *)
Definition ended (ls : list text) : text := concat (map (fun l => l ++ [nl]) ls).
