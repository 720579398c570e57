From stdpp Require Import list.
From Coq Require Import ZArith QArith Qcanon.
From Verif.Base Require Import Outcome ListLemmas.
From Verif.Products Require Import Model.
From Verif.Quantities Require Import Model ModelSum ModelDifference ModelNegate SpecDifference ProofsDifference ProofsNegate.

(** C118: opposites of physical quantities. *)
Section statements.
  Context (ev eh : nat) (vec half origin : nat -> bool) (dims : nat -> nat) (other : list Qc -> res (list Qc)) (intrinsic : validator).
  Local Notation negate := (negate ev eh vec half origin dims other intrinsic).
  Local Notation undual t := (match t with Dual _ => False | _ => True end).

  (** - (x - y) is y - x, whatever the spaces *)
  Theorem C118_negated_difference plain base module a xs b ys d zs : proper_spaces ev vec base module -> (forall n, undual (module n)) ->
    pointed ev vec a -> pointed ev vec b -> minus plain ev vec base module dims other a xs b ys = Yields d (Ok zs) ->
    negate d zs = minus plain ev vec base module dims other b ys a xs.
  Proof. exact (negate_difference ev eh vec half origin dims other intrinsic plain base module a xs b ys d zs). Qed.

  Theorem C118_negated_twice a xs : undual (within a) -> free ev vec (within a) = true -> vetted a = Identity ->
    negate a xs = Yields a (Ok (Qcopp <$> xs)) /\ negate a (Qcopp <$> xs) = Yields a (Ok xs).
  Proof. intros H1 H2 H3. exact (conj (negate_free ev eh vec half origin dims other intrinsic a xs H1 H2 H3) (negate_twice ev eh vec half origin dims other intrinsic a xs H1 H2 H3)). Qed.

  (** Magnitudes have no opposite, nor have points without an origin. *)
  Theorem C118_no_negated_magnitude a xs : half_line eh half (within a) = true -> free ev vec (within a) = false -> extent dims (within a) = 1%nat ->
    intrinsic = HalfLine -> vetted a = HalfLine -> negate a xs = Absent.
  Proof. exact (negate_magnitude ev eh vec half origin dims other intrinsic a xs). Qed.
  Theorem C118_no_negated_point a xs : origin_of ev eh vec half origin (within a) = false -> negate a xs = Absent.
  Proof. exact (negate_affine ev eh vec half origin dims other intrinsic a xs). Qed.

  (** Unless the validator is that of the unit *)
  Theorem C118_negated_unchecked a xs : origin_of ev eh vec half origin (within a) = true -> vetted a <> intrinsic ->
    negate a xs = Yields a (validate other (vetted a) (Qcopp <$> xs)).
  Proof. exact (negate_unchecked ev eh vec half origin dims other intrinsic a xs). Qed.

  Theorem C118_negated_value a xs d r : negate a xs = Yields d r -> d = a /\ r = validate other (vetted a) (Qcopp <$> xs).
  Proof. exact (negate_value ev eh vec half origin dims other intrinsic a xs d r). Qed.
End statements.

(** *** The hypotheses can be met *)
Example C118_negated_example :
  (forall n, match Diff_module n with Dual _ => False | _ => True end) /\
  Diff_minus Diff_width [Q2Qc 2] Diff_height [Q2Qc 5] = Yields (Place (Ads (Base 2)) Identity) (Ok [Q2Qc (-3)]) /\
  Diff_negate (Place (Ads (Base 2)) Identity) [Q2Qc (-3)] = Yields (Place (Ads (Base 2)) Identity) (Ok [Q2Qc 3]) /\
  half_line 1 Diff_half (within Diff_width) = true /\ Diff_negate Diff_width [Q2Qc 2] = Absent /\
  origin_of 0 1 Diff_vec Diff_half (fun _ => false) (Base 4) = false /\
  Diff_negate (Place (Base 2) Identity) [Q2Qc 2] = Yields (Place (Base 2) Identity) (Ok [Q2Qc (-2)]).
Proof.
  split; [intros n; do 8 (destruct n as [|n]; [done|]); done|]. split; [vm_compute; do 3 f_equal; by apply Qc_is_canon|].
  split; [vm_compute; do 3 f_equal; by apply Qc_is_canon|]. split; [done|]. split; [by vm_compute|]. split; [done|]. vm_compute; do 3 f_equal; by apply Qc_is_canon.
Qed.

Print Assumptions C118_negated_difference.
Print Assumptions C118_negated_twice.
Print Assumptions C118_no_negated_magnitude.
Print Assumptions C118_no_negated_point.
Print Assumptions C118_negated_unchecked.
Print Assumptions C118_negated_value.
