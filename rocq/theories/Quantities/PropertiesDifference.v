From stdpp Require Import list.
From Coq Require Import ZArith QArith Qcanon.
From Verif.Base Require Import Outcome ListLemmas.
From Verif.Products Require Import Model.
From Verif.Quantities Require Import Model ModelSum ModelDifference SpecDifference ProofsDifference.

(** C118: differences of physical quantities, within a space and across spaces. *)
Section statements.
  Context (plain : bool) (ev : nat) (vec : nat -> bool) (base : nat -> option ty) (module : nat -> ty) (dims : nat -> nat).
  Context (other : list Qc -> res (list Qc)).
  Local Notation minus := (minus plain ev vec base module dims other).
  Local Notation shift := (shift ev vec base module other).
  Local Notation displacement := (displacement ev vec module).
  Local Notation free_module := (free_module ev vec module).
  Local Notation pointed := (pointed ev vec).
  Local Notation base_space := (base_space base).

  Theorem C118_value a xs b ys d r : proper_spaces ev vec base module -> pointed a -> pointed b -> minus a xs b ys = Yields d r ->
    r = Ok (subtract xs ys) /\ vetted a = vetted b /\ free ev vec (within d) = true /\ vetted d = Identity /\
    (within a = within b /\ within d = free_module (within a) \/
     exists c, base_space (within a) = Some c /\ base_space (within b) = Some c /\ extent dims (within a) = extent dims (within b) /\ within d = free_module c).
  Proof. intros H. exact (minus_value plain ev vec base module dims other H a xs b ys d r). Qed.

  Theorem C118_same_type a xs ys : proper_spaces ev vec base module -> pointed a -> minus a xs a ys = Yields (displacement a) (Ok (subtract xs ys)).
  Proof. intros H. exact (minus_same plain ev vec base module dims other H a xs ys). Qed.

  Theorem C118_other_space a xs b ys c : proper_spaces ev vec base module -> pointed a -> pointed b -> vetted a = vetted b -> within a <> within b ->
    base_space (within a) = Some c -> base_space (within b) = Some c -> extent dims (within a) = extent dims (within b) ->
    minus a xs b ys = Yields (Place (free_module c) Identity) (Ok (subtract xs ys)).
  Proof. intros H. exact (minus_points plain ev vec base module dims other H a xs b ys c). Qed.

  Theorem C118_displacements a xs b ys c : proper_spaces ev vec base module -> pointed a -> pointed b -> within a <> within b ->
    free_module (within a) <> free_module (within b) -> base_space (within a) = Some c -> base_space (within b) = Some c ->
    extent dims (free_module (within a)) = extent dims (free_module (within b)) ->
    minus (displacement a) xs (displacement b) ys = Yields (Place (free_module c) Identity) (Ok (subtract xs ys)).
  Proof. intros H. exact (minus_displacements plain ev vec base module dims other H a xs b ys c). Qed.

  Theorem C118_antisymmetric a xs b ys d : proper_spaces ev vec base module -> pointed a -> pointed b ->
    minus a xs b ys = Yields d (Ok (subtract xs ys)) -> minus b ys a xs = Yields d (Ok (Qcopp <$> subtract xs ys)).
  Proof. intros H. exact (minus_antisymmetric plain ev vec base module dims other H a xs b ys d). Qed.

  Theorem C118_minus_displacement a xs ys : proper_spaces ev vec base module -> pointed a ->
    minus a xs (displacement a) ys = Yields a (validate other (vetted a) (subtract xs ys)).
  Proof. intros H. exact (minus_displacement plain ev vec base module dims other H a xs ys). Qed.

  Theorem C118_shift_offered a xs b ys d r : shift a xs b ys = Yields d r ->
    d = a /\ vetted b = Identity /\ to_base base (within b) = to_base base (free_module (within a)).
  Proof. exact (shift_offered ev vec base module other a xs b ys d r). Qed.

  Theorem C118_undo_partial a xs ys : proper_spaces ev vec base module -> pointed a -> length xs = length ys -> accepted other (vetted a) xs ->
    onto shift a ys (minus a xs a ys) = Yields a (Ok xs).
  Proof. intros H. exact (undo plain ev vec base module dims other H a xs ys). Qed.

  Theorem C118_shift_base a xs b ys d zs m : proper_spaces ev vec base module -> pointed a -> pointed b -> pointed d -> vetted b = vetted d -> within b <> within d ->
    within a = Base m -> base m = Some (Base m) -> base_space (within b) = Some (Base m) -> base_space (within d) = Some (Base m) ->
    extent dims (within b) = extent dims (within d) ->
    onto shift a xs (minus b ys d zs) = Yields a (validate other (vetted a) (zip_with Qcplus xs (subtract ys zs))).
  Proof. intros H. exact (shift_base plain ev vec base module dims other H a xs b ys d zs m). Qed.

  Theorem C118_chain_partial a xs b ys d zs c : proper_spaces ev vec base module -> pointed a -> pointed b -> pointed d -> vetted a = vetted b -> vetted b = vetted d ->
    within a <> within b -> within b <> within d -> within a <> within d ->
    base_space (within a) = Some c -> base_space (within b) = Some c -> base_space (within d) = Some c ->
    extent dims (within a) = extent dims (within b) -> extent dims (within b) = extent dims (within d) ->
    length xs = length ys -> length ys = length zs ->
    exists e, minus a xs b ys = Yields e (Ok (subtract xs ys)) /\ onto shift e (subtract xs ys) (minus b ys d zs) = minus a xs d zs.
  Proof. intros H. exact (chain plain ev vec base module dims other H a xs b ys d zs c). Qed.

  Theorem C118_chain_same_type a xs ys zs : proper_spaces ev vec base module -> pointed a -> length xs = length ys -> length ys = length zs ->
    onto shift (displacement a) (subtract xs ys) (minus a ys a zs) = minus a xs a zs.
  Proof. intros H. exact (chain_same plain ev vec base module dims other H a xs ys zs). Qed.
End statements.

(** b + (a - b) never returns. *)
Theorem C118_undo_refuted : exists plain ev vec base module dims other a b x y,
  proper_spaces ev vec base module /\ pointed ev vec a /\ pointed ev vec b /\ accepted other (vetted a) [x] /\ accepted other (vetted b) [y] /\
  (exists d, minus plain ev vec base module dims other a [x] b [y] = Yields d (Ok [(x - y)%Qc])) /\
  onto (shift ev vec base module other) b [y] (minus plain ev vec base module dims other a [x] b [y]) = Yields b NoFuel.
Proof. exact undo_refuted. Qed.

(** (x - y) + (y - z) never returns, where x and y are in one space, and z in another; (x - y) - (z - y) is x - z. *)
Theorem C118_chain_refuted : exists plain ev vec base module dims other a b x y z e,
  proper_spaces ev vec base module /\ pointed ev vec a /\ pointed ev vec b /\
  minus plain ev vec base module dims other a [x] a [y] = Yields e (Ok [(x - y)%Qc]) /\
  (exists d, minus plain ev vec base module dims other a [y] b [z] = Yields d (Ok [(y - z)%Qc])) /\
  onto (shift ev vec base module other) e [(x - y)%Qc] (minus plain ev vec base module dims other a [y] b [z]) = Yields e NoFuel /\
  onto (minus plain ev vec base module dims other) e [(x - y)%Qc] (minus plain ev vec base module dims other b [z] a [y]) =
    minus plain ev vec base module dims other a [x] b [z].
Proof. exact chain_refuted. Qed.

(** *** The hypotheses can be met *)
Example C118_value_example :
  proper_spaces 0 Diff_vec Diff_base Diff_module /\ pointed 0 Diff_vec Diff_width /\ pointed 0 Diff_vec Diff_height /\
  Diff_minus Diff_width [Q2Qc 2] Diff_height [Q2Qc 5] = Yields (Place (Ads (Base 2)) Identity) (Ok [Q2Qc (-3)]) /\
  Diff_minus Diff_height [Q2Qc 5] Diff_width [Q2Qc 2] = Yields (Place (Ads (Base 2)) Identity) (Ok [Q2Qc 3]) /\
  Diff_minus Diff_width [Q2Qc 2] (Place (Base 4) HalfLine) [Q2Qc 5] = Absent.
Proof.
  split; [exact Diff_proper|]. split; [apply Diff_pointed|]. split; [apply Diff_pointed|].
  split; [vm_compute; do 3 f_equal; by apply Qc_is_canon|]. split; [vm_compute; do 3 f_equal; by apply Qc_is_canon|by vm_compute].
Qed.
Example C118_same_type_example :
  Diff_minus Diff_width [Q2Qc 2] Diff_width [Q2Qc 5] = Yields (Place (Base 8) Identity) (Ok [Q2Qc (-3)]) /\ accepted Ok (vetted Diff_width) [Q2Qc 2] /\
  Diff_shift Diff_width [Q2Qc 2] (Place (Base 8) Identity) [Q2Qc (-3)] = Yields Diff_width (Throw DomainError) /\
  Diff_minus Diff_width [Q2Qc 2] (Place (Base 8) Identity) [Q2Qc (-3)] = Yields Diff_width (Ok [Q2Qc 5]).
Proof.
  split; [vm_compute; do 3 f_equal; by apply Qc_is_canon|]. split; [by vm_compute|]. split; [by vm_compute|]. vm_compute; do 3 f_equal; by apply Qc_is_canon.
Qed.
Example C118_displacements_example :
  free_module 0 Diff_vec Diff_module (within Diff_width) <> free_module 0 Diff_vec Diff_module (within Diff_height) /\
  Diff_minus (Place (Base 8) Identity) [Q2Qc 2] (Place (Base 9) Identity) [Q2Qc 5] = Yields (Place (Ads (Base 2)) Identity) (Ok [Q2Qc (-3)]).
Proof. split; [done|]. vm_compute; do 3 f_equal; by apply Qc_is_canon. Qed.
Example C118_chain_example :
  pointed 0 Diff_vec Diff_length /\ base_space Diff_base (within Diff_length) = Some (Base 2) /\ base_space Diff_base (within Diff_width) = Some (Base 2) /\
  base_space Diff_base (within Diff_height) = Some (Base 2) /\
  onto Diff_shift (Place (Ads (Base 2)) Identity) [Q2Qc 1] (Diff_minus Diff_width [Q2Qc 2] Diff_height [Q2Qc 5]) =
    Yields (Place (Ads (Base 2)) Identity) (Ok [Q2Qc (-2)]) /\
  onto Diff_shift Diff_length [Q2Qc 4] (Diff_minus Diff_width [Q2Qc 2] Diff_height [Q2Qc 5]) = Yields Diff_length (Ok [Q2Qc 1]).
Proof.
  split; [apply Diff_pointed|]. do 3 (split; [done|]). split; vm_compute; do 3 f_equal; by apply Qc_is_canon.
Qed.

Print Assumptions C118_value.
Print Assumptions C118_same_type.
Print Assumptions C118_other_space.
Print Assumptions C118_displacements.
Print Assumptions C118_antisymmetric.
Print Assumptions C118_minus_displacement.
Print Assumptions C118_shift_offered.
Print Assumptions C118_undo_partial.
Print Assumptions C118_shift_base.
Print Assumptions C118_chain_partial.
Print Assumptions C118_chain_same_type.
Print Assumptions C118_undo_refuted.
Print Assumptions C118_chain_refuted.
