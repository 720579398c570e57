(** C41: statistics. *)
From Coq Require Import List ZArith QArith Qcanon Permutation.
From Verif.Stats Require Import Model Spec Proofs.
Import ListNotations.
Local Open Scope Qc_scope.

Theorem mean_is_textbook root l :
  match mean (exact root) l with
  | Some m => l <> [] /\ is_mean l m /\ m = total l / count l
  | None => l = []
  end.
Proof. exact (mean_correct root l). Qed.
Print Assumptions mean_is_textbook.

Theorem variance_is_textbook root l :
  match variance (exact root) l with
  | (Some v, Some m) => l <> [] /\ is_mean l m /\ v * count l = sum_squares l m
  | (None, None) => l = []
  | _ => False
  end.
Proof. exact (variance_correct root l). Qed.
Print Assumptions variance_is_textbook.

(** With a single datum there is a mean but no variance. *)
Theorem sample_variance_is_textbook root l :
  match sample_variance (exact root) l with
  | (Some v, Some m) => (2 <= length l)%nat /\ is_mean l m /\ v * (count l - 1) = sum_squares l m
  | (None, Some m) => l = [m]
  | (None, None) => l = []
  | _ => False
  end.
Proof. exact (sample_variance_correct root l). Qed.
Print Assumptions sample_variance_is_textbook.

(** The standard deviation is the root of the variance; its estimate from a sample divides the sum of
    squares by n - 3/2 instead of n - 1. *)
Theorem deviations_are_roots root l :
  standard_deviation (exact root) l =
    (let (v, m) := variance (exact root) l in (option_map root v, m)) /\
  sample_standard_deviation (exact root) l =
    (let (v, m) := sample_variance (exact root) l in
     (option_map (fun v => root (v * (count l - 1) / (count l - Qc_of_Z 3 / Qc_of_Z 2))) v, m)).
Proof. exact (deviations root l). Qed.
Print Assumptions deviations_are_roots.

Theorem statistics_permutation_invariant root l l' : Permutation l l' ->
  mean (exact root) l = mean (exact root) l' /\ variance (exact root) l = variance (exact root) l' /\
  sample_variance (exact root) l = sample_variance (exact root) l'.
Proof. exact (permutation_invariant root l l'). Qed.
Print Assumptions statistics_permutation_invariant.

Theorem statistics_translation root c l :
  mean (exact root) (map (Qcplus c) l) = option_map (Qcplus c) (mean (exact root) l) /\
  fst (variance (exact root) (map (Qcplus c) l)) = fst (variance (exact root) l) /\
  fst (sample_variance (exact root) (map (Qcplus c) l)) = fst (sample_variance (exact root) l).
Proof. exact (translation root c l). Qed.
Print Assumptions statistics_translation.

(** The data 1, 2, 6: mean 3, variance 14/3, sample variance 7. *)
Example statistics_ex :
  let l := map Qc_of_Z [1; 2; 6]%Z in
  mean (exact (fun x => x)) l = Some (Qc_of_Z 3) /\
  fst (variance (exact (fun x => x)) l) = Some (Qc_of_Z 14 / Qc_of_Z 3) /\
  fst (sample_variance (exact (fun x => x)) l) = Some (Qc_of_Z 7) /\
  sample_variance (exact (fun x => x)) [Qc_of_Z 5] = (None, Some (Qc_of_Z 5)) /\
  Permutation l (map Qc_of_Z [6; 1; 2]%Z).
Proof.
  split; [|split; [|split; [|split]]].
  1-3: apply (f_equal Some); apply Qc_is_canon; vm_compute; reflexivity.
  1: apply (f_equal (fun z => (None, Some z))); apply Qc_is_canon; vm_compute; reflexivity.
  apply (Permutation_map Qc_of_Z). apply Permutation_sym, (Permutation_cons_append [1; 2]%Z 6%Z).
Qed.
