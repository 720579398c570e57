(** The textbook statistics of a non-empty list of rationals. *)
From Coq Require Import List ZArith QArith Qcanon.
From Verif.Stats Require Import Model.
Import ListNotations.
Local Open Scope Qc_scope.

Definition Qc_of_Z (z : Z) : Qc := Q2Qc (inject_Z z).
Definition count (l : list Qc) : Qc := Qc_of_Z (Z.of_nat (length l)).
Definition total (l : list Qc) : Qc := fold_right Qcplus 0 l.

(** The mean is the number with which the sum of the deviations vanishes. *)
Definition is_mean (l : list Qc) (m : Qc) : Prop := total (map (fun x => x - m) l) = 0.
Definition sum_squares (l : list Qc) (m : Qc) : Qc := total (map (fun x => (x - m) * (x - m)) l).

(** The operations of the exact rationals, with any function as the square root. *)
Definition exact (root : Qc -> Qc) : ops Qc :=
  Ops Qc 0 Qcplus Qcminus Qcmult (fun x n => x / Qc_of_Z n)
    (fun x n => x / (Qc_of_Z n - Qc_of_Z 3 / Qc_of_Z 2)) root.
