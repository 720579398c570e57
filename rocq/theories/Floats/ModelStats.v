(** Model of the statistics, Source/sequoia/Maths/Statistics/StatisticalAlgorithms.hpp, for data of a floating point type (C41 is about
    those of an exact field).  See Model.v for the format and the operations.  The type is not narrower than double, so that
    [dist - 1.5] has it as well. *)
From Coq Require Import ZArith List Bool SpecFloat.
Import ListNotations.

Section format.
  Context (prec emax : Z).

  Notation zero := (S754_zero false).
  Notation add := (SFadd prec emax).
  Notation sub := (SFsub prec emax).
  Notation mul := (SFmul prec emax).
  Notation div := (SFdiv prec emax).

  (** The conversion of an integer. *)
  Definition of_int (z : Z) : spec_float := binary_normalize prec emax z 0 false.

  (** [std::distance], converted. *)
  Definition dist (l : list spec_float) : Z := Z.of_nat (length l).

  (** L28: [std::accumulate(first, last, T{})]. *)
  Definition sum (l : list spec_float) : spec_float := fold_left add l zero.

  (** L21-L34. *)
  Definition mean (l : list spec_float) : option spec_float :=
    match l with
    | [] => None
    | _ => Some (div (sum l) (of_int (dist l)))
    end.

  (** L44-L50. *)
  Definition square_diffs (m : spec_float) (l : list spec_float) : spec_float :=
    fold_left (fun s x => add s (mul (sub x m) (sub x m))) l zero.

  (** L36-L55. *)
  Definition cummulative_square_diffs (l : list spec_float) : option (spec_float * spec_float) :=
    match mean l with
    | None => None
    | Some m => Some (square_diffs m l, m)
    end.

  (** L57-L70: the variance and the mean. *)
  Definition variance (l : list spec_float) : option (spec_float * spec_float) :=
    match cummulative_square_diffs l with
    | None => None
    | Some (sq, m) => Some (div sq (of_int (dist l)), m)
    end.

  (** L72-L91: the first is missing for one datum, both for none. *)
  Definition sample_variance (l : list spec_float) : option (option spec_float * spec_float) :=
    match cummulative_square_diffs l with
    | None => None
    | Some (sq, m) => Some (if (dist l =? 1)%Z then None else Some (div sq (of_int (dist l - 1))), m)
    end.

  (** L93-L106. *)
  Definition standard_deviation (l : list spec_float) : option (spec_float * spec_float) :=
    match variance l with
    | None => None
    | Some (v, m) => Some (SFsqrt prec emax v, m)
    end.

  (** L108-L136. *)
  Definition three_halves : spec_float := binary_normalize prec emax 3 (-1) false.
  Definition sample_standard_deviation (l : list spec_float) : option (option spec_float * spec_float) :=
    match cummulative_square_diffs l with
    | None => None
    | Some (sq, m) =>
        Some (if (dist l =? 1)%Z then None
              else Some (SFsqrt prec emax (div sq (sub (of_int (dist l)) three_halves))), m)
    end.
End format.
