(** Model of what the library computes with floating point numbers: the comparison within_tolerance,
    Source/sequoia/TestFramework/BinaryRelationships.hpp L57-L80, and the inner product and the norm of euclidean vector
    spaces, Source/sequoia/Maths/Geometry/Spaces.hpp L1712-L1750.

    A floating point type is an IEEE 754 binary format: [prec] bits of mantissa and exponents below [emax]: 24 and 128 for
    float, 53 and 1024 for double.  Numbers and operations are those of the standard library of Coq (SpecFloat); there is
    only one NaN.  Operations round to nearest, ties to even.  Simplifications: each operation rounds to the format, so that
    neither excess precision nor the contraction of [f + x * y] into one operation is modelled. *)
From Coq Require Import ZArith List Bool SpecFloat.
Import ListNotations.

Section format.
  Context (prec emax : Z).

  Notation add := (SFadd prec emax).
  Notation sub := (SFsub prec emax).
  Notation mul := (SFmul prec emax).
  Notation sqrt := (SFsqrt prec emax).

  (** BinaryRelationships.hpp L75: [abs(obtained - prediction) <= m_Tol]. *)
  Definition within_tolerance (tol obtained prediction : spec_float) : bool :=
    SFleb (SFabs (sub obtained prediction)) tol.

  (** Spaces.hpp L1726: the fold of [f + get<0>(z) * get<1>(z)] over the pairs of values, from [field_type{}]; the lists have
      as many elements as the space has dimensions. *)
  Definition inner_product (v w : list spec_float) : spec_float :=
    fold_left (fun f z => add f (mul (fst z) (snd z))) (combine v w) (S754_zero false).

  (** L1732-L1735. *)
  Definition dot (v w : list spec_float) : spec_float := inner_product v w.

  (** L1740-L1750: [std::abs] in one dimension. *)
  Definition norm (v : list spec_float) : spec_float :=
    match v with
    | [x] => SFabs x
    | _ => sqrt (inner_product v v)
    end.

  (** The unary minus, L1334-L1337, and the difference, L1344-L1349, of coordinates: elementwise (C65). *)
  Definition opposite (v : list spec_float) : list spec_float := map SFopp v.
  Definition difference (v w : list spec_float) : list spec_float := map (fun z => sub (fst z) (snd z)) (combine v w).
End format.
