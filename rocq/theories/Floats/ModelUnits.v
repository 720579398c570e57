(** Model of the conversions between units, Source/sequoia/Physics/PhysicalValues.hpp, for values of a floating point type (C59 and C60
    are about rational numbers).  See Model.v for the formats and the operations, ModelStats.v for the conversion of integers.
    Numerators and denominators are integers here, as they are for temperatures and lengths, but not for degrees. *)
From Coq Require Import ZArith List Bool SpecFloat.
From Verif.Floats Require Import ModelStats.
Import ListNotations.

(** The conversion of a floating point number to a type: the nearest number of the latter. *)
Definition cast (prec emax : Z) (x : spec_float) : spec_float :=
  match x with
  | S754_finite s m e => binary_normalize prec emax (if s then Zneg m else Zpos m) e s
  | _ => x
  end.

(** [v * num / den] *)
Definition scale (prec emax num den : Z) (v : spec_float) : spec_float :=
  SFdiv prec emax (SFmul prec emax v (of_int prec emax num)) (of_int prec emax den).

Section conversion.
  (** The type of the values, and that of the displacement: long double if it is not an integer, otherwise (and for vectors, L1555-L1560)
      that of the values. *)
  Context (prec emax Prec Emax : Z).

  (** L1571: [static_cast<value_type>((v * num / den) + to_displacement())] *)
  Definition convert (num den : Z) (disp v : spec_float) : spec_float :=
    cast prec emax (SFadd Prec Emax (cast Prec Emax (scale prec emax num den v)) disp).

  (** Spaces.hpp L741-L745: whether [interval_validator] with the given lower bound returns its argument rather than throwing ... *)
  Definition interval_accepts (lower v : spec_float) : bool := negb (SFltb v (cast prec emax lower)).
  (** ... and L715: [half_line_validator]. *)
  Definition half_line_accepts (v : spec_float) : bool := negb (SFltb v (S754_zero false)).
End conversion.

Section constants.
  Context (Prec Emax : Z).

  (** L1087: the displacement of a product of transformations. *)
  Definition product_disp (disp : spec_float) (num den : Z) (rhs : spec_float) : spec_float :=
    SFadd Prec Emax disp (scale Prec Emax num den rhs).

  (** L1076: that of the inverse. *)
  Definition inverse_disp (num den : Z) (disp : spec_float) : spec_float := SFopp (scale Prec Emax den num disp).

  (** A unit defined through another one, which may be so as well. *)
  Record link := Link { num : Z; den : Z; disp : spec_float }.

  (** L1138-L1146: the displacement with respect to the root, [first] being that of the unit defined through the root. *)
  Definition root_disp (first : spec_float) (units : list link) : spec_float :=
    fold_left (fun d k => product_disp (disp k) (num k) (den k) d) units first.

  (** L1034-L1058: the lower bound of the validator, if that of the root is the half line; the first is the displacement. *)
  Definition lower_bound (first : spec_float) (units : list link) : spec_float :=
    fold_left (fun l k => SFadd Prec Emax (scale Prec Emax (num k) (den k) l) (disp k)) units first.

  (** L1294, L1386: degrees Celsius and Fahrenheit. *)
  Definition celsius_disp : spec_float := SFdiv Prec Emax (of_int Prec Emax (-27315)) (of_int Prec Emax 100).
  Definition fahrenheit : link := Link 9 5 (of_int Prec Emax 32).
  Definition fahrenheit_disp : spec_float := root_disp celsius_disp [fahrenheit].
End constants.

(** Conversions of temperatures; the transformation of the kelvin is the identity. *)
Section temperatures.
  Context (prec emax Prec Emax : Z).
  Definition kelvin_to_celsius := convert prec emax Prec Emax 1 1 (product_disp Prec Emax (celsius_disp Prec Emax) 1 1 (S754_zero false)).
  Definition celsius_to_kelvin :=
    convert prec emax Prec Emax 1 1 (product_disp Prec Emax (S754_zero false) 1 1 (inverse_disp Prec Emax 1 1 (celsius_disp Prec Emax))).
  Definition kelvin_to_fahrenheit :=
    convert prec emax Prec Emax 9 5 (product_disp Prec Emax (fahrenheit_disp Prec Emax) 9 5 (S754_zero false)).
  Definition fahrenheit_to_kelvin :=
    convert prec emax Prec Emax 5 9 (product_disp Prec Emax (S754_zero false) 1 1 (inverse_disp Prec Emax 9 5 (fahrenheit_disp Prec Emax))).
End temperatures.
