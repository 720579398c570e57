(** C59, C60: conversions between physical units. *)
From Coq Require Import ZArith QArith Bool List.
From Verif.Base Require Import Outcome.
From Verif.Units Require Import Model Spec Proofs ProofsTop.
Import ListNotations.
Local Open Scope Q_scope.

(** ** C59 *)
(** A conversion between units of the same root compiles, and a converted value denotes, in terms of
    the root unit, what the original did. *)
Theorem C59_conversion_exact from to v1 v2 v :
  proper from -> proper to -> root_unit from = root_unit to ->
  validator_of from = Some v1 -> validator_of to = Some v2 ->
  (forall r, convert_to false from to v = Some (Ok r) -> in_root to r == in_root from v) /\
  ((exists r, convert_to false from to v = Some (Ok r)) \/ convert_to false from to v = Some (Throw DomainError)).
Proof. exact (conversion_top from to v1 v2 v). Qed.
Print Assumptions C59_conversion_exact.

Example C59_conversion_exact_ex :
  proper fahrenheit /\ proper kelvin /\ root_unit fahrenheit = root_unit kelvin /\
  validator_of kelvin = Some VHalfLine /\
  match convert_to false kelvin fahrenheit (37315 # 100) with Some (Ok r) => Qeq_bool r 212 | _ => false end = true /\
  match convert_to false fahrenheit kelvin (-40) with Some (Ok r) => Qeq_bool r (23315 # 100) | _ => false end = true /\
  convert_to false fahrenheit kelvin (-1000) = Some (Throw DomainError).
Proof. repeat split; try (intros E; vm_compute in E; discriminate E). Qed.

(** Differences of values are converted to the differences of the converted values. *)
Theorem C59_differences_exact from to v1 v2 a b :
  proper from -> proper to -> root_unit from = root_unit to ->
  validator_of from = Some v1 -> validator_of to = Some v2 ->
  exists r, convert_to true from to (a - b) = Some (Ok r) /\
    diff_in_root to r == in_root from a - in_root from b /\
    forall a' b', convert_to false from to a = Some (Ok a') -> convert_to false from to b = Some (Ok b') ->
      r == a' - b'.
Proof. exact (differences_top from to v1 v2 a b). Qed.
Print Assumptions C59_differences_exact.

Example C59_differences_exact_ex :
  match convert_to true celsius fahrenheit (10 - 30) with Some (Ok r) => Qeq_bool r (-36) | _ => false end = true /\
  match convert_to true fahrenheit kelvin (-900) with Some (Ok r) => Qeq_bool r (-500) | _ => false end = true.
Proof. vm_compute. split; reflexivity. Qed.

(** Converting there and back changes nothing, and converting by way of a third unit makes no
    difference. *)
Theorem C59_round_trip u1 u2 v1 v2 v r s :
  proper u1 -> proper u2 -> root_unit u1 = root_unit u2 ->
  validator_of u1 = Some v1 -> validator_of u2 = Some v2 ->
  convert_to false u1 u2 v = Some (Ok r) -> convert_to false u2 u1 r = Some (Ok s) -> s == v.
Proof. exact (round_trip_top u1 u2 v1 v2 v r s). Qed.
Print Assumptions C59_round_trip.

Theorem C59_via_third u1 u2 u3 v1 v2 v3 v r s s' :
  proper u1 -> proper u2 -> proper u3 -> root_unit u1 = root_unit u2 -> root_unit u2 = root_unit u3 ->
  validator_of u1 = Some v1 -> validator_of u2 = Some v2 -> validator_of u3 = Some v3 ->
  convert_to false u1 u2 v = Some (Ok r) -> convert_to false u2 u3 r = Some (Ok s) ->
  convert_to false u1 u3 v = Some (Ok s') -> s == s'.
Proof. exact (via_third_top u1 u2 u3 v1 v2 v3 v r s s'). Qed.
Print Assumptions C59_via_third.

Example C59_round_trip_ex :
  match convert_to false fahrenheit celsius 50 with
  | Some (Ok r) => Qeq_bool r 10 &&
    match convert_to false celsius fahrenheit r with Some (Ok s) => Qeq_bool s 50 | _ => false end
  | _ => false
  end = true.
Proof. vm_compute. reflexivity. Qed.

(** The units of the library denote what their names say. *)
Theorem C59_library_units pi v :
  ~ pi == 0 ->
  in_root celsius v == v + (27315 # 100) /\
  in_root fahrenheit v == (v - 32) * (5 # 9) + (27315 # 100) /\
  in_root foot v == v * (3048 # 10000) /\
  in_root gram v == v * (1 # 1000) /\ in_root milligram v == v * (1 # 1000000) /\
  in_root tonne v == v * 1000 /\ in_root kilotonne v == v * 1000000 /\
  in_root (degree pi) 180 == pi /\ in_root (gradian pi) 200 == pi /\
  Forall proper [celsius; fahrenheit; foot; gram; milligram; tonne; kilotonne; degree pi; gradian pi].
Proof. exact (library_units_top pi v). Qed.
Print Assumptions C59_library_units.

(** A product of two units each of which is a multiple of its root. *)
Theorem C59_product_of_two_partial a b a' b' v :
  proper a -> proper b -> proper a' -> proper b' -> scaling a -> scaling b -> scaling a' -> scaling b' ->
  root_unit a = root_unit a' -> root_unit b = root_unit b' ->
  exists r, convert_composite [a; b] [a'; b'] v = Some r /\
    product_in_root [a'; b'] r == product_in_root [a; b] v.
Proof. exact (fun Ha Hb Ha' Hb' Sa Sb Sa' Sb' E1 E2 =>
  convert_composite_spec a b a' b' Ha Hb Ha' Hb' Sa Sb Sa' Sb' E1 E2 v). Qed.
Print Assumptions C59_product_of_two_partial.

Example C59_product_of_two_ex :
  match convert_composite [gram; foot] [kilogram; metre] 5000 with
  | Some r => Qeq_bool r (1524 # 1000) | None => false end = true.
Proof. vm_compute. reflexivity. Qed.

(** A product of three units cannot be converted: the member is called [tpye] (L971). *)
Theorem C59_product_of_three_refuted :
  exists us us', Forall proper us /\ Forall proper us' /\ Forall scaling us /\ Forall scaling us' /\
    map root_unit us = map root_unit us' /\ forall v, convert_composite us us' v = None.
Proof. exact product_of_three_top. Qed.
Print Assumptions C59_product_of_three_refuted.

(** With integral displacements the divisions at L1076 and L1087 truncate: a value which stands for -2
    of the root unit becomes one which stands for 0. *)
Theorem C59_integral_displacement_refuted :
  exists from to v r,
    root_unit from = root_unit to /\
    convert_to false from to v = Some (Ok r) /\ ~ in_root to r == in_root from v.
Proof. exact integral_displacement_top. Qed.
Print Assumptions C59_integral_displacement_refuted.

(** ** C60 *)
(** If the ratios are positive and no validator is replaced, conversion of a value accepted by the
    validator of its unit does not throw, and that of any other does. *)
Theorem C60_conversion_valid from to v1 v2 v :
  proper from -> proper to -> increasing from -> increasing to -> synthesised from -> synthesised to ->
  root_unit from = root_unit to -> root_validator from <> VInterval MInf PInf ->
  validator_of from = Some v1 -> validator_of to = Some v2 ->
  (accepts v1 v = true -> exists r, convert_to false from to v = Some (Ok r)) /\
  (accepts v1 v = false -> convert_to false from to v = Some (Throw DomainError)).
Proof. exact (fun Hf Ht If It Sf St Er Hn E1 E2 => convert_valid from to v1 v2 Hf Ht If It Sf St Er Hn E1 E2 v). Qed.
Print Assumptions C60_conversion_valid.

(** The validator of a unit accepts what the validator of the root accepts. *)
Theorem C60_synthesised_validator u v q :
  proper u -> increasing u -> synthesised u -> root_validator u <> VInterval MInf PInf ->
  validator_of u = Some v -> accepts v q = accepts (root_validator u) (in_root u q).
Proof. exact (fun Hp Hi Hs Hr E => proj1 (validator_accepts u v Hp Hi Hs Hr E) q). Qed.
Print Assumptions C60_synthesised_validator.

Example C60_conversion_valid_ex :
  increasing celsius /\ increasing fahrenheit /\ synthesised fahrenheit /\
  root_validator fahrenheit = VHalfLine /\
  match validator_of fahrenheit with
  | Some (VInterval (Fin l) PInf) => Qeq_bool l (-45967 # 100)
  | _ => false
  end = true.
Proof. repeat split; reflexivity. Qed.

(** The prefixes replace the validator by that of the unit they are applied to, also if it is not
    invariant under scaling (L1212, L1219, L1226, L1233): -1 degree is refused as -1000 milli degrees. *)
Theorem C60_prefix_refuted :
  exists v v1, proper celsius /\ increasing (milli celsius) /\ validator_of celsius = Some v1 /\ accepts v1 v = true /\
    convert_to false celsius (milli celsius) v = Some (Throw DomainError).
Proof. exact prefix_top. Qed.
Print Assumptions C60_prefix_refuted.

(** And -200 kilo degrees are accepted. *)
Theorem C60_prefix_accepts_refuted :
  exists v v1, validator_of (kilo celsius) = Some v1 /\ accepts v1 v = true /\
    accepts (root_validator (kilo celsius)) (in_root (kilo celsius) v) = false.
Proof. exact prefix_accepts_top. Qed.
Print Assumptions C60_prefix_accepts_refuted.

(** With a negative ratio the half line is still taken to be invariant (L941-942). *)
Theorem C60_negative_ratio_refuted :
  exists u v, proper u /\ synthesised u /\ validator_of u <> None /\
    accepts VHalfLine v = true /\ root_validator u = VHalfLine /\
    convert_to false (root_unit u) u v = Some (Throw DomainError).
Proof. exact negative_ratio_top. Qed.
Print Assumptions C60_negative_ratio_refuted.

(** An interval without bounds is taken for a half line after a displacement (L1038). *)
Theorem C60_unbounded_interval_refuted :
  exists u v, proper u /\ increasing u /\ synthesised u /\ validator_of u <> None /\
    root_validator u = VInterval MInf PInf /\
    convert_to false (root_unit u) u v = Some (Throw DomainError).
Proof. exact unbounded_interval_top. Qed.
Print Assumptions C60_unbounded_interval_refuted.

(** With a negative ratio an interval (other than those of the previous theorems) is not turned round,
    and the unit does not compile: its bounds are out of order. *)
Theorem C60_negative_ratio_interval l u t :
  bound_lt l u = true -> scale_invariant (VInterval l u) = false ->
  to_q (num t) / to_q (den t) < 0 -> synthesised_validator (VInterval l u) t = None.
Proof. exact (negative_interval l u t). Qed.
Print Assumptions C60_negative_ratio_interval.
Example C60_negative_ratio_interval_ex :
  bound_lt (Fin 1) PInf = true /\ scale_invariant (VInterval (Fin 1) PInf) = false /\
  synthesised_validator (VInterval (Fin 1) PInf) (Transform (I (-1)) (I 1) (I 0)) = None.
Proof. repeat split. Qed.
