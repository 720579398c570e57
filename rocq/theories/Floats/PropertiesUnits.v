(** Property C112: conversions of units in floating point. *)
From Coq Require Import ZArith List Bool Reals SpecFloat Lia.
From Verif.Floats Require Import Model ModelStats ModelUnits Spec ProofsUnits.
Import ListNotations.

Local Notation kelvin0 := (S754_zero false).
(** 0.1 in double *)
Local Notation tenth := (S754_finite false 7205759403792794 (-56)).

(** Conversions by a positive ratio keep the order of values, infinite ones included. *)
Theorem C112_monotone (prec emax Prec Emax : Z) num den d v w :
  (0 < prec)%Z -> (prec < emax)%Z -> (0 < Prec)%Z -> (Prec < Emax)%Z ->
  (0 < num < 2 ^ prec)%Z -> (0 < den < 2 ^ prec)%Z -> number Prec Emax d -> finite d ->
  number prec emax v -> number prec emax w -> SFleb v w = true ->
  SFleb (convert prec emax Prec Emax num den d v) (convert prec emax Prec Emax num den d w) = true.
Proof. intros Hp He HP HE. exact (convert_mono prec emax Prec Emax Hp He HP HE num den d v w). Qed.
Print Assumptions C112_monotone.

Example C112_monotone_example : SFleb kelvin0 tenth = true /\
  SFltb (kelvin_to_celsius 53 1024 64 16384 kelvin0) (kelvin_to_celsius 53 1024 64 16384 tenth) = true /\
  number 64 16384 (celsius_disp 64 16384) /\ finite (celsius_disp 64 16384).
Proof. now vm_compute. Qed.

(** Valid values in the unit at the root, which are those that are not negative, are valid in each unit defined through it, directly or
    not. *)
Theorem C112_from_root (prec emax Prec Emax : Z) num den first units v :
  (0 < prec)%Z -> (prec < emax)%Z -> (0 < Prec)%Z -> (Prec < Emax)%Z ->
  (0 < num < 2 ^ prec)%Z -> (0 < den < 2 ^ prec)%Z ->
  let d := root_disp Prec Emax first units in
  number Prec Emax d -> finite d -> number prec emax v -> SFleb kelvin0 v = true ->
  interval_accepts prec emax (lower_bound Prec Emax first units) (convert prec emax Prec Emax num den d v) = true.
Proof. intros Hp He HP HE. exact (from_root prec emax Prec Emax Hp He HP HE num den first units v). Qed.
Print Assumptions C112_from_root.

Example C112_from_root_example :
  let d := root_disp 64 16384 (celsius_disp 64 16384) [fahrenheit 64 16384] in
  number 64 16384 d /\ finite d /\ kelvin_to_fahrenheit 53 1024 64 16384 kelvin0 = convert 53 1024 64 16384 9 5 d kelvin0 /\
  interval_accepts 53 1024 d (convert 53 1024 64 16384 9 5 d (S754_finite true 1 (-3))) = false.
Proof. vm_compute. repeat split. Qed.

(** How far a converted value is from the exact one: [q] is the scaled value, the displacement is added to it. *)
Theorem C112_error (prec emax Prec Emax : Z) num den d v :
  (0 < prec)%Z -> (prec < emax)%Z -> (0 < Prec)%Z -> (Prec < Emax)%Z -> (prec <= Prec)%Z -> (emax <= Emax)%Z ->
  (0 < num < 2 ^ prec)%Z -> (0 < den < 2 ^ prec)%Z -> number Prec Emax d -> finite d -> number prec emax v -> finite v ->
  finite (convert prec emax Prec Emax num den d v) ->
  let u := powerRZ 2 (- prec) in
  let eta := powerRZ 2 (2 - emax - prec) in
  exists q : R,
    (Rabs (q - value v * IZR num / IZR den) <= ((1 + u) * (1 + u) - 1) * Rabs (value v * IZR num / IZR den) + (2 + u) * eta)%R /\
    (Rabs (value (convert prec emax Prec Emax num den d v) - (q + value d))
     <= ((1 + u) * (1 + powerRZ 2 (- Prec)) - 1) * Rabs (q + value d) + eta)%R.
Proof. intros Hp He HP HE. exact (convert_error prec emax Prec Emax Hp He HP HE num den d v). Qed.
Print Assumptions C112_error.

Example C112_error_example : number 53 1024 tenth /\ finite (kelvin_to_fahrenheit 53 1024 64 16384 tenth) /\
  finite (kelvin_to_fahrenheit 24 128 64 16384 kelvin0).
Proof. now vm_compute. Qed.

(** Conversions with ratio one and displacement zero change nothing. *)
Theorem C112_identity (prec emax Prec Emax : Z) v s :
  (0 < prec)%Z -> (prec < emax)%Z -> (0 < Prec)%Z -> (Prec < Emax)%Z -> (prec <= Prec)%Z -> (emax <= Emax)%Z ->
  number prec emax v -> finite v ->
  finite (convert prec emax Prec Emax 1 1 (S754_zero s) v) /\
  value (convert prec emax Prec Emax 1 1 (S754_zero s) v) = value v.
Proof. intros Hp He HP HE. exact (convert_identity prec emax Prec Emax Hp He HP HE v s). Qed.
Print Assumptions C112_identity.

Example C112_identity_example : number 53 1024 tenth /\ finite tenth /\
  convert 53 1024 64 16384 1 1 (S754_zero true) tenth = tenth.
Proof. now vm_compute. Qed.

(** Converting a valid value never throws: 0 K in float is converted to degrees Fahrenheit, but not back, whether long double has 53, 64
    or 113 bits. *)
Theorem C112_valid_refuted : forall Prec Emax, In (Prec, Emax) [(53, 1024); (64, 16384); (113, 16384)]%Z ->
  exists f, kelvin_to_fahrenheit 24 128 Prec Emax kelvin0 = f /\ number 24 128 f /\
    interval_accepts 24 128 (lower_bound Prec Emax (celsius_disp Prec Emax) [fahrenheit Prec Emax]) f = true /\
    half_line_accepts (fahrenheit_to_kelvin 24 128 Prec Emax f) = false.
Proof.
  intros P E [[= <- <-]|[[= <- <-]|[[= <- <-]|[]]]]; (eexists; split; [vm_compute; reflexivity|]); vm_compute; repeat split.
Qed.
Print Assumptions C112_valid_refuted.

(** Converting a value and converting it back gives this value: 0.7 degrees Celsius are not the same thereafter. *)
Theorem C112_round_trip_refuted : forall Prec Emax, In (Prec, Emax) [(53, 1024); (64, 16384); (113, 16384)]%Z ->
  exists v, number 53 1024 v /\ finite v /\ half_line_accepts (celsius_to_kelvin 53 1024 Prec Emax v) = true /\
    SFeqb (kelvin_to_celsius 53 1024 Prec Emax (celsius_to_kelvin 53 1024 Prec Emax v)) v = false.
Proof.
  intros P E [[= <- <-]|[[= <- <-]|[[= <- <-]|[]]]]; exists (S754_finite false 6305039478318694 (-53)); vm_compute; repeat split.
Qed.
Print Assumptions C112_round_trip_refuted.
