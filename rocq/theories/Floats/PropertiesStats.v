(** Property C111: statistics of floating point numbers. *)
From Coq Require Import ZArith List Bool Reals SpecFloat Lra.
From Verif.Floats Require Import Model ModelStats Spec SpecStats ProofsSum ProofsStats ProofsStatsError.
Import ListNotations.

Local Notation dbl z := (of_int 53 1024 z).
Local Ltac facts := repeat match goal with |- _ /\ _ => split | |- Forall _ _ => constructor end.

(** There is a mean, a variance and a standard deviation unless there are no data, and there are those of a sample unless there are
    fewer than two data. *)
Theorem C111_too_few (prec emax : Z) l :
  (mean prec emax l = None <-> l = []) /\ (variance prec emax l = None <-> l = []) /\
  (standard_deviation prec emax l = None <-> l = []) /\
  (sample_variance prec emax l = None <-> l = []) /\ (sample_standard_deviation prec emax l = None <-> l = []) /\
  (forall m, sample_variance prec emax l = Some (None, m) <-> length l = 1 /\ mean prec emax l = Some m) /\
  (forall m, sample_standard_deviation prec emax l = Some (None, m) <-> length l = 1 /\ mean prec emax l = Some m).
Proof. exact (too_few prec emax l). Qed.
Print Assumptions C111_too_few.

Example C111_too_few_example : mean 53 1024 [] = None /\ sample_variance 53 1024 [dbl 3] = Some (None, dbl 3) /\
  exists v, sample_variance 53 1024 [dbl 3; dbl 5] = Some (Some v, dbl 4).
Proof. facts; [easy|vm_compute; reflexivity|]. eexists. vm_compute. reflexivity. Qed.

(** No statistic of finite data is NaN, and variances and deviations are not below zero. *)
Theorem C111_signs (prec emax : Z) l : (0 < prec)%Z -> (prec < emax)%Z ->
  Forall finite l -> (Z.of_nat (length l) < 2 ^ prec)%Z ->
  (forall m, mean prec emax l = Some m -> m <> S754_nan) /\
  (forall v m, variance prec emax l = Some (v, m) -> non_negative v /\ m <> S754_nan) /\
  (forall v m, standard_deviation prec emax l = Some (v, m) -> non_negative v /\ m <> S754_nan) /\
  (forall v m, sample_variance prec emax l = Some (Some v, m) -> non_negative v /\ m <> S754_nan) /\
  ((1 < prec)%Z -> forall v m, sample_standard_deviation prec emax l = Some (Some v, m) -> non_negative v /\ m <> S754_nan).
Proof. intros Hp He. exact (signs prec emax Hp He l). Qed.
Print Assumptions C111_signs.

Example C111_signs_example : Forall finite [dbl (-2); dbl 1; dbl 7] /\
  variance 53 1024 [dbl (-2); dbl 1; dbl 7] = Some (dbl 14, dbl 2).
Proof. facts; vm_compute; easy. Qed.

(** How far the mean is from that of real numbers. *)
Theorem C111_mean_error (prec emax : Z) l n m : (0 < prec)%Z -> (prec < emax)%Z ->
  Forall (number prec emax) l -> length l = S n -> (Z.of_nat (length l) < 2 ^ prec)%Z ->
  mean prec emax l = Some m -> finite m ->
  let u := powerRZ 2 (- prec) in
  (Rabs (value m - real_mean (map value l)) <=
   ((1 + u) ^ S n - 1) * real_mean (map (fun x => Rabs (value x)) l) + powerRZ 2 (2 - emax - prec))%R.
Proof. intros Hp He. exact (mean_error' prec emax Hp He l n m). Qed.
Print Assumptions C111_mean_error.

Example C111_mean_error_example : Forall (number 53 1024) [dbl 1; dbl 1; dbl 2] /\
  exists m, mean 53 1024 [dbl 1; dbl 1; dbl 2] = Some m /\ finite m.
Proof. facts; try (vm_compute; easy). eexists. split; [vm_compute; reflexivity|exact I]. Qed.

(** How far the sum of the squares of the differences from the mean is from that of real numbers. *)
Theorem C111_squares_error (prec emax : Z) l n sq m : (0 < prec)%Z -> (prec < emax)%Z ->
  Forall (number prec emax) l -> length l = S n -> (Z.of_nat (length l) < 2 ^ prec)%Z ->
  cummulative_square_diffs prec emax l = Some (sq, m) -> finite sq ->
  let u := powerRZ 2 (- prec) in
  let eta := powerRZ 2 (2 - emax - prec) in
  let mu := real_mean (map value l) in
  let delta := (((1 + u) ^ S n - 1) * real_mean (map (fun x => Rabs (value x)) l) + eta)%R in
  let s := (real_squares mu (map value l) + INR (S n) * (delta * delta))%R in
  (Rabs (value sq - real_squares mu (map value l))
   <= ((1 + u) ^ S (S (S n)) - 1) * s + INR (S n) * (delta * delta) + INR (S n) * (1 + u) ^ n * eta)%R.
Proof. intros Hp He. exact (cumulative_error prec emax Hp He l n sq m). Qed.
Print Assumptions C111_squares_error.

Example C111_squares_error_example : Forall (number 53 1024) [dbl 1; dbl 1; dbl 2] /\
  exists sq m, cummulative_square_diffs 53 1024 [dbl 1; dbl 1; dbl 2] = Some (sq, m) /\ finite sq /\ SFltb (S754_zero false) sq = true.
Proof. facts; try (vm_compute; easy). eexists _, _. split; [vm_compute; reflexivity|]. vm_compute. now split. Qed.

(** Variances and deviations follow from this sum with one rounding each: those of the data with [n], those of samples with [n - 1] and
    [n - 3/2]. *)
Theorem C111_one_rounding (prec emax : Z) l sq m : (0 < prec)%Z -> (prec < emax)%Z ->
  Forall (number prec emax) l -> (Z.of_nat (length l) < 2 ^ prec)%Z ->
  cummulative_square_diffs prec emax l = Some (sq, m) ->
  let u := powerRZ 2 (- prec) in
  let eta := powerRZ 2 (2 - emax - prec) in
  let n := INR (length l) in
  (exists v, variance prec emax l = Some (v, m) /\
     (finite v -> (Rabs (value v - value sq / n) <= u * Rabs (value sq / n) + eta)%R) /\
     ((1 < prec)%Z -> exists d, standard_deviation prec emax l = Some (d, m) /\
       (Forall finite l -> finite v -> finite d /\ (Rabs (value d - sqrt (value v)) <= u * sqrt (value v))%R))) /\
  (1 < length l ->
   (exists v, sample_variance prec emax l = Some (Some v, m) /\
     (finite v -> (Rabs (value v - value sq / (n - 1)) <= u * Rabs (value sq / (n - 1)) + eta)%R)) /\
   ((1 < prec)%Z -> (2 * Z.of_nat (length l) < 2 ^ prec)%Z ->
    exists d, sample_standard_deviation prec emax l = Some (Some d, m) /\
     (Forall finite l -> finite d ->
      exists r : R, (Rabs (r - value sq / (n - 3 / 2)) <= u * Rabs (value sq / (n - 3 / 2)) + eta)%R /\
        (Rabs (value d - sqrt r) <= u * sqrt r)%R))).
Proof. intros Hp He. exact (one_rounding prec emax Hp He l sq m). Qed.
Print Assumptions C111_one_rounding.

Example C111_one_rounding_example :
  let l := [dbl 1; dbl 1; dbl 4; dbl 4] in
  exists sq m v d w e, cummulative_square_diffs 53 1024 l = Some (sq, m) /\ variance 53 1024 l = Some (v, m) /\
    standard_deviation 53 1024 l = Some (d, m) /\ sample_variance 53 1024 l = Some (Some w, m) /\
    sample_standard_deviation 53 1024 l = Some (Some e, m) /\ finite v /\ finite d /\ finite w /\ finite e.
Proof. eexists _, _, _, _, _, _. facts; try (vm_compute; reflexivity); vm_compute; exact I. Qed.

(** Integers the mean of which is an integer: the mean and the sum of the squares of the differences from it are exact, as long as no sum
    exceeds 2^prec, and so are the variances that are integers. *)
Theorem C111_integers (prec emax : Z) l (zs : list Z) q : (0 < prec)%Z -> (prec < emax)%Z ->
  Forall (number prec emax) l -> Forall finite l -> map value l = map IZR zs ->
  let n := Z.of_nat (length l) in
  let squares := fold_right Z.add 0%Z (map (fun z => (z - q) * (z - q))%Z zs) in
  l <> [] -> (n < 2 ^ prec)%Z -> (fold_right Z.add 0 (map Z.abs zs) < 2 ^ prec)%Z -> (squares < 2 ^ prec)%Z ->
  fold_right Z.add 0%Z zs = (q * n)%Z ->
  exists m sq, mean prec emax l = Some m /\ finite m /\ value m = IZR q /\
    cummulative_square_diffs prec emax l = Some (sq, m) /\ finite sq /\ value sq = IZR squares /\
    (forall v, squares = (v * n)%Z -> exists w, variance prec emax l = Some (w, m) /\ finite w /\ value w = IZR v) /\
    (forall v, (1 < n)%Z -> squares = (v * (n - 1))%Z ->
       exists w, sample_variance prec emax l = Some (Some w, m) /\ finite w /\ value w = IZR v).
Proof. intros Hp He. exact (integers prec emax Hp He l zs q). Qed.
Print Assumptions C111_integers.

Example C111_integers_example :
  map value [dbl 7; dbl 3; dbl 3; dbl 3] = map IZR [7; 3; 3; 3]%Z /\
  mean 53 1024 [dbl 7; dbl 3; dbl 3; dbl 3] = Some (dbl 4) /\
  variance 53 1024 [dbl 7; dbl 3; dbl 3; dbl 3] = Some (dbl 3, dbl 4) /\
  sample_variance 53 1024 [dbl 7; dbl 3; dbl 3; dbl 3] = Some (Some (dbl 4), dbl 4).
Proof.
  facts; try (vm_compute; reflexivity).
  assert (H : forall z, (0 < z < 2 ^ 53)%Z -> value (dbl z) = IZR z) by exact of_int_value. cbn [map].
  rewrite !H by (split; reflexivity). reflexivity.
Qed.

(** One datum is its own mean, and its variance is zero. *)
Theorem C111_single (prec emax : Z) x : (0 < prec)%Z -> (prec < emax)%Z -> number prec emax x -> finite x ->
  exists m v, mean prec emax [x] = Some m /\ finite m /\ value m = value x /\
    variance prec emax [x] = Some (v, m) /\ finite v /\ value v = 0%R.
Proof. intros Hp He. exact (single prec emax Hp He x). Qed.
Print Assumptions C111_single.

Example C111_single_example : number 53 1024 (S754_finite false 7205759403792794 (-56)) /\
  finite (S754_finite false 7205759403792794 (-56)).
Proof. now vm_compute. Qed.

(** The mean lies between the least and the greatest datum, and the variance of equal data is zero: the mean of three tenths is greater than
    each of them. *)
Theorem C111_constant_refuted : exists x m v, number 53 1024 x /\ finite x /\
  variance 53 1024 [x; x; x] = Some (v, m) /\ SFltb x m = true /\ SFltb (S754_zero false) v = true.
Proof. eexists (S754_finite false 7205759403792794 (-56)), _, _. facts; vm_compute; reflexivity || easy. Qed.
Print Assumptions C111_constant_refuted.

(** The mean does not depend on the order of the data. *)
Theorem C111_order_refuted : exists x y m n, number 53 1024 x /\ number 53 1024 y /\
  mean 53 1024 [x; y; y] = Some m /\ mean 53 1024 [y; y; x] = Some n /\ SFltb m n = true.
Proof. eexists (dbl (2 ^ 53)), (dbl 1), _, _. facts; vm_compute; reflexivity || easy. Qed.
Print Assumptions C111_order_refuted.

(** The variance does not change if the same number is added to all data. *)
Theorem C111_translation_refuted : exists x l v w m n, number 53 1024 x /\ Forall (number 53 1024) l /\
  variance 53 1024 l = Some (v, m) /\ variance 53 1024 (map (SFadd 53 1024 x) l) = Some (w, n) /\
  SFltb w v = true /\ SFeqb w (S754_zero false) = true.
Proof.
  eexists (dbl (2 ^ 53)), [dbl 0; dbl 1], _, _, _, _. facts; vm_compute; reflexivity || easy.
Qed.
Print Assumptions C111_translation_refuted.

(** The mean of finite data is finite ... *)
Theorem C111_overflow_refuted : exists x, number 53 1024 x /\ finite x /\
  variance 53 1024 [x; x] = Some (S754_infinity false, S754_infinity false).
Proof. exists (S754_finite false 9007199254740991 971). facts; vm_compute; reflexivity || easy. Qed.
Print Assumptions C111_overflow_refuted.

(** ... and the variance of different data is not zero. *)
Theorem C111_underflow_refuted : exists x y m, number 53 1024 x /\ number 53 1024 y /\ SFltb x y = true /\
  variance 53 1024 [x; y] = Some (S754_zero false, m).
Proof.
  eexists (S754_zero false), (S754_finite false 4503599627370496 (-652)), _. facts; vm_compute; reflexivity || easy.
Qed.
Print Assumptions C111_underflow_refuted.
