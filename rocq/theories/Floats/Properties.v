(** Comparisons within a tolerance, inner products and norms of floating point numbers. *)
From Coq Require Import ZArith List Bool Reals SpecFloat Lia Lra.
From Verif.Floats Require Import Model Spec Proofs ProofsReal ProofsSum.
Import ListNotations.

(** An integer as a double. *)
Local Definition dbl (z : Z) : spec_float := binary_normalize 53 1024 z 0 false.

(** ** C107: within_tolerance *)
Theorem C107_symmetric (prec emax : Z) tol x y :
  within_tolerance prec emax tol x y = within_tolerance prec emax tol y x.
Proof. exact (within_symmetric prec emax tol x y). Qed.
Print Assumptions C107_symmetric.

Theorem C107_not_a_number (prec emax : Z) tol x y :
  x = S754_nan \/ y = S754_nan \/ tol = S754_nan -> within_tolerance prec emax tol x y = false.
Proof. exact (within_nan prec emax tol x y). Qed.
Print Assumptions C107_not_a_number.

(** An infinity is within an infinite tolerance only, and not of itself. *)
Theorem C107_infinity (prec emax : Z) tol s y : SFleb tol (S754_infinity false) = true ->
  within_tolerance prec emax tol (S754_infinity s) y = true ->
  tol = S754_infinity false /\ y <> S754_infinity s /\ y <> S754_nan.
Proof. exact (within_infinity prec emax tol s y). Qed.
Print Assumptions C107_infinity.

Example C107_infinity_example : SFleb (S754_infinity false) (S754_infinity false) = true /\
  within_tolerance 53 1024 (S754_infinity false) (S754_infinity true) (dbl 3) = true.
Proof. split; vm_compute; reflexivity. Qed.

Theorem C107_wider (prec emax : Z) t1 t2 x y : SFleb t1 t2 = true ->
  within_tolerance prec emax t1 x y = true -> within_tolerance prec emax t2 x y = true.
Proof. exact (within_wider prec emax t1 t2 x y). Qed.
Print Assumptions C107_wider.

Example C107_wider_example : SFleb (dbl 2) (dbl 3) = true /\ within_tolerance 53 1024 (dbl 2) (dbl 7) (dbl 5) = true.
Proof. split; vm_compute; reflexivity. Qed.

Theorem C107_same (prec emax : Z) tol x : finite x -> SFleb (S754_zero false) tol = true ->
  within_tolerance prec emax tol x x = true.
Proof. exact (within_same prec emax tol x). Qed.
Print Assumptions C107_same.

Example C107_same_example : finite (dbl 5) /\ SFleb (S754_zero false) (dbl 0) = true.
Proof. vm_compute. easy. Qed.

(** What is within the tolerance is accepted ... *)
Theorem C107_accepts (prec emax : Z) tol x y : (0 < prec)%Z -> (prec < emax)%Z ->
  number prec emax tol -> number prec emax x -> number prec emax y -> finite tol -> finite x -> finite y ->
  (Rabs (value x - value y) <= value tol)%R -> within_tolerance prec emax tol x y = true.
Proof. intros Hp He. exact (within_accepts prec emax Hp He tol x y). Qed.
Print Assumptions C107_accepts.

(** ... and what is accepted exceeds the tolerance by half a unit in the last place at most. *)
Theorem C107_bound (prec emax : Z) tol x y : (0 < prec)%Z -> (prec < emax)%Z ->
  number prec emax tol -> number prec emax x -> number prec emax y -> finite tol -> finite x -> finite y ->
  within_tolerance prec emax tol x y = true -> (Rabs (value x - value y) <= value tol * (1 + powerRZ 2 (- prec)))%R.
Proof. intros Hp He. exact (within_bound prec emax Hp He tol x y). Qed.
Print Assumptions C107_bound.

Lemma dbl_7 : value (dbl 7) = 7%R.
Proof. vm_compute dbl. rewrite value_ratio. cbn [Z.pow_pos Pos.iter]. cbn. lra. Qed.
Lemma dbl_5 : value (dbl 5) = 5%R.
Proof. vm_compute dbl. rewrite value_ratio. cbn. lra. Qed.
Lemma dbl_2 : value (dbl 2) = 2%R.
Proof. vm_compute dbl. rewrite value_ratio. cbn. lra. Qed.

Example C107_accepts_example :
  number 53 1024 (dbl 2) /\ number 53 1024 (dbl 7) /\ number 53 1024 (dbl 5) /\
  finite (dbl 2) /\ finite (dbl 7) /\ finite (dbl 5) /\
  (Rabs (value (dbl 7) - value (dbl 5)) <= value (dbl 2))%R /\
  within_tolerance 53 1024 (dbl 2) (dbl 7) (dbl 5) = true.
Proof.
  rewrite dbl_7, dbl_5, dbl_2. rewrite Rabs_pos_eq by lra.
  repeat match goal with |- _ /\ _ => split end; try (vm_compute; easy). lra.
Qed.

(** There is no error if neither number is more than twice the other. *)
Theorem C107_near (prec emax : Z) tol x y : (0 < prec)%Z -> (prec < emax)%Z ->
  number prec emax tol -> number prec emax x -> number prec emax y -> finite tol -> finite x -> finite y ->
  (value y / 2 <= value x <= 2 * value y)%R ->
  within_tolerance prec emax tol x y = true <-> (Rabs (value x - value y) <= value tol)%R.
Proof. intros Hp He. exact (within_near prec emax Hp He tol x y). Qed.
Print Assumptions C107_near.

Example C107_near_example : (value (dbl 5) / 2 <= value (dbl 7) <= 2 * value (dbl 5))%R.
Proof. rewrite dbl_7, dbl_5. lra. Qed.

(** Numbers may be accepted though they are not within the tolerance: 1 and -2^-60, with the tolerance 1. *)
Local Definition tiny : spec_float := S754_finite true 4503599627370496 (-112).
Theorem C107_exact_refuted : exists tol x y,
  number 53 1024 tol /\ number 53 1024 x /\ number 53 1024 y /\ finite tol /\ finite x /\ finite y /\
  within_tolerance 53 1024 tol x y = true /\ (value tol < Rabs (value x - value y))%R.
Proof.
  exists (dbl 1), (dbl 1), tiny.
  repeat match goal with |- _ /\ _ => split end; try (vm_compute; easy).
  vm_compute dbl. unfold tiny. rewrite !value_ratio. cbn. rewrite Rabs_pos_eq; lra.
Qed.
Print Assumptions C107_exact_refuted.

(** An infinity is not accepted for itself, whatever the tolerance. *)
Theorem C107_reflexive_refuted : exists x, x <> S754_nan /\
  forall tol, within_tolerance 53 1024 tol x x = false.
Proof. exists (S754_infinity false). split; [easy|]. intros tol. now destruct tol. Qed.
Print Assumptions C107_reflexive_refuted.

(** ** C108: inner products and norms *)
Theorem C108_symmetric (prec emax : Z) v w : inner_product prec emax v w = inner_product prec emax w v.
Proof. exact (product_symmetric prec emax v w). Qed.
Print Assumptions C108_symmetric.

Theorem C108_dot (prec emax : Z) v w : dot prec emax v w = inner_product prec emax v w.
Proof. reflexivity. Qed.
Print Assumptions C108_dot.

Theorem C108_product_opposite (prec emax : Z) v w :
  same_but_zero (inner_product prec emax (opposite v) w) (SFopp (inner_product prec emax v w)).
Proof. exact (product_opposite prec emax v w). Qed.
Print Assumptions C108_product_opposite.

Theorem C108_norm_opposite (prec emax : Z) v : norm prec emax (opposite v) = norm prec emax v.
Proof. exact (norm_opposite prec emax v). Qed.
Print Assumptions C108_norm_opposite.

Theorem C108_norm_difference (prec emax : Z) v w :
  norm prec emax (difference prec emax v w) = norm prec emax (difference prec emax w v).
Proof. exact (norm_difference prec emax v w). Qed.
Print Assumptions C108_norm_difference.

Theorem C108_norm_non_negative (prec emax : Z) v : ~ In S754_nan v -> non_negative (norm prec emax v).
Proof. exact (norm_non_negative prec emax v). Qed.
Print Assumptions C108_norm_non_negative.

Theorem C108_norm_nan (prec emax : Z) v : norm prec emax v = S754_nan <-> In S754_nan v.
Proof. exact (norm_nan prec emax v). Qed.
Print Assumptions C108_norm_nan.

Theorem C108_norm_one (prec emax : Z) x :
  value (norm prec emax [x]) = Rabs (value x) /\
  (norm prec emax [x] = S754_zero false <-> exists s, x = S754_zero s).
Proof. exact (conj (norm_one_value prec emax x) (norm_one prec emax x)). Qed.
Print Assumptions C108_norm_one.

(** [n] dimensions: a relative error of (1 + 2^-prec)^n - 1 of the sum of the absolute values, and an absolute error of at
    most half the least number for each product which is tiny. *)
Theorem C108_product_error (prec emax : Z) v w n : (0 < prec)%Z -> (prec < emax)%Z ->
  Forall (number prec emax) v -> Forall (number prec emax) w -> length v = S n -> length w = S n ->
  finite (inner_product prec emax v w) ->
  (Rabs (value (inner_product prec emax v w) - product_sum (map value v) (map value w)) <=
   ((1 + powerRZ 2 (- prec)) ^ S n - 1) *
     product_sum (map (fun x => Rabs (value x)) v) (map (fun x => Rabs (value x)) w)
   + INR (S n) * (1 + powerRZ 2 (- prec)) ^ n * powerRZ 2 (2 - emax - prec))%R.
Proof. intros Hp He. exact (product_error prec emax Hp He v w n). Qed.
Print Assumptions C108_product_error.

Example C108_product_error_example :
  Forall (number 53 1024) [dbl 8; dbl 5] /\ Forall (number 53 1024) [dbl 2; dbl 7] /\
  inner_product 53 1024 [dbl 8; dbl 5] [dbl 2; dbl 7] = dbl 51 /\ finite (dbl 51).
Proof. repeat match goal with |- _ /\ _ => split | |- Forall _ _ => constructor end; vm_compute; easy. Qed.

(** No error for integers, as long as the sum of the absolute values of the products is less than 2^prec. *)
Theorem C108_integers (prec emax : Z) v w (zv zw : list Z) : (0 < prec)%Z -> (prec < emax)%Z ->
  Forall (number prec emax) v -> Forall (number prec emax) w -> Forall finite v -> Forall finite w ->
  map value v = map IZR zv -> map value w = map IZR zw ->
  (fold_right Z.add 0 (map (fun z => Z.abs (fst z * snd z)) (combine zv zw)) < 2 ^ prec)%Z ->
  finite (inner_product prec emax v w) /\
  value (inner_product prec emax v w) = product_sum (map value v) (map value w).
Proof. intros Hp He. exact (product_integer prec emax Hp He v w zv zw). Qed.
Print Assumptions C108_integers.

Example C108_integers_example :
  map value [dbl 7; dbl 5] = map IZR [7; 5]%Z /\
  (fold_right Z.add 0 (map (fun z => Z.abs (fst z * snd z)) (combine [7; 5] [7; 5])) < 2 ^ 53)%Z.
Proof. split; [cbn [map]; now rewrite dbl_7, dbl_5|vm_compute; reflexivity]. Qed.

(** The norm is the square root of the inner product, up to a relative error of 2^-prec ... *)
Theorem C108_norm_sqrt (prec emax : Z) v : (0 < prec)%Z -> (prec < emax)%Z -> (1 < prec)%Z ->
  Forall (number prec emax) v -> length v <> 1 -> finite (inner_product prec emax v v) ->
  finite (norm prec emax v) /\
  (Rabs (value (norm prec emax v) - sqrt (value (inner_product prec emax v v)))
   <= powerRZ 2 (- prec) * sqrt (value (inner_product prec emax v v)))%R.
Proof. intros Hp He. exact (norm_sqrt prec emax Hp He v). Qed.
Print Assumptions C108_norm_sqrt.

(** ... and this is how far it is from the norm of real numbers. *)
Theorem C108_norm_error (prec emax : Z) v n : (0 < prec)%Z -> (prec < emax)%Z -> (1 < prec)%Z ->
  Forall (number prec emax) v -> length v = S (S n) -> finite (inner_product prec emax v v) ->
  let u := powerRZ 2 (- prec) in
  let s := product_sum (map value v) (map value v) in
  let k := ((1 + u) ^ S (S n))%R in
  let e := (INR (S (S n)) * (1 + u) ^ S n * powerRZ 2 (2 - emax - prec))%R in
  ((1 - u) * sqrt ((2 - k) * s - e) <= value (norm prec emax v) <= (1 + u) * sqrt (k * s + e))%R.
Proof. intros Hp He. exact (norm_error prec emax Hp He v n). Qed.
Print Assumptions C108_norm_error.

Example C108_norm_example : Forall (number 53 1024) [dbl 3; dbl 4] /\ norm 53 1024 [dbl 3; dbl 4] = dbl 5 /\
  inner_product 53 1024 [dbl 3; dbl 4] [dbl 3; dbl 4] = dbl 25 /\ finite (dbl 25).
Proof. repeat match goal with |- _ /\ _ => split | |- Forall _ _ => constructor end; vm_compute; easy. Qed.

(** The inequality of Cauchy and Schwarz: the inner product of (8, 5) and itself is greater than the square of its norm. *)
Theorem C108_cauchy_schwarz_refuted : exists v w, Forall (number 53 1024) v /\ Forall (number 53 1024) w /\
  length v = 2 /\ length w = 2 /\
  SFltb (SFmul 53 1024 (norm 53 1024 v) (norm 53 1024 w)) (inner_product 53 1024 v w) = true.
Proof.
  exists [dbl 8; dbl 5], [dbl 8; dbl 5].
  repeat match goal with |- _ /\ _ => split | |- Forall _ _ => constructor end; vm_compute; easy.
Qed.
Print Assumptions C108_cauchy_schwarz_refuted.

(** The triangle inequality. *)
Theorem C108_triangle_refuted : exists v w, Forall (number 53 1024) v /\ Forall (number 53 1024) w /\
  length v = 2 /\ length w = 2 /\
  SFltb (SFadd 53 1024 (norm 53 1024 v) (norm 53 1024 w))
        (norm 53 1024 (map (fun z => SFadd 53 1024 (fst z) (snd z)) (combine v w))) = true.
Proof.
  exists [dbl 3; dbl 3], [dbl 5; dbl 5].
  repeat match goal with |- _ /\ _ => split | |- Forall _ _ => constructor end; vm_compute; easy.
Qed.
Print Assumptions C108_triangle_refuted.

(** The norm of a multiple. *)
Theorem C108_homogeneous_refuted : exists a v, number 53 1024 a /\ Forall (number 53 1024) v /\ length v = 2 /\
  SFeqb (norm 53 1024 (map (SFmul 53 1024 a) v)) (SFmul 53 1024 (SFabs a) (norm 53 1024 v)) = false.
Proof.
  exists (dbl 6), [dbl 6; dbl 4].
  repeat match goal with |- _ /\ _ => split | |- Forall _ _ => constructor end; vm_compute; easy.
Qed.
Print Assumptions C108_homogeneous_refuted.

(** Vectors other than zero the norm of which is zero, since squares underflow, though the norm in one dimension is not ... *)
Theorem C108_definite_refuted : exists x, number 53 1024 x /\ x <> S754_zero false /\ x <> S754_zero true /\
  norm 53 1024 [x; S754_zero false] = S754_zero false /\ norm 53 1024 [x] = x.
Proof.
  exists (S754_finite false 4503599627370496 (-652)).
  repeat match goal with |- _ /\ _ => split end; vm_compute; easy.
Qed.
Print Assumptions C108_definite_refuted.

(** ... and finite vectors the norm of which is infinite, since squares overflow. *)
Theorem C108_finite_refuted : exists x, number 53 1024 x /\ finite x /\
  norm 53 1024 [x; S754_zero false] = S754_infinity false /\ norm 53 1024 [x] = x.
Proof.
  exists (S754_finite false 4503599627370496 548).
  repeat match goal with |- _ /\ _ => split end; vm_compute; easy.
Qed.
Print Assumptions C108_finite_refuted.
