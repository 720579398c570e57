(** How far the computed inner product and norm are from those of real numbers. *)
From Coq Require Import ZArith List Bool Reals SpecFloat Lia Lra Psatz.
From Flocq Require Import Core BinarySingleNaN Plus_error Sterbenz Relative Div_sqrt_error.
From Verif.Floats Require Import Model Spec Proofs ProofsReal.
Import ListNotations.

Section format.
  Context (prec emax : Z) (Hp : (0 < prec)%Z) (He : (prec < emax)%Z).

  Local Instance prec_pos : Prec_gt_0 prec := Hp.
  Local Instance prec_emax : Prec_lt_emax prec emax := He.

  Notation bin := (binary_float prec emax).
  Notation fexp := (SpecFloat.fexp prec emax).
  Notation rnd := (round radix2 fexp ZnearestE).
  Notation u := (powerRZ 2 (- prec)).
  Notation eta := (powerRZ 2 (2 - emax - prec)).

  Lemma u_eq : (/ 2 * bpow radix2 (- prec + 1))%R = u.
  Proof. rewrite bpow_plus, bpow_powerRZ. cbn. lra. Qed.

  Lemma u_pos : (0 < u)%R.
  Proof. apply powerRZ_lt. lra. Qed.

  Lemma eta_eq : (/ 2 * bpow radix2 (SpecFloat.emin prec emax))%R = eta.
  Proof.
    unfold SpecFloat.emin. replace (3 - emax - prec)%Z with (2 - emax - prec + 1)%Z by lia.
    rewrite bpow_plus, bpow_powerRZ. cbn. lra.
  Qed.

  Lemma eta_pos : (0 < eta)%R.
  Proof. apply powerRZ_lt. lra. Qed.

  (** A finite product is the real product up to a relative error, or up to an absolute one if it is tiny. *)
  Lemma mul_error (x y : bin) : is_finite x = true -> is_finite y = true -> is_finite (Bmult mode_NE x y) = true ->
    (Rabs (B2R (Bmult mode_NE x y) - B2R x * B2R y) <= u * Rabs (B2R x * B2R y) + eta)%R.
  Proof.
    intros Fx Fy F. pose proof (Bmult_correct prec emax _ _ mode_NE x y) as C. cbn [round_mode] in C.
    destruct (Rlt_bool _ _).
    2:{ rewrite <- is_finite_SF_B2SF, C in F. discriminate. }
    destruct C as (-> & _ & _).
    destruct (error_N_FLT radix2 (SpecFloat.emin prec emax) prec Hp (fun n => negb (Z.even n)) (B2R x * B2R y))
      as (e & h & E & H & _ & K).
    change (round radix2 (FLT_exp (SpecFloat.emin prec emax) prec) _ (B2R x * B2R y)) with (rnd (B2R x * B2R y)) in K.
    rewrite K. rewrite u_eq in E. rewrite eta_eq in H.
    replace (B2R x * B2R y * (1 + e) + h - B2R x * B2R y)%R with (e * (B2R x * B2R y) + h)%R by ring.
    eapply Rle_trans; [apply Rabs_triang|]. rewrite Rabs_mult.
    apply Rplus_le_compat; [|exact H]. apply Rmult_le_compat_r; [apply Rabs_pos|exact E].
  Qed.

  Lemma add_error (x y : bin) : is_finite x = true -> is_finite y = true -> is_finite (Bplus mode_NE x y) = true ->
    (Rabs (B2R (Bplus mode_NE x y) - (B2R x + B2R y)) <= u * Rabs (B2R x + B2R y))%R.
  Proof.
    intros Fx Fy F. pose proof (Bplus_correct prec emax _ _ mode_NE x y Fx Fy) as C. cbn [round_mode] in C.
    destruct (Rlt_bool _ _).
    2:{ destruct C as [C _]. rewrite <- is_finite_SF_B2SF, C in F. discriminate. }
    destruct C as (-> & _ & _).
    destruct (FLT_plus_error_N_ex radix2 (SpecFloat.emin prec emax) prec (fun n => negb (Z.even n)) (B2R x) (B2R y))
      as (e & E & K); [apply generic_format_B2R..|].
    change (round radix2 (FLT_exp (SpecFloat.emin prec emax) prec) _ (B2R x + B2R y)) with (rnd (B2R x + B2R y)) in K.
    rewrite K. replace ((B2R x + B2R y) * (1 + e) - (B2R x + B2R y))%R with (e * (B2R x + B2R y))%R by ring.
    rewrite Rabs_mult. apply Rmult_le_compat_r; [apply Rabs_pos|].
    eapply Rle_trans; [exact E|]. unfold u_ro. rewrite u_eq. pose proof u_pos.
    apply Rmult_le_reg_r with (1 + u)%R; [lra|]. unfold Rdiv. rewrite Rmult_assoc, Rinv_l by lra. nra.
  Qed.

  (** What follows a sum which is not finite is not finite. *)
  Lemma add_finite (x y : bin) : is_finite (Bplus mode_NE x y) = true -> is_finite x = true /\ is_finite y = true.
  Proof. destruct x as [| | |], y as [| | |]; cbn; try easy. now destruct (Bool.eqb _ _). Qed.

  Lemma mul_finite (x y : bin) : is_finite (Bmult mode_NE x y) = true -> is_finite x = true /\ is_finite y = true.
  Proof. now destruct x as [| | |], y as [| | |]. Qed.

  (** The sum over pairs, from [f]. *)
  Definition bsum (l : list (bin * bin)) (f : bin) : bin :=
    fold_left (fun f z => Bplus mode_NE f (Bmult mode_NE (fst z) (snd z))) l f.
  Fixpoint rsum (l : list (bin * bin)) : R :=
    match l with [] => 0%R | z :: l => (B2R (fst z) * B2R (snd z) + rsum l)%R end.
  Fixpoint rsum_abs (l : list (bin * bin)) : R :=
    match l with [] => 0%R | z :: l => (Rabs (B2R (fst z) * B2R (snd z)) + rsum_abs l)%R end.

  Lemma rsum_abs_pos l : (0 <= rsum_abs l)%R.
  Proof. induction l as [|z l IH]; cbn; [lra|]. pose proof (Rabs_pos (B2R (fst z) * B2R (snd z))). lra. Qed.

  Lemma bsum_finite l f : is_finite (bsum l f) = true -> is_finite f = true.
  Proof.
    revert f. induction l as [|z l IH]; intros f; cbn [bsum fold_left]; [easy|].
    intros H%IH. now apply add_finite in H.
  Qed.

  Lemma pow_ge_1 n : (1 <= (1 + u) ^ n)%R.
  Proof. apply pow_R1_Rle. pose proof u_pos. lra. Qed.

  Lemma bsum_error l f : is_finite (bsum l f) = true ->
    (Rabs (B2R (bsum l f) - (B2R f + rsum l)) <=
     ((1 + u) ^ length l - 1) * Rabs (B2R f) + ((1 + u) ^ S (length l) - 1) * rsum_abs l
     + INR (length l) * (1 + u) ^ length l * eta)%R.
  Proof.
    revert f. induction l as [|[x y] l IH]; intros f H.
    - cbn. rewrite Rplus_0_r, Rminus_eq_0, Rabs_R0. lra.
    - cbn [bsum fold_left fst snd] in *. fold (bsum l (Bplus mode_NE f (Bmult mode_NE x y))) in *.
      pose proof (bsum_finite _ _ H) as F1. destruct (add_finite _ _ F1) as [Ff Fm].
      destruct (mul_finite _ _ Fm) as [Fx Fy].
      specialize (IH _ H).
      pose proof (mul_error x y Fx Fy Fm) as Em. pose proof (add_error f _ Ff Fm F1) as Ea.
      set (f1 := Bplus mode_NE f (Bmult mode_NE x y)) in *. set (p := B2R (Bmult mode_NE x y)) in *.
      cbn [rsum rsum_abs fst snd length]. set (q := (B2R x * B2R y)%R) in *.
      rewrite S_INR. cbn [pow] in *.
      pose proof (rsum_abs_pos l) as Pr. pose proof (pow_ge_1 (length l)) as P1. pose proof u_pos as Pu. pose proof eta_pos as Pe.
      pose proof (pos_INR (length l)) as Pn.
      set (k := ((1 + u) ^ length l)%R) in *. set (n := INR (length l)) in *. set (a := rsum_abs l) in *.
      set (s := rsum l) in *. set (F := B2R (bsum l f1)) in *. set (r1 := B2R f1) in *. set (r := B2R f) in *.
      pose proof (Rabs_pos r) as Ar. pose proof (Rabs_pos q) as Aq.
      (* the partial sum *)
      assert (Pa : (Rabs p <= Rabs q + (u * Rabs q + eta))%R).
      { replace p with (q + (p - q))%R by ring. eapply Rle_trans; [apply Rabs_triang|]. lra. }
      assert (Ps : (Rabs (r + p) <= Rabs r + (1 + u) * Rabs q + eta)%R).
      { eapply Rle_trans; [apply Rabs_triang|]. nra. }
      assert (D : (Rabs (r1 - (r + q)) <= u * Rabs r + ((1 + u) * (1 + u) - 1) * Rabs q + (1 + u) * eta)%R).
      { replace (r1 - (r + q))%R with ((r1 - (r + p)) + (p - q))%R by ring.
        eapply Rle_trans; [apply Rabs_triang|]. nra. }
      assert (B1 : (Rabs r1 <= (1 + u) * Rabs r + (1 + u) * (1 + u) * Rabs q + (1 + u) * eta)%R).
      { replace r1 with ((r + q) + (r1 - (r + q)))%R by ring. eapply Rle_trans; [apply Rabs_triang|].
        pose proof (Rabs_triang r q). lra. }
      replace (F - (r + (q + s)))%R with ((F - (r1 + s)) + (r1 - (r + q)))%R by ring.
      eapply Rle_trans; [apply Rabs_triang|].
      assert (M : ((k - 1) * Rabs r1 <= (k - 1) * ((1 + u) * Rabs r + (1 + u) * (1 + u) * Rabs q + (1 + u) * eta))%R)
        by (apply Rmult_le_compat_l; lra).
      assert (G0 : ((1 + u) * k <= (1 + u) * ((1 + u) * k))%R).
      { assert (0 <= u * ((1 + u) * k))%R by (apply Rmult_le_pos; [lra|]; apply Rmult_le_pos; lra). lra. }
      assert (G3 : (k <= (1 + u) * k)%R).
      { assert (0 <= u * k)%R by (apply Rmult_le_pos; lra). lra. }
      assert (G1 : (((1 + u) * k - 1) * a <= ((1 + u) * ((1 + u) * k) - 1) * a)%R) by (apply Rmult_le_compat_r; lra).
      assert (G2 : (n * k * eta <= n * ((1 + u) * k) * eta)%R).
      { apply Rmult_le_compat_r; [lra|]. apply Rmult_le_compat_l; lra. }
      set (T1 := (((1 + u) * k - 1) * a)%R) in *. set (T2 := (((1 + u) * ((1 + u) * k) - 1) * a)%R) in *.
      apply Rle_trans with
        ((k - 1) * ((1 + u) * Rabs r + (1 + u) * (1 + u) * Rabs q + (1 + u) * eta) + T2 + n * ((1 + u) * k) * eta
         + (u * Rabs r + ((1 + u) * (1 + u) - 1) * Rabs q + (1 + u) * eta))%R; [lra|].
      right. unfold T2. ring.
  Qed.

  (** ** Integers *)
  Lemma integer_format n : (Z.abs n < 2 ^ prec)%Z -> generic_format radix2 fexp (IZR n).
  Proof.
    intros H. apply generic_format_FLT. apply FLT_spec with (Float radix2 n 0).
    - unfold F2R. cbn. now rewrite Rmult_1_r.
    - exact H.
    - unfold SpecFloat.emin. cbn [Fexp]. lia.
  Qed.

  Lemma integer_small n : (Z.abs n < 2 ^ prec)%Z -> (Rabs (IZR n) < bpow radix2 emax)%R.
  Proof.
    intros H. rewrite <- abs_IZR.
    apply Rlt_trans with (bpow radix2 prec); [|apply bpow_lt; exact He].
    rewrite <- IZR_Zpower by lia. now apply IZR_lt.
  Qed.

  Lemma mul_integer (x y : bin) m n : is_finite x = true -> is_finite y = true -> B2R x = IZR m -> B2R y = IZR n ->
    (Z.abs (m * n) < 2 ^ prec)%Z ->
    is_finite (Bmult mode_NE x y) = true /\ B2R (Bmult mode_NE x y) = IZR (m * n).
  Proof.
    intros Fx Fy Hx Hy H. pose proof (Bmult_correct prec emax _ _ mode_NE x y) as C. cbn [round_mode] in C.
    rewrite Hx, Hy, <- mult_IZR in C.
    rewrite round_generic in C; [|apply valid_rnd_N|now apply integer_format].
    rewrite Rlt_bool_true in C by (now apply integer_small). destruct C as (C & C2 & _). split; [|exact C].
    now rewrite C2, Fx, Fy.
  Qed.

  Lemma add_integer (x y : bin) m n : is_finite x = true -> is_finite y = true -> B2R x = IZR m -> B2R y = IZR n ->
    (Z.abs (m + n) < 2 ^ prec)%Z ->
    is_finite (Bplus mode_NE x y) = true /\ B2R (Bplus mode_NE x y) = IZR (m + n).
  Proof.
    intros Fx Fy Hx Hy H. pose proof (Bplus_correct prec emax _ _ mode_NE x y Fx Fy) as C. cbn [round_mode] in C.
    rewrite Hx, Hy, <- plus_IZR in C.
    rewrite round_generic in C; [|apply valid_rnd_N|now apply integer_format].
    rewrite Rlt_bool_true in C by (now apply integer_small). destruct C as (C & C2 & _). now split.
  Qed.

  Lemma bsum_integer l (zs : list (Z * Z)) f c : is_finite f = true -> B2R f = IZR c ->
    Forall2 (fun z w => (is_finite (fst z) = true /\ B2R (fst z) = IZR (fst w)) /\
                        (is_finite (snd z) = true /\ B2R (snd z) = IZR (snd w))) l zs ->
    (Z.abs c + fold_right (fun w s => Z.abs (fst w * snd w) + s) 0 zs < 2 ^ prec)%Z ->
    is_finite (bsum l f) = true /\ B2R (bsum l f) = (IZR c + rsum l)%R.
  Proof.
    intros Ff Hf Hl. revert f c Ff Hf. induction Hl as [|[x y] [m n] l zs [[Fx Hx] [Fy Hy]] _ IH]; intros f c Ff Hf H.
    - cbn. rewrite Rplus_0_r. now split.
    - cbn [fst snd fold_right bsum fold_left rsum] in *.
      assert (P : (0 <= fold_right (fun w s => Z.abs (fst w * snd w) + s) 0 zs)%Z).
      { clear. induction zs as [|w zs IH]; cbn; lia. }
      destruct (mul_integer x y m n Fx Fy Hx Hy) as [F1 H1]; [lia|].
      destruct (add_integer f _ c (m * n) Ff F1 Hf H1) as [F2 H2]; [lia|].
      destruct (IH _ _ F2 H2) as [F3 H3]; [lia|]. split; [exact F3|].
      unfold bsum in H3. rewrite H3, plus_IZR, mult_IZR, Hx, Hy. ring.
  Qed.

  (** ** The inner product *)
  Lemma numbers_bin v : Forall (number prec emax) v -> exists bs : list bin, map B2SF bs = v.
  Proof.
    induction 1 as [|x v Hx _ [bs <-]]; [now exists []|]. destruct (number_bin prec emax x Hx) as (b & <- & _).
    now exists (b :: bs).
  Qed.

  Lemma product_bsum_from (v w : list bin) f :
    fold_left (fun f z => SFadd prec emax f (SFmul prec emax (fst z) (snd z))) (combine (map B2SF v) (map B2SF w)) (B2SF f)
    = B2SF (bsum (combine v w) f).
  Proof.
    revert w f. induction v as [|x v IH]; intros [|y w] f; try easy. cbn [map combine fold_left fst snd].
    rewrite (mul_equiv prec emax Hp He), (add_equiv prec emax Hp He), IH. reflexivity.
  Qed.

  Lemma product_bsum (v w : list bin) :
    inner_product prec emax (map B2SF v) (map B2SF w) = B2SF (bsum (combine v w) (B754_zero false)).
  Proof. exact (product_bsum_from v w (B754_zero false)). Qed.

  Lemma rsum_product (v w : list bin) :
    rsum (combine v w) = product_sum (map value (map B2SF v)) (map value (map B2SF w)).
  Proof.
    revert w. induction v as [|x v IH]; intros [|y w]; try easy. cbn. rewrite IH.
    now rewrite !(value_bin prec emax).
  Qed.

  Lemma rsum_abs_product (v w : list bin) :
    rsum_abs (combine v w)
    = product_sum (map (fun x => Rabs (value x)) (map B2SF v)) (map (fun x => Rabs (value x)) (map B2SF w)).
  Proof.
    revert w. induction v as [|x v IH]; intros [|y w]; try easy. cbn. rewrite IH.
    now rewrite !(value_bin prec emax), Rabs_mult.
  Qed.

  Lemma add_zero (x : bin) : B2R (Bplus mode_NE (B754_zero false) x) = B2R x.
  Proof. now destruct x as [[]| | |]. Qed.

  Lemma product_error v w n : Forall (number prec emax) v -> Forall (number prec emax) w ->
    length v = S n -> length w = S n -> finite (inner_product prec emax v w) ->
    (Rabs (value (inner_product prec emax v w) - product_sum (map value v) (map value w)) <=
     ((1 + u) ^ S n - 1) * product_sum (map (fun x => Rabs (value x)) v) (map (fun x => Rabs (value x)) w)
     + INR (S n) * (1 + u) ^ n * eta)%R.
  Proof.
    intros [bv <-]%numbers_bin [bw <-]%numbers_bin Lv Lw F. rewrite product_bsum in *.
    apply finite_bin in F. rewrite (value_bin prec emax), <- rsum_product, <- rsum_abs_product.
    rewrite map_length in Lv, Lw. destruct bv as [|x v]; [easy|]. destruct bw as [|y w]; [easy|].
    cbn [length] in *. injection Lv as Lv. injection Lw as Lw. cbn [combine] in *.
    assert (L : length (combine v w) = n) by (rewrite combine_length; lia).
    cbn [bsum fold_left fst snd] in *.
    set (f1 := Bplus mode_NE (B754_zero false) (Bmult mode_NE x y)) in *.
    change (fold_left _ _ f1) with (bsum (combine v w) f1) in *.
    pose proof (bsum_finite _ _ F) as F1. destruct (add_finite _ _ F1) as [_ Fm].
    destruct (mul_finite _ _ Fm) as [Fx Fy].
    pose proof (bsum_error _ _ F) as E. pose proof (mul_error x y Fx Fy Fm) as Em. rewrite L in E.
    assert (Z1 : B2R f1 = B2R (Bmult mode_NE x y)) by apply add_zero. rewrite Z1 in E.
    cbn [rsum rsum_abs fst snd]. rewrite S_INR. cbn [pow] in *.
    pose proof (rsum_abs_pos (combine v w)) as Pr. pose proof (pow_ge_1 n) as P1. pose proof u_pos as Pu.
    pose proof eta_pos as Pe.
    set (k := ((1 + u) ^ n)%R) in *. set (m := INR n) in *. set (a := rsum_abs (combine v w)) in *.
    set (s := rsum (combine v w)) in *. set (G := B2R (bsum (combine v w) f1)) in *.
    set (p := B2R (Bmult mode_NE x y)) in *. set (q := (B2R x * B2R y)%R) in *.
    assert (Pa : (Rabs p <= Rabs q + (u * Rabs q + eta))%R).
    { replace p with (q + (p - q))%R by ring. eapply Rle_trans; [apply Rabs_triang|]. lra. }
    replace (G - (q + s))%R with ((G - (p + s)) + (p - q))%R by ring.
    eapply Rle_trans; [apply Rabs_triang|].
    assert (M : ((k - 1) * Rabs p <= (k - 1) * (Rabs q + (u * Rabs q + eta)))%R) by (apply Rmult_le_compat_l; lra).
    apply Rle_trans with ((k - 1) * (Rabs q + (u * Rabs q + eta)) + ((1 + u) * k - 1) * a + m * k * eta
                          + (u * Rabs q + eta))%R; [lra|]. right. ring.
  Qed.

  Lemma product_integer v w (zv zw : list Z) : Forall (number prec emax) v -> Forall (number prec emax) w ->
    Forall finite v -> Forall finite w ->
    map value v = map IZR zv -> map value w = map IZR zw ->
    (fold_right Z.add 0 (map (fun z => Z.abs (fst z * snd z)) (combine zv zw)) < 2 ^ prec)%Z ->
    finite (inner_product prec emax v w) /\
    value (inner_product prec emax v w) = product_sum (map value v) (map value w).
  Proof.
    intros [bv <-]%numbers_bin [bw <-]%numbers_bin Fv Fw Hv Hw H.
    rewrite product_bsum, finite_bin, (value_bin prec emax), <- rsum_product.
    rewrite <- (Rplus_0_l (rsum _)). apply (bsum_integer _ (combine zv zw) _ 0); [easy..| |].
    - clear H. revert bw zv zw Fv Fw Hv Hw. induction bv as [|x v IH]; intros [|y w] [|m zv] [|n zw] Fv Fw Hv Hw; try easy.
      { constructor. }
      1-2: cbn; constructor.
      cbn [map] in Fv, Fw, Hv, Hw.
      pose proof (Forall_inv Fv) as Fx. pose proof (Forall_inv Fw) as Fy.
      apply Forall_inv_tail in Fv, Fw.
      injection Hv as Hx Hv. injection Hw as Hy Hw. rewrite (value_bin prec emax) in Hx, Hy.
      apply finite_bin in Fx, Fy. constructor; [now cbn|]. now apply IH.
    - cbn [Z.abs]. rewrite Z.add_0_l.
      replace (fold_right (fun w s => (Z.abs (fst w * snd w) + s)%Z) 0%Z (combine zv zw))
        with (fold_right Z.add 0%Z (map (fun z => Z.abs (fst z * snd z)) (combine zv zw))); [exact H|].
      clear. induction (combine zv zw) as [|z l IH]; [easy|]. cbn. now rewrite IH.
  Qed.

  (** ** The norm *)
  Lemma sqrt_error (x : bin) : (1 < prec)%Z -> is_finite x = true -> Bsign x = false ->
    is_finite (Bsqrt mode_NE x) = true /\
    (Rabs (B2R (Bsqrt mode_NE x) - sqrt (B2R x)) <= u * sqrt (B2R x))%R.
  Proof.
    intros P2 F S. destruct (Bsqrt_correct prec emax _ _ mode_NE x) as (C & C2 & _). split.
    { rewrite C2. destruct x as [| | |[]]; easy. }
    rewrite C. cbn [round_mode].
    destruct (sqrt_error_N_FLT_ex radix2 prec (fun n => negb (Z.even n)) P2 (SpecFloat.emin prec emax)) with (B2R x)
      as (e & E & K); [unfold SpecFloat.emin; lia|apply generic_format_B2R|].
    change (round radix2 (FLT_exp (SpecFloat.emin prec emax) prec) _ (sqrt (B2R x))) with (rnd (sqrt (B2R x))) in K.
    rewrite K. replace (sqrt (B2R x) * (1 + e) - sqrt (B2R x))%R with (e * sqrt (B2R x))%R by ring.
    rewrite Rabs_mult, (Rabs_pos_eq (sqrt _)) by apply sqrt_pos. apply Rmult_le_compat_r; [apply sqrt_pos|].
    eapply Rle_trans; [exact E|]. unfold u_ro. rewrite u_eq. pose proof u_pos as Pu.
    assert (S1 : (1 <= sqrt (1 + 2 * u))%R) by (rewrite <- sqrt_1 at 1; apply sqrt_le_1_alt; lra).
    assert (S2 : (sqrt (1 + 2 * u) <= 1 + u)%R).
    { rewrite <- (sqrt_Rsqr (1 + u)) by lra. apply sqrt_le_1_alt. unfold Rsqr. nra. }
    set (r := sqrt (1 + 2 * u)) in *.
    apply Rmult_le_reg_r with r; [lra|]. unfold Rdiv. rewrite Rmult_1_l, Rmult_minus_distr_r, Rinv_l by lra. nra.
  Qed.

  Lemma norm_sqrt v : (1 < prec)%Z -> Forall (number prec emax) v -> length v <> 1 -> finite (inner_product prec emax v v) ->
    finite (norm prec emax v) /\
    (Rabs (value (norm prec emax v) - sqrt (value (inner_product prec emax v v)))
     <= u * sqrt (value (inner_product prec emax v v)))%R.
  Proof.
    intros P2 Hv L F.
    assert (N : norm prec emax v = SFsqrt prec emax (inner_product prec emax v v))
      by (destruct v as [|x [|y v]]; easy).
    assert (S : non_negative (inner_product prec emax v v)).
    { apply product_self. intros I. pose proof (proj2 (norm_nan prec emax v) I) as E. rewrite N in E.
      assert (NN : inner_product prec emax v v = S754_nan).
      { unfold inner_product. now apply product_nan. }
      rewrite NN in F. exact F. }
    rewrite N. apply numbers_bin in Hv as [bv <-]. rewrite product_bsum in *.
    rewrite (sqrt_equiv prec emax Hp He), finite_bin, !(value_bin prec emax).
    apply finite_bin in F. apply sqrt_error; [exact P2|exact F|]. revert F S. now destruct (bsum _ _).
  Qed.

  Lemma norm_one_value x : value (norm prec emax [x]) = Rabs (value x).
  Proof.
    cbn. destruct x as [| | |s m e]; cbn; try now rewrite Rabs_R0.
    rewrite Rabs_mult, (Rabs_pos_eq (powerRZ 2 e)) by (apply powerRZ_le; lra). f_equal.
    rewrite <- abs_IZR. now destruct s.
  Qed.

  (** The norm and that of real numbers. *)
  Lemma product_self_abs (v : list spec_float) :
    product_sum (map (fun x => Rabs (value x)) v) (map (fun x => Rabs (value x)) v)
    = product_sum (map value v) (map value v).
  Proof.
    induction v as [|x v IH]; [easy|]. cbn [map product_sum]. rewrite IH, <- Rabs_mult, Rabs_pos_eq; [easy|].
    apply Rle_0_sqr.
  Qed.

  Lemma norm_error v n : (1 < prec)%Z -> Forall (number prec emax) v -> length v = S (S n) ->
    finite (inner_product prec emax v v) ->
    let s := product_sum (map value v) (map value v) in
    let k := ((1 + u) ^ S (S n))%R in
    let e := (INR (S (S n)) * (1 + u) ^ S n * eta)%R in
    ((1 - u) * sqrt ((2 - k) * s - e) <= value (norm prec emax v) <= (1 + u) * sqrt (k * s + e))%R.
  Proof.
    intros P2 Hv L F s k e.
    pose proof (product_error v v (S n) Hv Hv L L F) as E. rewrite product_self_abs in E. fold s k e in E.
    destruct (norm_sqrt v P2 Hv) as [_ N]; [rewrite L; lia|exact F|].
    set (p := value (inner_product prec emax v v)) in *. set (r := value (norm prec emax v)) in *.
    pose proof u_pos as Pu.
    assert (U1 : (u <= 1)%R).
    { change 1%R with (powerRZ 2 0). apply Rlt_le. rewrite <- !(bpow_powerRZ radix2). apply bpow_lt. lia. }
    apply Rabs_le_inv in E, N. split.
    - apply Rle_trans with ((1 - u) * sqrt p)%R; [|lra].
      apply Rmult_le_compat_l; [lra|]. apply sqrt_le_1_alt. lra.
    - apply Rle_trans with ((1 + u) * sqrt p)%R; [lra|].
      apply Rmult_le_compat_l; [lra|]. apply sqrt_le_1_alt. lra.
  Qed.
End format.

(** The value of a number with a negative exponent. *)
Lemma value_ratio s m p :
  value (S754_finite s m (Zneg p)) = (IZR (if s then Zneg m else Zpos m) / IZR (Z.pow_pos 2 p))%R.
Proof.
  cbn [value]. unfold Rdiv. f_equal. unfold powerRZ. f_equal.
  rewrite pow_IZR, positive_nat_Z. reflexivity.
Qed.
