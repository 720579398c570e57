(** How far variances and deviations are from those of real numbers. *)
From Coq Require Import ZArith List Bool Reals SpecFloat Lia Lra Psatz.
From Flocq Require Import Core BinarySingleNaN Plus_error Sterbenz Relative Div_sqrt_error.
From Verif.Floats Require Import Model ModelStats Spec SpecStats Proofs ProofsReal ProofsSum ProofsStatsSign ProofsStats.
Import ListNotations.

(** ** Real numbers *)
Lemma squares_expand c l :
  real_squares c l = (real_sum (map (fun x => x * x) l) - 2 * c * real_sum l + INR (length l) * (c * c))%R.
Proof.
  unfold real_squares. induction l as [|x l IH]; [cbn; ring|]. cbn [map real_sum length]. rewrite IH, S_INR. ring.
Qed.

Lemma squares_mean c l : l <> [] ->
  real_squares c l = (real_squares (real_mean l) l + INR (length l) * ((c - real_mean l) * (c - real_mean l)))%R.
Proof.
  intros N. rewrite !squares_expand. unfold real_mean.
  assert (P : (INR (length l) <> 0)%R) by (apply not_0_INR; now destruct l).
  set (n := INR (length l)) in *. set (s := real_sum l). set (q := real_sum (map _ l)). field. exact P.
Qed.

Lemma squares_pos c l : (0 <= real_squares c l)%R.
Proof.
  unfold real_squares. induction l as [|x l IH]; cbn [map real_sum]; [lra|]. pose proof (Rle_0_sqr (x - c)) as H.
  unfold Rsqr in H. lra.
Qed.

Section format.
  Context (prec emax : Z) (Hp : (0 < prec)%Z) (He : (prec < emax)%Z).

  Local Instance prec_pos : Prec_gt_0 prec := Hp.
  Local Instance prec_emax : Prec_lt_emax prec emax := He.

  Notation bin := (binary_float prec emax).
  Notation fexp := (SpecFloat.fexp prec emax).
  Notation rnd := (round radix2 fexp ZnearestE).
  Notation u := (powerRZ 2 (- prec)).
  Notation eta := (powerRZ 2 (2 - emax - prec)).

  Lemma sub_finite (x y : bin) : is_finite (Bminus mode_NE x y) = true -> is_finite x = true /\ is_finite y = true.
  Proof. destruct x as [| | |], y as [| | |]; cbn; try easy. now destruct (Bool.eqb _ _). Qed.

  Lemma sub_error (x y : bin) : is_finite (Bminus mode_NE x y) = true ->
    (Rabs (B2R (Bminus mode_NE x y) - (B2R x - B2R y)) <= u * Rabs (B2R x - B2R y))%R.
  Proof.
    intros F. destruct (sub_finite x y F) as [Fx Fy].
    pose proof (Bminus_correct prec emax _ _ mode_NE x y Fx Fy) as C. cbn [round_mode] in C.
    destruct (Rlt_bool _ _).
    2:{ destruct C as [C _]. rewrite <- is_finite_SF_B2SF, C in F. discriminate. }
    destruct C as (-> & _ & _). unfold Rminus at 2 3 4.
    destruct (FLT_plus_error_N_ex radix2 (SpecFloat.emin prec emax) prec (fun n => negb (Z.even n)) (B2R x) (- B2R y))
      as (e & E & K); [apply generic_format_B2R|apply generic_format_opp, generic_format_B2R|].
    change (round radix2 (FLT_exp (SpecFloat.emin prec emax) prec) _ (B2R x + - B2R y)) with (rnd (B2R x + - B2R y)) in K.
    rewrite K. set (q := (B2R x + - B2R y)%R). replace (q * (1 + e) - q)%R with (e * q)%R by ring. rewrite Rabs_mult.
    apply Rmult_le_compat_r; [apply Rabs_pos|]. eapply Rle_trans; [exact E|]. unfold u_ro. rewrite u_eq.
    pose proof (u_pos prec) as Pu. unfold Rdiv. rewrite <- (Rmult_1_r u) at 3. apply Rmult_le_compat_l; [lra|].
    rewrite <- Rinv_1. apply Rinv_le; lra.
  Qed.

  Lemma square_diffs_product m l :
    square_diffs prec emax m l
    = inner_product prec emax (map (fun x => SFsub prec emax x m) l) (map (fun x => SFsub prec emax x m) l).
  Proof.
    unfold square_diffs, inner_product. generalize (S754_zero false). induction l as [|x l IH]; intros f; [easy|].
    cbn [map combine fold_left fst snd]. apply IH.
  Qed.

  Lemma fsq_finite (b : bin) l f : is_finite (fsq prec emax Hp He b l f) = true ->
    is_finite f = true /\ Forall (fun x => is_finite (Bminus mode_NE x b) = true) l.
  Proof.
    revert f. induction l as [|x l IH]; intros f; [easy|]. cbn [fsq fold_left]. intros [H H2]%IH.
    apply (add_finite prec emax Hp He) in H as [Hf H]. apply (mul_finite prec emax Hp He) in H as [H _].
    split; [exact Hf|]. now constructor.
  Qed.

  Lemma squares_differences (b : bin) (l : list bin) : Forall (fun x => is_finite (Bminus mode_NE x b) = true) l ->
    let ds := map value (map (fun x => SFsub prec emax x (B2SF b)) (map B2SF l)) in
    (Rabs (product_sum ds ds - real_squares (B2R b) (map value (map B2SF l)))
     <= ((1 + u) * (1 + u) - 1) * real_squares (B2R b) (map value (map B2SF l)))%R.
  Proof.
    intros H. cbn zeta. unfold real_squares. induction H as [|x l F _ IH]; cbn [map product_sum real_sum].
    - rewrite Rminus_eq_0, Rabs_R0. lra.
    - rewrite (sub_equiv prec emax Hp He), !(value_bin prec emax). pose proof (sub_error x b F) as E.
      change (Bminus mode_NE x b) with (Bminus mode_NE x b) in E.
      set (ds := map value (map _ (map B2SF l))) in *. set (D := product_sum ds ds) in *.
      set (T := real_sum _) in *. 
      assert (Vd : B2R (@Bminus prec emax (ProofsReal.prec_pos prec Hp) (ProofsReal.prec_emax prec emax He) mode_NE x b)
                   = B2R (Bminus mode_NE x b)) by reflexivity. rewrite Vd. clear Vd.
      set (d := B2R (Bminus mode_NE x b)) in *.
      set (t := (B2R x - B2R b)%R) in *. pose proof (u_pos prec) as Pu.
      replace (d * d + D - (t * t + T))%R with ((d - t) * (d + t) + (D - T))%R by ring.
      eapply Rle_trans; [apply Rabs_triang|]. rewrite Rabs_mult.
      assert (A : (Rabs (d + t) <= (2 + u) * Rabs t)%R).
      { replace (d + t)%R with ((d - t) + 2 * t)%R by ring. eapply Rle_trans; [apply Rabs_triang|].
        rewrite (Rabs_mult 2), (Rabs_pos_eq 2) by lra. lra. }
      assert (M : (Rabs (d - t) * Rabs (d + t) <= (u * Rabs t) * ((2 + u) * Rabs t))%R)
        by (apply Rmult_le_compat; try apply Rabs_pos; assumption).
      assert (Q : (Rabs t * Rabs t = t * t)%R).
      { rewrite <- Rabs_mult, Rabs_pos_eq; [easy|]. apply Rle_0_sqr. }
      replace (u * Rabs t * ((2 + u) * Rabs t))%R with (((1 + u) * (1 + u) - 1) * (Rabs t * Rabs t))%R in M by ring.
      rewrite Q in M. lra.
  Qed.

  (** The sum of the squares of the differences from the computed mean. *)
  Lemma squares_error l n m : Forall (number prec emax) l -> number prec emax m -> length l = S n ->
    finite (square_diffs prec emax m l) ->
    Forall finite l /\ finite m /\
    (Rabs (value (square_diffs prec emax m l) - real_squares (value m) (map value l))
     <= ((1 + u) ^ S (S (S n)) - 1) * real_squares (value m) (map value l) + INR (S n) * (1 + u) ^ n * eta)%R.
  Proof.
    intros [bl <-]%(numbers_bin prec emax) (b & <- & _)%(number_bin prec emax) L F.
    pose proof F as F2. rewrite (square_diffs_fsq prec emax Hp He) in F2. apply (finite_bin prec emax) in F2.
    destruct (fsq_finite _ _ _ F2) as [_ Fd].
    assert (Fb : is_finite b = true).
    { destruct bl as [|x bl]; [easy|]. apply Forall_inv in Fd. now apply sub_finite in Fd. }
    split.
    { clear - Fd Hp He. induction Fd as [|x l H _ IH]; [constructor|]. cbn. constructor; [|exact IH].
      apply (finite_bin prec emax). now apply sub_finite in H. }
    split; [now apply (finite_bin prec emax)|].
    pose proof (squares_differences b bl Fd) as E1. cbn zeta in E1.
    rewrite square_diffs_product in *. rewrite (value_bin prec emax b).
    set (dl := map (fun x => SFsub prec emax x (B2SF b)) (map B2SF bl)) in *.
    assert (Nd : Forall (number prec emax) dl).
    { unfold dl. clear - Hp He. induction bl as [|x bl IH]; cbn; constructor; [|exact IH].
      rewrite (sub_equiv prec emax Hp He). apply (number_B2SF prec emax). }
    assert (Ld : length dl = S n) by (unfold dl; rewrite !map_length in *; exact L).
    pose proof (product_error prec emax Hp He dl dl n Nd Nd Ld Ld F) as E2.
    rewrite product_self_abs in E2.
    set (V := value (inner_product prec emax dl dl)) in *. set (D := product_sum _ _) in *.
    pose proof (squares_pos (B2R b) (map value (map B2SF bl))) as Pt.
    set (T := real_squares (B2R b) _) in *. pose proof (u_pos prec) as Pu. pose proof (eta_pos prec emax) as Pe.
    pose proof (pow_ge_1 prec (S n)) as P1. cbn [pow] in *. set (k := ((1 + u) * (1 + u) ^ n)%R) in *.
    set (e := (INR (S n) * (1 + u) ^ n * eta)%R) in *.
    assert (Dt : (D <= (1 + u) * (1 + u) * T)%R).
    { pose proof (Rle_abs (D - T)) as A. lra. }
    replace (V - T)%R with ((V - D) + (D - T))%R by ring. eapply Rle_trans; [apply Rabs_triang|].
    assert (M : ((k - 1) * D <= (k - 1) * ((1 + u) * (1 + u) * T))%R) by (apply Rmult_le_compat_l; lra).
    apply Rle_trans with ((k - 1) * ((1 + u) * (1 + u) * T) + e + ((1 + u) * (1 + u) - 1) * T)%R; [lra|]. right. ring.
  Qed.

  Lemma mean_number l m : Forall (number prec emax) l -> (dist l < 2 ^ prec)%Z -> mean prec emax l = Some m ->
    number prec emax m.
  Proof.
    intros Hl D Em. assert (Dp : (0 < dist l)%Z) by (destruct l; [easy|unfold dist; cbn [length]; lia]).
    unfold mean in Em. destruct l as [|y l]; [easy|].
    assert (E' : m = SFdiv prec emax (sum prec emax (y :: l)) (of_int prec emax (dist (y :: l)))) by (now injection Em).
    rewrite E'. apply (numbers_bin prec emax) in Hl as [bl Hl].
    destruct (of_int_bin prec emax Hp He (dist (y :: l))) as (k & Ek & _); [lia|].
    rewrite Ek, <- Hl, (sum_fsum prec emax Hp He), (div_equiv prec emax Hp He). apply (number_B2SF prec emax).
  Qed.

  (** The sum of the squares of the differences, and that of real numbers. *)
  Lemma cumulative_error l n sq m : Forall (number prec emax) l -> length l = S n -> (Z.of_nat (length l) < 2 ^ prec)%Z ->
    cummulative_square_diffs prec emax l = Some (sq, m) -> finite sq ->
    let mu := real_mean (map value l) in
    let delta := (((1 + u) ^ S n - 1) * real_mean (map (fun x => Rabs (value x)) l) + eta)%R in
    let s := (real_squares mu (map value l) + INR (S n) * (delta * delta))%R in
    (Rabs (value sq - real_squares mu (map value l))
     <= ((1 + u) ^ S (S (S n)) - 1) * s + INR (S n) * (delta * delta) + INR (S n) * (1 + u) ^ n * eta)%R.
  Proof.
    intros Hl L D (Em & -> & _)%csd_some F. cbn zeta.
    destruct (squares_error l n m Hl (mean_number l m Hl D Em) L F) as (_ & Fm & E).
    pose proof (mean_error' prec emax Hp He l n m Hl L D Em Fm) as E1. cbn zeta in E1.
    assert (N : map value l <> []) by now destruct l.
    rewrite (squares_mean (value m) _ N) in E. rewrite map_length, L in E.
    set (mu := real_mean (map value l)) in *. set (delta := (_ + eta)%R) in *.
    pose proof (squares_pos mu (map value l)) as Ps. set (S0 := real_squares mu (map value l)) in *.
    assert (Sq : (0 <= (value m - mu) * (value m - mu) <= delta * delta)%R).
    { split; [apply Rle_0_sqr|]. change ((value m - mu)² <= delta²)%R. apply Rsqr_le_abs_1.
      rewrite (Rabs_pos_eq delta); [exact E1|]. eapply Rle_trans; [apply Rabs_pos|exact E1]. }
    set (dd := ((value m - mu) * (value m - mu))%R) in *.
    assert (Pn : (0 <= INR (S n))%R) by apply pos_INR.
    pose proof (pow_ge_1 prec (S (S (S n)))) as P1. set (k := ((1 + u) ^ S (S (S n)))%R) in *.
    set (N0 := INR (S n)) in *. set (V := value (square_diffs prec emax m l)) in *. set (e := (N0 * (1 + u) ^ n * eta)%R) in *.
    assert (M1 : (N0 * dd <= N0 * (delta * delta))%R) by (apply Rmult_le_compat_l; lra).
    assert (M2 : ((k - 1) * (S0 + N0 * dd) <= (k - 1) * (S0 + N0 * (delta * delta)))%R)
      by (apply Rmult_le_compat_l; lra).
    assert (M3 : (0 <= N0 * dd)%R) by (apply Rmult_le_pos; lra).
    replace (V - S0)%R with ((V - (S0 + N0 * dd)) + N0 * dd)%R by ring. eapply Rle_trans; [apply Rabs_triang|].
    rewrite (Rabs_pos_eq (N0 * dd)) by exact M3. lra.
  Qed.

  (** ** One further rounding each *)
  Lemma csd_bin l sq m : Forall (number prec emax) l -> (dist l < 2 ^ prec)%Z ->
    cummulative_square_diffs prec emax l = Some (sq, m) -> exists b : bin, sq = B2SF b.
  Proof.
    intros Hl D (Em & -> & _)%csd_some. pose proof (mean_number l m Hl D Em) as Nm.
    apply (numbers_bin prec emax) in Hl as [bl <-]. apply (number_bin prec emax) in Nm as (b & <- & _).
    rewrite (square_diffs_fsq prec emax Hp He). now eexists.
  Qed.

  Lemma quotient_error (x y : bin) : is_finite (Bdiv mode_NE x y) = true -> is_finite y = true -> (0 < B2R y)%R ->
    is_finite x = true /\
    (Rabs (B2R (Bdiv mode_NE x y) - B2R x / B2R y) <= u * Rabs (B2R x / B2R y) + eta)%R.
  Proof.
    intros F Fy P. split; [exact (div_finite prec emax Hp He x y F Fy)|].
    apply (div_error prec emax Hp He); [lra|exact F].
  Qed.

  Lemma root v : (1 < prec)%Z -> number prec emax v -> finite v -> non_negative v ->
    finite (SFsqrt prec emax v) /\ (Rabs (value (SFsqrt prec emax v) - sqrt (value v)) <= u * sqrt (value v))%R.
  Proof.
    intros P2 (b & <- & _)%(number_bin prec emax) F N. rewrite (sqrt_equiv prec emax Hp He).
    rewrite (finite_bin prec emax), !(value_bin prec emax). apply (finite_bin prec emax) in F.
    apply (sqrt_error prec emax Hp He); [exact P2|exact F|]. revert F N. now destruct b.
  Qed.

  Lemma one_rounding l sq m : Forall (number prec emax) l -> (Z.of_nat (length l) < 2 ^ prec)%Z ->
    cummulative_square_diffs prec emax l = Some (sq, m) ->
    let n := INR (length l) in
    (exists v, variance prec emax l = Some (v, m) /\
       (finite v -> (Rabs (value v - value sq / n) <= u * Rabs (value sq / n) + eta)%R) /\
       ((1 < prec)%Z -> exists d, standard_deviation prec emax l = Some (d, m) /\
         (Forall finite l -> finite v -> finite d /\ (Rabs (value d - sqrt (value v)) <= u * sqrt (value v))%R))) /\
    (1 < length l ->
     (exists v, sample_variance prec emax l = Some (Some v, m) /\
       (finite v -> (Rabs (value v - value sq / (n - 1)) <= u * Rabs (value sq / (n - 1)) + eta)%R)) /\
     ((1 < prec)%Z -> (2 * Z.of_nat (length l) < 2 ^ prec)%Z ->
      exists d, sample_standard_deviation prec emax l = Some (Some d, m) /\
       (Forall finite l -> finite d ->
        exists r : R, (Rabs (r - value sq / (n - 3 / 2)) <= u * Rabs (value sq / (n - 3 / 2)) + eta)%R /\
          (Rabs (value d - sqrt r) <= u * sqrt r)%R))).
  Proof.
    intros Hl D E. fold (dist l) in *. pose proof E as (Em & _ & Dp)%csd_some.
    destruct (csd_bin l sq m Hl D E) as [b Eb]. cbn zeta.
    assert (Dn : INR (length l) = IZR (dist l)) by (unfold dist; apply INR_IZR_INZ).
    destruct (of_int_bin prec emax Hp He (dist l)) as (k & Ek & Fk & Vk & _); [lia|].
    unfold variance, standard_deviation, variance, sample_variance, sample_standard_deviation. rewrite E. subst sq. split.
    - eexists. split; [reflexivity|]. split.
      + rewrite Ek, (div_equiv prec emax Hp He), (finite_bin prec emax), !(value_bin prec emax). intros F.
        rewrite Dn, <- Vk. apply quotient_error; [exact F|exact Fk|]. rewrite Vk. apply IZR_lt. lia.
      + intros P2. eexists. split; [reflexivity|]. intros Hf F. apply root; [exact P2| |exact F|].
        * rewrite Ek, (div_equiv prec emax Hp He). apply (number_B2SF prec emax).
        * pose proof (variance_non_negative prec emax Hp He l) as K. unfold variance in K. rewrite E in K.
          now apply (K _ _ Hf D eq_refl).
    - intros L1. assert (D1 : (1 < dist l)%Z) by (unfold dist; lia).
      destruct (Z.eqb_spec (dist l) 1) as [|_]; [lia|]. split.
      + eexists. split; [reflexivity|].
        destruct (of_int_bin prec emax Hp He (dist l - 1)) as (k' & Ek' & Fk' & Vk' & _); [lia|].
        rewrite Ek', (div_equiv prec emax Hp He), (finite_bin prec emax), !(value_bin prec emax). intros F.
        rewrite Dn, <- minus_IZR, <- Vk'. apply quotient_error; [exact F|exact Fk'|]. rewrite Vk'. apply IZR_lt. lia.
      + intros P2 D2. destruct (three_halves_bin prec emax Hp He P2) as (t & Et & Ft & Vt).
        eexists. split; [reflexivity|]. intros Hf F.
        assert (Nq : non_negative (SFdiv prec emax (B2SF b) (SFsub prec emax (of_int prec emax (dist l)) (three_halves prec emax)))).
        { destruct (estimator_divisor prec emax Hp He (dist l) P2) as (k0 & e0 & Ed); [lia|]. rewrite Ed.
          apply div_non_negative. now apply (csd_non_negative prec emax Hp He l (B2SF b) m Hf D). }
        rewrite Ek, Et, (sub_equiv prec emax Hp He), (div_equiv prec emax Hp He) in *.
        pose proof (Bminus_correct prec emax Hp He mode_NE k t Fk Ft) as C. cbn [round_mode] in C.
        rewrite Vk, Vt in C.
        assert (G : (IZR (dist l) - 3 / 2)%R = F2R (Float radix2 (2 * dist l - 3) (-1))).
        { unfold F2R. cbn [Fnum Fexp]. rewrite minus_IZR, mult_IZR. cbn. lra. }
        assert (Gf : generic_format radix2 fexp (IZR (dist l) - 3 / 2)).
        { rewrite G. apply generic_format_FLT. exists (Float radix2 (2 * dist l - 3) (-1)); [easy| |].
          - cbn [Fnum]. change (radix2 ^ prec)%Z with (2 ^ prec)%Z. lia.
          - cbn [Fexp]. unfold SpecFloat.emin. lia. }
        rewrite round_generic in C; [|apply valid_rnd_N|exact Gf].
        assert (B1 : (2 <= IZR (dist l))%R) by (apply IZR_le; lia).
        rewrite Rlt_bool_true in C.
        2:{ rewrite Rabs_pos_eq by lra. eapply Rlt_trans; [|apply (integer_small prec emax Hp He (dist l)); lia].
            rewrite Rabs_pos_eq by lra. lra. }
        destruct C as (Vd & Fd & _).
        set (q := Bdiv _ _ _) in *.
        assert (Fq : finite (B2SF q)) by (revert F Nq; now destruct (B2SF q) as [|[]| |[]]).
        exists (value (B2SF q)). split.
        * apply (finite_bin prec emax) in Fq. unfold q in *. rewrite !(value_bin prec emax). rewrite Dn, <- Vd.
          apply quotient_error; [exact Fq|exact Fd|]. rewrite Vd. lra.
        * apply root; [exact P2|apply (number_B2SF prec emax)|exact Fq|exact Nq].
  Qed.
End format.
