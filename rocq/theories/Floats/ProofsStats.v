(** Statistics of floating point numbers. *)
From Coq Require Import ZArith List Bool Reals SpecFloat Lia Lra Psatz.
From Flocq Require Import Core BinarySingleNaN Plus_error Sterbenz Relative Div_sqrt_error.
From Verif.Floats Require Import Model ModelStats Spec SpecStats Proofs ProofsReal ProofsSum ProofsStatsSign.
Import ListNotations.

Section format.
  Context (prec emax : Z) (Hp : (0 < prec)%Z) (He : (prec < emax)%Z).

  Local Instance prec_pos : Prec_gt_0 prec := Hp.
  Local Instance prec_emax : Prec_lt_emax prec emax := He.

  Notation bin := (binary_float prec emax).
  Notation fexp := (SpecFloat.fexp prec emax).
  Notation rnd := (round radix2 fexp ZnearestE).
  Notation u := (powerRZ 2 (- prec)).
  Notation eta := (powerRZ 2 (2 - emax - prec)).

  Lemma div_equiv (x y : bin) : SFdiv prec emax (B2SF x) (B2SF y) = B2SF (Bdiv mode_NE x y).
  Proof.
    destruct x as [sx|sx| |sx mx ex Bx], y as [sy|sy| |sy my ey By]; try easy.
    cbn [SFdiv B2SF Bdiv]. rewrite B2SF_SF2B.
    destruct (SFdiv_core_binary _ _ _ _ _ _) as [[q e'] l]. apply binary_round_aux_equiv.
  Qed.

  (** Integers. *)
  Lemma of_int_bin z : (0 < z < 2 ^ prec)%Z ->
    exists b : bin, of_int prec emax z = B2SF b /\ is_finite b = true /\ B2R b = IZR z /\
      exists m e, B2SF b = S754_finite false m e.
  Proof.
    intros H. unfold of_int. rewrite (binary_normalize_equiv prec emax Hp He). eexists. split; [reflexivity|].
    pose proof (binary_normalize_correct prec emax _ _ mode_NE z 0 false) as C. cbn zeta in C. cbn [round_mode] in C.
    assert (E : F2R (Float radix2 z 0) = IZR z) by (unfold F2R; cbn; ring). rewrite E in C.
    rewrite round_generic in C; [|apply valid_rnd_N|apply integer_format; [exact Hp|exact He|lia]].
    rewrite Rlt_bool_true in C by (apply (integer_small prec emax Hp He); lia).
    rewrite Rcompare_Gt in C by (apply IZR_lt; lia). destruct C as (C1 & C2 & C3).
    change (BinarySingleNaN.binary_normalize prec emax _ _ mode_NE z 0 false) with
      (BinarySingleNaN.binary_normalize prec emax (ProofsReal.prec_pos prec Hp) (ProofsReal.prec_emax prec emax He) mode_NE z 0 false) in *.
    set (b := BinarySingleNaN.binary_normalize _ _ _ _ _ _ _ _) in *.
    split; [exact C2|]. split; [exact C1|]. revert C1 C2 C3. clearbody b. destruct b as [s|s| |s m e B]; cbn; try easy.
    - intros C1 _ _. assert (0 < IZR z)%R by (apply IZR_lt; lia). lra.
    - intros _ _ ->. now eexists _, _.
  Qed.

  (** ** The sum *)
  Definition fsum (l : list bin) (f : bin) : bin := fold_left (Bplus mode_NE) l f.
  Fixpoint tsum (l : list bin) : R := match l with [] => 0%R | x :: l => (B2R x + tsum l)%R end.
  Fixpoint asum (l : list bin) : R := match l with [] => 0%R | x :: l => (Rabs (B2R x) + asum l)%R end.

  Lemma asum_pos l : (0 <= asum l)%R.
  Proof. induction l as [|x l IH]; cbn; [lra|]. pose proof (Rabs_pos (B2R x)). lra. Qed.

  Lemma tsum_asum l : (Rabs (tsum l) <= asum l)%R.
  Proof.
    induction l as [|x l IH]; cbn; [rewrite Rabs_R0; lra|]. eapply Rle_trans; [apply Rabs_triang|]. lra.
  Qed.

  Lemma fsum_finite l f : is_finite (fsum l f) = true -> is_finite f = true.
  Proof.
    revert f. induction l as [|z l IH]; intros f; cbn [fsum fold_left]; [easy|].
    intros H%IH. now apply (add_finite prec emax Hp He) in H.
  Qed.

  Lemma fsum_error l f : is_finite (fsum l f) = true ->
    (Rabs (B2R (fsum l f) - (B2R f + tsum l)) <= ((1 + u) ^ length l - 1) * (Rabs (B2R f) + asum l))%R.
  Proof.
    revert f. induction l as [|x l IH]; intros f H.
    - cbn. rewrite Rplus_0_r, Rminus_eq_0, Rabs_R0. lra.
    - cbn [fsum fold_left] in *. fold (fsum l (Bplus mode_NE f x)) in *.
      pose proof (fsum_finite _ _ H) as F1. destruct (add_finite prec emax Hp He _ _ F1) as [Ff Fx].
      specialize (IH _ H). pose proof (add_error prec emax Hp He f x Ff Fx F1) as Ea.
      set (f1 := Bplus mode_NE f x) in *. cbn [tsum asum length pow].
      pose proof (asum_pos l) as Pr. pose proof (pow_ge_1 prec (length l)) as P1. pose proof (u_pos prec) as Pu.
      set (k := ((1 + u) ^ length l)%R) in *. set (a := asum l) in *. set (s := tsum l) in *.
      set (F := B2R (fsum l f1)) in *. set (r1 := B2R f1) in *. set (r := B2R f) in *. set (q := B2R x) in *.
      pose proof (Rabs_pos r) as Ar. pose proof (Rabs_pos q) as Aq. pose proof (Rabs_triang r q) as T.
      assert (D : (Rabs (r1 - (r + q)) <= u * (Rabs r + Rabs q))%R).
      { eapply Rle_trans; [exact Ea|]. apply Rmult_le_compat_l; lra. }
      assert (B1 : (Rabs r1 <= (1 + u) * (Rabs r + Rabs q))%R).
      { replace r1 with ((r + q) + (r1 - (r + q)))%R by ring. eapply Rle_trans; [apply Rabs_triang|]. lra. }
      replace (F - (r + (q + s)))%R with ((F - (r1 + s)) + (r1 - (r + q)))%R by ring.
      eapply Rle_trans; [apply Rabs_triang|].
      assert (M : ((k - 1) * (Rabs r1 + a) <= (k - 1) * ((1 + u) * (Rabs r + Rabs q) + a))%R)
        by (apply Rmult_le_compat_l; lra).
      assert (G : ((k - 1) * a <= ((1 + u) * k - 1) * a)%R).
      { apply Rmult_le_compat_r; [lra|]. assert (0 <= u * k)%R by (apply Rmult_le_pos; lra). lra. }
      apply Rle_trans with ((k - 1) * ((1 + u) * (Rabs r + Rabs q)) + ((1 + u) * k - 1) * a + u * (Rabs r + Rabs q))%R; [lra|].
      right. ring.
  Qed.

  Lemma fsum_zero_error l n : length l = S n -> is_finite (fsum l (B754_zero false)) = true ->
    (Rabs (B2R (fsum l (B754_zero false)) - tsum l) <= ((1 + u) ^ n - 1) * asum l)%R.
  Proof.
    destruct l as [|x l]; [easy|]. cbn [length]. intros [= <-] F. cbn [fsum fold_left] in *.
    set (f1 := Bplus mode_NE (B754_zero false) x) in *. fold (fsum l f1) in *.
    pose proof (fsum_error _ _ F) as E. assert (Z0 : B2R f1 = B2R x) by now destruct x as [[]| | |].
    rewrite Z0 in E. exact E.
  Qed.

  Lemma sum_fsum (l : list bin) : sum prec emax (map B2SF l) = B2SF (fsum l (B754_zero false)).
  Proof.
    unfold sum, fsum. change (S754_zero false) with (B2SF (B754_zero false : bin)). generalize (B754_zero false : bin).
    induction l as [|x l IH]; intros f; cbn [map fold_left]; [easy|]. rewrite (add_equiv prec emax Hp He). apply IH.
  Qed.

  Lemma tsum_real (l : list bin) : tsum l = real_sum (map value (map B2SF l)).
  Proof. induction l as [|x l IH]; [easy|]. cbn. now rewrite IH, (value_bin prec emax). Qed.
  Lemma asum_real (l : list bin) : asum l = real_sum (map (fun x => Rabs (value x)) (map B2SF l)).
  Proof. induction l as [|x l IH]; [easy|]. cbn. now rewrite IH, (value_bin prec emax). Qed.

  (** ** Quotients *)
  Lemma div_error (x y : bin) : B2R y <> 0%R -> is_finite (Bdiv mode_NE x y) = true ->
    (Rabs (B2R (Bdiv mode_NE x y) - B2R x / B2R y) <= u * Rabs (B2R x / B2R y) + eta)%R /\
    (generic_format radix2 fexp (B2R x / B2R y) -> B2R (Bdiv mode_NE x y) = (B2R x / B2R y)%R).
  Proof.
    intros Hy F. pose proof (Bdiv_correct prec emax _ _ mode_NE x y Hy) as C. cbn [round_mode] in C.
    destruct (Rlt_bool _ _).
    2:{ rewrite <- is_finite_SF_B2SF, C in F. discriminate. }
    destruct C as (-> & _ & _). split.
    2:{ intros G. apply round_generic; [apply valid_rnd_N|exact G]. }
    destruct (error_N_FLT radix2 (SpecFloat.emin prec emax) prec Hp (fun n => negb (Z.even n)) (B2R x / B2R y))
      as (e & h & E & H & _ & K).
    change (round radix2 (FLT_exp (SpecFloat.emin prec emax) prec) _ (B2R x / B2R y)) with (rnd (B2R x / B2R y)) in K.
    rewrite K. rewrite u_eq in E. rewrite eta_eq in H. set (q := (B2R x / B2R y)%R) in *.
    replace (q * (1 + e) + h - q)%R with (e * q + h)%R by ring.
    eapply Rle_trans; [apply Rabs_triang|]. rewrite Rabs_mult.
    apply Rplus_le_compat; [|exact H]. apply Rmult_le_compat_r; [apply Rabs_pos|exact E].
  Qed.

  Lemma div_finite (x y : bin) : is_finite (Bdiv mode_NE x y) = true -> is_finite y = true -> is_finite x = true.
  Proof. destruct x as [| | |], y as [| | |]; easy. Qed.

  (** ** The mean *)
  Lemma mean_error l n m : Forall (number prec emax) l -> length l = S n -> (dist l < 2 ^ prec)%Z ->
    mean prec emax l = Some m -> finite m ->
    (Rabs (value m - real_mean (map value l)) <=
     ((1 + u) ^ S n - 1) * (real_sum (map (fun x => Rabs (value x)) l) / INR (S n)) + eta)%R.
  Proof.
    intros [bl <-]%(numbers_bin prec emax) L D. unfold mean.
    destruct (map B2SF bl) as [|x0 l0] eqn:Eb; [easy|]. rewrite <- Eb in *. clear Eb. intros [= <-].
    assert (Dn : dist (map B2SF bl) = Z.of_nat (S n)) by (unfold dist; now rewrite L). rewrite Dn in *.
    destruct (of_int_bin (Z.of_nat (S n))) as (b & Eb & Fb & Vb & _); [lia|]. rewrite Eb, sum_fsum, div_equiv.
    rewrite finite_bin, (value_bin prec emax). intros F.
    pose proof (div_finite _ _ F Fb) as Fs. rewrite map_length in L.
    pose proof (fsum_zero_error bl n L Fs) as E1.
    rewrite <- INR_IZR_INZ in Vb.
    assert (Pn : (0 < INR (S n))%R) by (apply lt_0_INR; lia).
    destruct (div_error (fsum bl (B754_zero false)) b) as [E2 _]; [rewrite Vb; lra|exact F|]. rewrite Vb in E2.
    unfold real_mean. rewrite !map_length, L, <- tsum_real, <- asum_real.
    set (q := B2R (Bdiv _ _ _)) in *. set (s := B2R (fsum _ _)) in *. set (t := tsum bl) in *. set (a := asum bl) in *.
    set (N := INR (S n)) in *. cbn [pow].
    pose proof (pow_ge_1 prec n) as P1. pose proof (u_pos prec) as Pu. pose proof (asum_pos bl) as Pa. fold a in Pa.
    set (k := ((1 + u) ^ n)%R) in *.
    assert (As : (Rabs s <= k * a)%R).
    { replace s with (t + (s - t))%R by ring. eapply Rle_trans; [apply Rabs_triang|].
      pose proof (tsum_asum bl) as T. fold t a in T. lra. }
    replace (q - t / N)%R with ((q - s / N) + (s - t) / N)%R by (unfold Rdiv; ring).
    eapply Rle_trans; [apply Rabs_triang|].
    assert (I : (0 < / N)%R) by (now apply Rinv_0_lt_compat).
    assert (Q1 : (Rabs (s / N) <= k * a / N)%R).
    { unfold Rdiv. rewrite Rabs_mult, (Rabs_pos_eq (/ N)) by lra. apply Rmult_le_compat_r; lra. }
    assert (Q2 : (Rabs ((s - t) / N) <= (k - 1) * a / N)%R).
    { unfold Rdiv. rewrite Rabs_mult, (Rabs_pos_eq (/ N)) by lra. apply Rmult_le_compat_r; lra. }
    assert (Q3 : (u * Rabs (s / N) <= u * (k * a / N))%R) by (apply Rmult_le_compat_l; lra).
    apply Rle_trans with (u * (k * a / N) + eta + (k - 1) * a / N)%R; [lra|]. right. unfold Rdiv. ring.
  Qed.

  (** Integers: the sum is exact, and so is the mean if it is an integer. *)
  Lemma fsum_integer (l : list bin) zs f c : is_finite f = true -> B2R f = IZR c ->
    Forall2 (fun x z => is_finite x = true /\ B2R x = IZR z) l zs ->
    (Z.abs c + fold_right (fun z s => Z.abs z + s) 0 zs < 2 ^ prec)%Z ->
    is_finite (fsum l f) = true /\ B2R (fsum l f) = IZR (c + fold_right Z.add 0%Z zs).
  Proof.
    intros Ff Hf Hl. revert f c Ff Hf. induction Hl as [|x z l zs [Fx Hx] _ IH]; intros f c Ff Hf H.
    - cbn. rewrite Z.add_0_r. now split.
    - cbn [fold_right fsum fold_left] in *.
      assert (P : (0 <= fold_right (fun w s => Z.abs w + s) 0 zs)%Z).
      { clear. induction zs as [|w zs IH]; cbn; lia. }
      destruct (add_integer prec emax Hp He f x c z Ff Fx Hf Hx) as [F2 H2]; [lia|].
      destruct (IH _ _ F2 H2) as [F3 H3]; [lia|]. split; [exact F3|]. rewrite Z.add_assoc. exact H3.
  Qed.

  Lemma mean_integer l zs q : Forall (number prec emax) l -> Forall finite l -> map value l = map IZR zs ->
    (fold_right (fun z s => Z.abs z + s) 0 zs < 2 ^ prec)%Z -> (dist l < 2 ^ prec)%Z -> l <> [] ->
    fold_right Z.add 0%Z zs = (q * dist l)%Z ->
    exists m, mean prec emax l = Some m /\ finite m /\ value m = IZR q.
  Proof.
    intros Hl Fl Hv H D Hn E. apply (numbers_bin prec emax) in Hl as [bl <-].
    unfold mean. destruct (map B2SF bl) as [|x0 l0] eqn:Eb; [easy|]. rewrite <- Eb in *.
    assert (Dp : (0 < dist (map B2SF bl))%Z) by (unfold dist; rewrite Eb; cbn [length]; lia). clear Eb Hn.
    eexists. split; [reflexivity|].
    destruct (of_int_bin (dist (map B2SF bl))) as (b & Eb & Fb & Vb & _); [lia|]. rewrite Eb, sum_fsum, div_equiv.
    rewrite finite_bin, (value_bin prec emax).
    destruct (fsum_integer bl zs (B754_zero false) 0) as [Fs Vs]; [easy|easy| |lia|].
    { clear - Fl Hv. revert zs Hv. induction bl as [|x bl IH]; intros [|z zs] Hv; cbn in Hv; try easy; constructor.
      - injection Hv as Hv _. rewrite (value_bin prec emax) in Hv. apply Forall_inv in Fl. cbn in Fl.
        apply (finite_bin prec emax) in Fl. now split.
      - injection Hv as _ Hv. apply IH; [now apply Forall_inv_tail in Fl|exact Hv]. }
    rewrite Z.add_0_l, E, mult_IZR in Vs.
    assert (Vd : (B2R (fsum bl (B754_zero false)) / B2R b)%R = IZR q).
    { rewrite Vs, Vb. field. apply not_0_IZR. lia. }
    assert (Hq : (Z.abs q < 2 ^ prec)%Z).
    { assert (A : (Z.abs (fold_right Z.add 0 zs) <= fold_right (fun z s => Z.abs z + s) 0 zs)%Z).
      { clear. induction zs as [|z zs IH]; cbn; lia. }
      rewrite E in A. nia. }
    assert (Hb : B2R b <> 0%R) by (rewrite Vb; apply not_0_IZR; lia).
    pose proof (Bdiv_correct prec emax _ _ mode_NE (fsum bl (B754_zero false)) b Hb) as C. cbn [round_mode] in C.
    rewrite Vd, round_generic, Rlt_bool_true, Fs in C;
      [|now apply (integer_small prec emax Hp He)|apply valid_rnd_N|now apply (integer_format prec emax Hp He)].
    now destruct C as (-> & -> & _).
  Qed.

  Lemma sub_integer (x y : bin) m n : is_finite x = true -> is_finite y = true -> B2R x = IZR m -> B2R y = IZR n ->
    (Z.abs (m - n) < 2 ^ prec)%Z ->
    is_finite (Bminus mode_NE x y) = true /\ B2R (Bminus mode_NE x y) = IZR (m - n).
  Proof.
    intros Fx Fy Hx Hy H. pose proof (Bminus_correct prec emax _ _ mode_NE x y Fx Fy) as C. cbn [round_mode] in C.
    rewrite Hx, Hy, <- minus_IZR in C.
    rewrite round_generic in C; [|apply valid_rnd_N|now apply (integer_format prec emax Hp He)].
    rewrite Rlt_bool_true in C by (now apply (integer_small prec emax Hp He)). destruct C as (C & C2 & _). now split.
  Qed.

  Lemma div_integer (x y : bin) q d : is_finite x = true -> B2R x = IZR (q * d) -> B2R y = IZR d -> d <> 0%Z ->
    (Z.abs q < 2 ^ prec)%Z ->
    is_finite (Bdiv mode_NE x y) = true /\ B2R (Bdiv mode_NE x y) = IZR q.
  Proof.
    intros Fx Hx Hy Hd H. assert (Hb : B2R y <> 0%R) by (rewrite Hy; now apply not_0_IZR).
    pose proof (Bdiv_correct prec emax _ _ mode_NE x y Hb) as C. cbn [round_mode] in C.
    assert (V : (B2R x / B2R y)%R = IZR q) by (rewrite Hx, Hy, mult_IZR; field; now apply not_0_IZR).
    rewrite V, round_generic, Rlt_bool_true, Fx in C;
      [|now apply (integer_small prec emax Hp He)|apply valid_rnd_N|now apply (integer_format prec emax Hp He)].
    now destruct C as (-> & -> & _).
  Qed.

  (** The square differences of integers from an integer. *)
  Definition fsq (b : bin) (l : list bin) (f : bin) : bin :=
    fold_left (fun s x => Bplus mode_NE s (Bmult mode_NE (Bminus mode_NE x b) (Bminus mode_NE x b))) l f.

  Lemma square_diffs_fsq (b : bin) (l : list bin) :
    square_diffs prec emax (B2SF b) (map B2SF l) = B2SF (fsq b l (B754_zero false)).
  Proof.
    unfold square_diffs, fsq. change (S754_zero false) with (B2SF (B754_zero false : bin)).
    generalize (B754_zero false : bin).
    induction l as [|x l IH]; intros f; cbn [map fold_left]; [easy|].
    rewrite (sub_equiv prec emax Hp He), (mul_equiv prec emax Hp He), (add_equiv prec emax Hp He). apply IH.
  Qed.

  Lemma fsq_integer (b : bin) q (l : list bin) zs f c : is_finite b = true -> B2R b = IZR q ->
    is_finite f = true -> B2R f = IZR c -> (0 <= c)%Z ->
    Forall2 (fun x z => is_finite x = true /\ B2R x = IZR z) l zs ->
    (c + fold_right (fun z s => (z - q) * (z - q) + s) 0 zs < 2 ^ prec)%Z ->
    is_finite (fsq b l f) = true /\ B2R (fsq b l f) = IZR (c + fold_right (fun z s => (z - q) * (z - q) + s) 0 zs)%Z.
  Proof.
    intros Fb Hb Ff Hf Hc Hl. revert f c Ff Hf Hc. induction Hl as [|x z l zs [Fx Hx] _ IH]; intros f c Ff Hf Hc H.
    - cbn. rewrite Z.add_0_r. now split.
    - cbn [fold_right fsq fold_left] in *.
      assert (P : (0 <= fold_right (fun z s => (z - q) * (z - q) + s) 0 zs)%Z).
      { clear. induction zs as [|w zs IH]; cbn [fold_right]; [lia|]. pose proof (Z.square_nonneg (w - q)). lia. }
      set (r := fold_right (fun z s => (z - q) * (z - q) + s)%Z 0%Z zs) in *.
      pose proof (Z.square_nonneg (z - q)) as Sq.
      assert (Ab : (Z.abs (z - q) <= (z - q) * (z - q))%Z) by (generalize (z - q)%Z; clear; intros d; destruct (Z.abs_spec d) as [[? ->]|[? ->]]; nia).
      destruct (sub_integer x b z q Fx Fb Hx Hb) as [F0 H0]; [lia|].
      destruct (mul_integer prec emax Hp He _ _ _ _ F0 F0 H0 H0) as [F1 H1]; [lia|].
      destruct (add_integer prec emax Hp He f _ c _ Ff F1 Hf H1) as [F2 H2]; [lia|].
      destruct (IH _ _ F2 H2) as [F3 H3]; [lia|lia|]. split; [exact F3|]. rewrite Z.add_assoc. exact H3.
  Qed.

  Lemma quotient_small d v p : (0 < d)%Z -> (0 <= v * d < p)%Z -> (Z.abs v < p)%Z.
  Proof. clear. intros H1 H2. nia. Qed.

  Lemma variance_integer l zs q : Forall (number prec emax) l -> Forall finite l -> map value l = map IZR zs ->
    (fold_right (fun z s => Z.abs z + s) 0 zs < 2 ^ prec)%Z -> (dist l < 2 ^ prec)%Z -> l <> [] ->
    fold_right Z.add 0%Z zs = (q * dist l)%Z ->
    (fold_right (fun z s => (z - q) * (z - q) + s) 0 zs < 2 ^ prec)%Z ->
    exists sq m, cummulative_square_diffs prec emax l = Some (sq, m) /\ finite sq /\
      value sq = IZR (fold_right (fun z s => (z - q) * (z - q) + s) 0 zs)%Z /\
      (forall v, fold_right (fun z s => (z - q) * (z - q) + s)%Z 0%Z zs = (v * dist l)%Z ->
        exists w, variance prec emax l = Some (w, m) /\ finite w /\ value w = IZR v) /\
      (forall v, (1 < dist l)%Z -> fold_right (fun z s => (z - q) * (z - q) + s)%Z 0%Z zs = (v * (dist l - 1))%Z ->
        exists w, sample_variance prec emax l = Some (Some w, m) /\ finite w /\ value w = IZR v).
  Proof.
    intros Hl Fl Hv H D Hn E Q.
    destruct (mean_integer l zs q Hl Fl Hv H D Hn E) as (m & Em & Fm & Vm).
    unfold variance, sample_variance, cummulative_square_diffs. rewrite Em.
    assert (Dp : (0 < dist l)%Z) by (destruct l; [easy|unfold dist; cbn [length]; lia]).
    assert (P : (0 <= fold_right (fun z s => (z - q) * (z - q) + s) 0 zs)%Z).
    { clear. induction zs as [|w zs IH]; cbn [fold_right]; [lia|]. pose proof (Z.square_nonneg (w - q)). lia. }
    assert (exists b : bin, B2SF b = m) as [b Eb].
    { unfold mean in Em. destruct l as [|y l]; [easy|].
      assert (E' : m = SFdiv prec emax (sum prec emax (y :: l)) (of_int prec emax (dist (y :: l)))) by (now injection Em).
      rewrite E'. apply (numbers_bin prec emax) in Hl as [bl Hl].
      destruct (of_int_bin (dist (y :: l))) as (k & Ek & _); [lia|]. rewrite Ek, <- Hl, sum_fsum, div_equiv. now eexists. }
    subst m. rewrite (value_bin prec emax) in Vm. apply (finite_bin prec emax) in Fm.
    apply (numbers_bin prec emax) in Hl as [bl <-]. rewrite square_diffs_fsq.
    destruct (fsq_integer b q bl zs (B754_zero false) 0) as [Fs Vs]; [easy|easy|easy|easy|lia| |lia|].
    { clear - Fl Hv. revert zs Hv. induction bl as [|x bl IH]; intros [|z zs] Hv; cbn in Hv; try easy; constructor.
      - injection Hv as Hv _. rewrite (value_bin prec emax) in Hv. apply Forall_inv in Fl. cbn in Fl.
        apply (finite_bin prec emax) in Fl. now split.
      - injection Hv as _ Hv. apply IH; [now apply Forall_inv_tail in Fl|exact Hv]. }
    rewrite Z.add_0_l in Vs. set (S2 := fold_right (fun z s => (z - q) * (z - q) + s)%Z 0%Z zs) in *.
    eexists _, _. split; [reflexivity|]. rewrite (finite_bin prec emax), (value_bin prec emax).
    split; [exact Fs|]. split; [exact Vs|]. split.
    - intros v Ev. destruct (of_int_bin (dist (map B2SF bl))) as (k & Ek & Fk & Vk & _); [lia|].
      rewrite Ek, div_equiv. eexists. split; [reflexivity|]. rewrite (finite_bin prec emax), (value_bin prec emax).
      rewrite Ev in Vs. apply (div_integer _ _ v _ Fs Vs Vk); [lia|].
      apply (quotient_small (dist (map B2SF bl)) v); [lia|]. rewrite <- Ev. split; [exact P|exact Q].
    - intros v D1 Ev. destruct (of_int_bin (dist (map B2SF bl) - 1)) as (k & Ek & Fk & Vk & _); [lia|].
      destruct (Z.eqb_spec (dist (map B2SF bl)) 1) as [|_]; [lia|].
      rewrite Ek, div_equiv. eexists. split; [reflexivity|]. rewrite (finite_bin prec emax), (value_bin prec emax).
      rewrite Ev in Vs. apply (div_integer _ _ v _ Fs Vs Vk); [lia|].
      apply (quotient_small (dist (map B2SF bl) - 1) v); [lia|]. rewrite <- Ev. split; [exact P|exact Q].
  Qed.

  (** One datum. *)
  Lemma single x : number prec emax x -> finite x ->
    exists m v, mean prec emax [x] = Some m /\ finite m /\ value m = value x /\
      variance prec emax [x] = Some (v, m) /\ finite v /\ value v = 0%R.
  Proof.
    intros Nx Fx. apply (number_bin prec emax) in Nx as (b & <- & _). apply (finite_bin prec emax) in Fx.
    unfold variance, cummulative_square_diffs, mean. change (dist [B2SF b]) with 1%Z.
    destruct (of_int_bin 1) as (k & -> & Fk & Vk & _); [split; [lia|]; apply Z.pow_gt_1; lia|].
    change (sum prec emax [B2SF b]) with (sum prec emax (map B2SF [b])). rewrite sum_fsum, div_equiv.
    change (fsum [b] (B754_zero false)) with (Bplus mode_NE (B754_zero false) b).
    set (s := Bplus mode_NE (B754_zero false) b).
    assert (Vs : B2R s = B2R b) by now destruct b as [[]| | |].
    assert (Fs : is_finite s = true) by now destruct b as [[]| | |].
    assert (Hk : B2R k <> 0%R) by (rewrite Vk; lra).
    pose proof (Bdiv_correct prec emax _ _ mode_NE s k Hk) as C. cbn [round_mode] in C.
    rewrite Vk, Vs, Fs in C. replace (B2R b / 1)%R with (B2R b) in C by field.
    rewrite round_generic in C by (apply valid_rnd_N || apply generic_format_B2R).
    rewrite Rlt_bool_true in C by apply abs_B2R_lt_emax. destruct C as (Vm & Fm & _).
    set (m := Bdiv mode_NE s k) in *.
    change [B2SF b] with (map (@B2SF prec emax) [b]). rewrite square_diffs_fsq, div_equiv.
    exists (B2SF m), (B2SF (Bdiv mode_NE (fsq m [b] (B754_zero false)) k)).
    split; [reflexivity|]. rewrite !(finite_bin prec emax), !(value_bin prec emax).
    split; [exact Fm|]. split; [exact Vm|]. split; [reflexivity|].
    assert (Z1 : (0 < 2 ^ prec)%Z) by (apply Z.pow_pos_nonneg; lia).
    pose proof (Bminus_correct prec emax _ _ mode_NE b m Fx Fm) as C. cbn [round_mode] in C.
    rewrite Vm, Rminus_eq_0, round_0, Rabs_R0 in C by apply valid_rnd_N. rewrite Rlt_bool_true in C by apply bpow_gt_0.
    destruct C as (Vd & Fd & _). set (d := Bminus mode_NE b m) in *. 
    destruct (mul_integer prec emax Hp He d d 0 0 Fd Fd Vd Vd) as [Ff Vf]; [lia|].
    destruct (add_integer prec emax Hp He (B754_zero false) (Bmult mode_NE d d) 0 0 eq_refl Ff eq_refl Vf) as [Fg Vg]; [lia|].
    change (fsq m [b] (B754_zero false)) with (Bplus mode_NE (B754_zero false) (Bmult mode_NE d d)).
    apply (div_integer _ _ 0 1 Fg Vg Vk); lia.
  Qed.

  (** [dist - 1.5] *)
  Lemma three_halves_bin : (1 < prec)%Z ->
    exists b : bin, three_halves prec emax = B2SF b /\ is_finite b = true /\ B2R b = (3 / 2)%R.
  Proof.
    intros H1. unfold three_halves. rewrite (binary_normalize_equiv prec emax Hp He). eexists. split; [reflexivity|].
    pose proof (binary_normalize_correct prec emax Hp He mode_NE 3 (-1) false) as C. cbn zeta in C. cbn [round_mode] in C.
    assert (E : F2R (Float radix2 3 (-1)) = (3 / 2)%R) by (unfold F2R; cbn; lra).
    rewrite round_generic in C; [|apply valid_rnd_N|].
    2:{ apply generic_format_F2R. intros _. unfold cexp. rewrite E.
        rewrite (mag_unique radix2 (3 / 2) 1) by (rewrite Rabs_pos_eq by lra; cbn; lra).
        unfold SpecFloat.fexp, SpecFloat.emin. lia. }
    rewrite E in C. rewrite Rlt_bool_true in C.
    - now destruct C as (? & ? & _).
    - rewrite Rabs_pos_eq by lra. apply Rlt_le_trans with (bpow radix2 1); [cbn; lra|]. apply bpow_le. lia.
  Qed.

  Lemma estimator_divisor z : (1 < prec)%Z -> (1 < z < 2 ^ prec)%Z ->
    exists m e, SFsub prec emax (of_int prec emax z) (three_halves prec emax) = S754_finite false m e.
  Proof.
    intros H1 H. destruct (of_int_bin z) as (b & -> & Fb & Vb & _); [lia|].
    destruct (three_halves_bin H1) as (t & -> & Ft & Vt). rewrite (sub_equiv prec emax Hp He).
    pose proof (Bminus_correct prec emax _ _ mode_NE b t Fb Ft) as C. cbn [round_mode] in C. rewrite Vb, Vt in C.
    assert (Z2 : (2 <= IZR z)%R) by (apply IZR_le; lia).
    assert (G : generic_format radix2 fexp (/ 2)).
    { change (/ 2)%R with (bpow radix2 (-1)). apply generic_format_bpow. unfold SpecFloat.fexp, SpecFloat.emin. lia. }
    assert (L : (/ 2 <= rnd (IZR z - 3 / 2))%R).
    { apply round_ge_generic; [apply fexp_correct; exact Hp|apply valid_rnd_N|exact G|lra]. }
    assert (U : (rnd (IZR z - 3 / 2) <= IZR z)%R).
    { apply round_le_generic; [apply fexp_correct; exact Hp|apply valid_rnd_N|apply integer_format; [exact Hp|exact He|lia]|lra]. }
    rewrite Rlt_bool_true in C.
    2:{ rewrite Rabs_pos_eq by lra. eapply Rle_lt_trans; [exact U|]. eapply Rle_lt_trans; [apply Rle_abs|].
        apply (integer_small prec emax Hp He). lia. }
    destruct C as (C1 & C2 & C3). rewrite Rcompare_Gt in C3 by lra.
    set (d := Bminus mode_NE b t) in *. clearbody d. destruct d as [s|s| |s m e B]; cbn in *; try easy; [lra|].
    subst s. now eexists _, _.
  Qed.

  (** ** No statistic of finite data is NaN *)
  Lemma of_int_positive z : (0 < z < 2 ^ prec)%Z -> exists m e, of_int prec emax z = S754_finite false m e.
  Proof. intros H. destruct (of_int_bin z H) as (b & -> & _ & _ & K). exact K. Qed.

  Lemma mean_nan l m : Forall finite l -> (dist l < 2 ^ prec)%Z -> mean prec emax l = Some m -> m <> S754_nan.
  Proof.
    intros Hl D. unfold mean. destruct l as [|x l]; [easy|]. intros E.
    assert (E' : m = SFdiv prec emax (sum prec emax (x :: l)) (of_int prec emax (dist (x :: l)))) by (now injection E).
    rewrite E'. clear E E'.
    destruct (of_int_positive (dist (x :: l))) as (k & e & K); [unfold dist in *; cbn [length] in *; lia|].
    rewrite K. apply div_nan, sum_nan. exact Hl.
  Qed.

  Lemma csd_some l sq m : cummulative_square_diffs prec emax l = Some (sq, m) ->
    mean prec emax l = Some m /\ sq = square_diffs prec emax m l /\ (0 < dist l)%Z.
  Proof.
    unfold cummulative_square_diffs. destruct (mean prec emax l) as [m'|] eqn:E; [|easy]. intros [= <- <-].
    split; [easy|]. split; [easy|]. destruct l; [easy|]. unfold dist. cbn [length]. lia.
  Qed.

  Lemma csd_non_negative l sq m : Forall finite l -> (dist l < 2 ^ prec)%Z ->
    cummulative_square_diffs prec emax l = Some (sq, m) -> non_negative sq /\ m <> S754_nan.
  Proof.
    intros Hl D (M & -> & _)%csd_some. pose proof (mean_nan l m Hl D M) as N. split; [|exact N].
    now apply square_diffs_non_negative.
  Qed.

  Lemma variance_non_negative l v m : Forall finite l -> (dist l < 2 ^ prec)%Z ->
    variance prec emax l = Some (v, m) -> non_negative v /\ m <> S754_nan.
  Proof.
    intros Hl D. unfold variance. destruct (cummulative_square_diffs prec emax l) as [[sq m']|] eqn:E; [|easy].
    intros [= <- <-]. pose proof (csd_some _ _ _ E) as (_ & _ & P).
    destruct (csd_non_negative _ _ _ Hl D E) as [N1 N2]. split; [|exact N2].
    destruct (of_int_positive (dist l)) as (k & e & ->); [lia|]. now apply div_non_negative.
  Qed.

  Lemma deviation_non_negative l v m : Forall finite l -> (dist l < 2 ^ prec)%Z ->
    standard_deviation prec emax l = Some (v, m) -> non_negative v /\ m <> S754_nan.
  Proof.
    intros Hl D. unfold standard_deviation. destruct (variance prec emax l) as [[v' m']|] eqn:E; [|easy].
    intros [= <- <-]. destruct (variance_non_negative _ _ _ Hl D E) as [N1 N2]. split; [|exact N2].
    now apply sqrt_non_negative.
  Qed.

  Lemma sample_variance_non_negative l v m : Forall finite l -> (dist l < 2 ^ prec)%Z ->
    sample_variance prec emax l = Some (Some v, m) -> non_negative v /\ m <> S754_nan.
  Proof.
    intros Hl D. unfold sample_variance. destruct (cummulative_square_diffs prec emax l) as [[sq m']|] eqn:E; [|easy].
    pose proof (csd_some _ _ _ E) as (_ & _ & P). destruct (Z.eqb_spec (dist l) 1) as [|N]; [easy|]. intros [= <- <-].
    destruct (csd_non_negative _ _ _ Hl D E) as [N1 N2]. split; [|exact N2].
    destruct (of_int_positive (dist l - 1)) as (k & e & ->); [lia|]. now apply div_non_negative.
  Qed.

  Lemma sample_deviation_non_negative l v m : (1 < prec)%Z -> Forall finite l -> (dist l < 2 ^ prec)%Z ->
    sample_standard_deviation prec emax l = Some (Some v, m) -> non_negative v /\ m <> S754_nan.
  Proof.
    intros Hq Hl D. unfold sample_standard_deviation.
    destruct (cummulative_square_diffs prec emax l) as [[sq m']|] eqn:E; [|easy].
    pose proof (csd_some _ _ _ E) as (_ & _ & P). destruct (Z.eqb_spec (dist l) 1) as [|N]; [easy|]. intros [= <- <-].
    destruct (csd_non_negative _ _ _ Hl D E) as [N1 N2]. split; [|exact N2].
    apply sqrt_non_negative. destruct (estimator_divisor (dist l) Hq) as (k & e & ->); [lia|]. now apply div_non_negative.
  Qed.
End format.

(** ** In the form of the properties *)
Lemma too_few prec emax l :
  (mean prec emax l = None <-> l = []) /\ (variance prec emax l = None <-> l = []) /\
  (standard_deviation prec emax l = None <-> l = []) /\
  (sample_variance prec emax l = None <-> l = []) /\ (sample_standard_deviation prec emax l = None <-> l = []) /\
  (forall m, sample_variance prec emax l = Some (None, m) <-> length l = 1 /\ mean prec emax l = Some m) /\
  (forall m, sample_standard_deviation prec emax l = Some (None, m) <-> length l = 1 /\ mean prec emax l = Some m).
Proof.
  unfold sample_standard_deviation, standard_deviation, variance, sample_variance, cummulative_square_diffs.
  destruct (mean prec emax l) as [m|] eqn:E.
  - assert (N : l <> []) by now destruct l.
    assert (D : (dist l =? 1)%Z = true <-> length l = 1) by (rewrite Z.eqb_eq; unfold dist; lia).
    destruct (dist l =? 1)%Z; repeat match goal with |- _ /\ _ => split | |- _ <-> _ => split | |- forall _, _ => intros ? end;
      try easy; try (apply D; easy); try (injection H; congruence); try congruence.
    all: match goal with H : _ /\ _ |- _ => destruct H as [H K]; try congruence; try (apply D in H; congruence) end.
  - assert (l = []) as -> by now destruct l. repeat match goal with |- _ /\ _ => split | |- _ <-> _ => split | |- forall _, _ => intros ? end; easy.
Qed.

Section properties.
  Context (prec emax : Z) (Hp : (0 < prec)%Z) (He : (prec < emax)%Z).

  Lemma signs l : Forall finite l -> (Z.of_nat (length l) < 2 ^ prec)%Z ->
    (forall m, mean prec emax l = Some m -> m <> S754_nan) /\
    (forall v m, variance prec emax l = Some (v, m) -> non_negative v /\ m <> S754_nan) /\
    (forall v m, standard_deviation prec emax l = Some (v, m) -> non_negative v /\ m <> S754_nan) /\
    (forall v m, sample_variance prec emax l = Some (Some v, m) -> non_negative v /\ m <> S754_nan) /\
    ((1 < prec)%Z -> forall v m, sample_standard_deviation prec emax l = Some (Some v, m) -> non_negative v /\ m <> S754_nan).
  Proof.
    intros Hl D. fold (dist l) in D. split; [intros m; now apply (mean_nan prec emax Hp He)|].
    split; [intros v m; now apply (variance_non_negative prec emax Hp He)|].
    split; [intros v m; now apply (deviation_non_negative prec emax Hp He)|].
    split; [intros v m; now apply (sample_variance_non_negative prec emax Hp He)|].
    intros H1 v m. now apply (sample_deviation_non_negative prec emax Hp He).
  Qed.

  Lemma mean_error' l n m : Forall (number prec emax) l -> length l = S n -> (Z.of_nat (length l) < 2 ^ prec)%Z ->
    mean prec emax l = Some m -> finite m ->
    let u := powerRZ 2 (- prec) in
    (Rabs (value m - real_mean (map value l)) <=
     ((1 + u) ^ S n - 1) * real_mean (map (fun x => Rabs (value x)) l) + powerRZ 2 (2 - emax - prec))%R.
  Proof.
    intros Hl L D M F. cbn zeta. pose proof (mean_error prec emax Hp He l n m Hl L D M F) as E.
    unfold real_mean in *. rewrite !map_length, L in *. exact E.
  Qed.

  Lemma fold_abs zs : fold_right (fun z s => Z.abs z + s)%Z 0%Z zs = fold_right Z.add 0%Z (map Z.abs zs).
  Proof. induction zs as [|z zs IH]; cbn; congruence. Qed.
  Lemma fold_squares q zs :
    fold_right (fun z s => (z - q) * (z - q) + s)%Z 0%Z zs = fold_right Z.add 0%Z (map (fun z => (z - q) * (z - q))%Z zs).
  Proof. induction zs as [|z zs IH]; cbn [fold_right map]; congruence. Qed.

  Lemma integers l (zs : list Z) q :
    Forall (number prec emax) l -> Forall finite l -> map value l = map IZR zs ->
    let n := Z.of_nat (length l) in
    let squares := fold_right Z.add 0%Z (map (fun z => (z - q) * (z - q))%Z zs) in
    l <> [] -> (n < 2 ^ prec)%Z -> (fold_right Z.add 0 (map Z.abs zs) < 2 ^ prec)%Z -> (squares < 2 ^ prec)%Z ->
    fold_right Z.add 0%Z zs = (q * n)%Z ->
    exists m sq, mean prec emax l = Some m /\ finite m /\ value m = IZR q /\
      cummulative_square_diffs prec emax l = Some (sq, m) /\ finite sq /\ value sq = IZR squares /\
      (forall v, squares = (v * n)%Z -> exists w, variance prec emax l = Some (w, m) /\ finite w /\ value w = IZR v) /\
      (forall v, (1 < n)%Z -> squares = (v * (n - 1))%Z ->
         exists w, sample_variance prec emax l = Some (Some w, m) /\ finite w /\ value w = IZR v).
  Proof.
    intros Hl Fl Hv n squares Hn D A Q E. subst n squares. fold (dist l) in *. rewrite <- fold_abs in A. rewrite <- fold_squares in Q.
    destruct (mean_integer prec emax Hp He l zs q Hl Fl Hv A D Hn E) as (m & Em & Fm & Vm).
    destruct (variance_integer prec emax Hp He l zs q Hl Fl Hv A D Hn E Q) as (sq & m' & Es & Fs & Vs & K1 & K2).
    rewrite fold_squares in *.
    assert (m' = m) as -> by (apply csd_some in Es as (Es & _); congruence).
    exists m, sq. now repeat split.
  Qed.
End properties.

Lemma of_int_value z : (0 < z < 2 ^ 53)%Z -> value (of_int 53 1024 z) = IZR z.
Proof.
  intros H. destruct (of_int_bin 53 1024 eq_refl eq_refl z H) as (b & -> & _ & V & _). now rewrite (value_bin 53 1024).
Qed.
