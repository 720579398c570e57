(** What the results are as real numbers.  The operations are those of Flocq. *)
From Coq Require Import ZArith List Bool Reals SpecFloat Lia Lra Psatz.
From Flocq Require Import Core BinarySingleNaN Plus_error Sterbenz Relative.
From Verif.Floats Require Import Model Spec.
Import ListNotations.

Section format.
  Context (prec emax : Z) (Hp : (0 < prec)%Z) (He : (prec < emax)%Z).

  Local Instance prec_pos : Prec_gt_0 prec := Hp.
  Local Instance prec_emax : Prec_lt_emax prec emax := He.

  Notation bin := (binary_float prec emax).
  Notation fexp := (SpecFloat.fexp prec emax).
  Notation rnd := (round radix2 fexp ZnearestE).

  Lemma round_nearest_even_equiv s m l : round_nearest_even m l = choice_mode mode_NE s m l.
  Proof. destruct l as [|[]]; try reflexivity. cbn. unfold Round.cond_incr. now destruct (Z.even m). Qed.

  Lemma binary_round_aux_equiv sx mx ex lx :
    SpecFloat.binary_round_aux prec emax sx mx ex lx = BinarySingleNaN.binary_round_aux prec emax mode_NE sx mx ex lx.
  Proof.
    unfold SpecFloat.binary_round_aux, BinarySingleNaN.binary_round_aux.
    destruct (shr_fexp prec emax mx ex lx) as [mrs e]. now rewrite (round_nearest_even_equiv sx).
  Qed.

  Lemma binary_normalize_equiv m e szero :
    SpecFloat.binary_normalize prec emax m e szero
    = B2SF (BinarySingleNaN.binary_normalize prec emax prec_pos prec_emax mode_NE m e szero).
  Proof.
    destruct m as [|p|p]; [easy| |]; cbn; rewrite B2SF_SF2B;
      unfold SpecFloat.binary_round, BinarySingleNaN.binary_round, shl_align_fexp;
      destruct (shl_align _ _ _); apply binary_round_aux_equiv.
  Qed.

  Lemma mul_equiv (x y : bin) : SFmul prec emax (B2SF x) (B2SF y) = B2SF (Bmult mode_NE x y).
  Proof.
    destruct x as [sx|sx| |sx mx ex Bx], y as [sy|sy| |sy my ey By]; try easy.
    cbn. rewrite B2SF_SF2B. apply binary_round_aux_equiv.
  Qed.

  Lemma add_equiv (x y : bin) : SFadd prec emax (B2SF x) (B2SF y) = B2SF (Bplus mode_NE x y).
  Proof.
    destruct x as [sx|sx| |sx mx ex Bx], y as [sy|sy| |sy my ey By];
      try easy; try (cbn; now destruct (Bool.eqb _ _)).
    apply binary_normalize_equiv.
  Qed.

  Lemma sub_equiv (x y : bin) : SFsub prec emax (B2SF x) (B2SF y) = B2SF (Bminus mode_NE x y).
  Proof.
    destruct x as [sx|sx| |sx mx ex Bx], y as [sy|sy| |sy my ey By];
      try easy; try (cbn; now destruct (Bool.eqb _ _)).
    cbn -[Z.min]. unfold Zminus. rewrite <- cond_Zopp_negb. apply binary_normalize_equiv.
  Qed.

  Lemma sqrt_equiv (x : bin) : SFsqrt prec emax (B2SF x) = B2SF (Bsqrt mode_NE x).
  Proof.
    destruct x as [sx|sx| |[] mx ex Bx]; try easy; try (now destruct sx).
    cbn -[SFsqrt_core_binary]. rewrite B2SF_SF2B.
    destruct (SFsqrt_core_binary prec emax _ _) as [[mz ez] lz]. apply binary_round_aux_equiv.
  Qed.

  Lemma abs_equiv (x : bin) : SFabs (B2SF x) = B2SF (Babs x).
  Proof. now destruct x. Qed.

  Lemma value_SF2R x : value x = SF2R radix2 x.
  Proof.
    destruct x as [| | |s m e]; try easy. cbn. unfold F2R. cbn. rewrite bpow_powerRZ. now destruct s.
  Qed.

  (** A number of the format is one of Flocq. *)
  Lemma number_bin x : number prec emax x -> exists b : bin, B2SF b = x /\ B2R b = value x.
  Proof.
    intros H. exists (SF2B x H). split; [apply B2SF_SF2B|]. rewrite value_SF2R. apply B2R_SF2B.
  Qed.

  Lemma finite_bin (b : bin) : finite (B2SF b) <-> is_finite b = true.
  Proof. now destruct b. Qed.

  Lemma value_bin (b : bin) : value (B2SF b) = B2R b.
  Proof. rewrite value_SF2R. now destruct b. Qed.

  Lemma number_B2SF (b : bin) : number prec emax (B2SF b).
  Proof. apply valid_binary_B2SF. Qed.

  (** ** Tolerances *)
  Lemma within_accepts tol x y :
    number prec emax tol -> number prec emax x -> number prec emax y -> finite tol -> finite x -> finite y ->
    (Rabs (value x - value y) <= value tol)%R -> within_tolerance prec emax tol x y = true.
  Proof.
    intros (bt & <- & Rt)%number_bin (bx & <- & Rx)%number_bin (bY & <- & Ry)%number_bin Ft Fx Fy.
    apply finite_bin in Ft, Fx, Fy. rewrite <- Rt, <- Rx, <- Ry. intros H.
    unfold within_tolerance. rewrite sub_equiv, abs_equiv.
    change (Bleb (Babs (Bminus mode_NE bx bY)) bt = true).
    assert (K : (Rabs (rnd (B2R bx - B2R bY)) <= B2R bt)%R).
    { apply abs_round_le_generic; [apply fexp_correct; exact Hp|apply valid_rnd_N|apply generic_format_B2R|exact H]. }
    pose proof (Bminus_correct prec emax _ _ mode_NE bx bY Fx Fy) as C. cbn [round_mode] in C.
    rewrite Rlt_bool_true in C.
    - destruct C as (C1 & C2 & _).
      rewrite Bleb_correct; [|now rewrite is_finite_Babs|exact Ft].
      rewrite B2R_Babs, C1. now apply Rle_bool_true.
    - eapply Rle_lt_trans; [exact K|]. eapply Rle_lt_trans; [apply Rle_abs|]. apply abs_B2R_lt_emax.
  Qed.

  (** The computed difference is that of the real numbers, rounded, if there is a finite tolerance to compare it with. *)
  Lemma within_rounded (bt bx bY : bin) : is_finite bt = true -> is_finite bx = true -> is_finite bY = true ->
    within_tolerance prec emax (B2SF bt) (B2SF bx) (B2SF bY) = true ->
    (Rabs (rnd (B2R bx - B2R bY)) <= B2R bt)%R.
  Proof.
    intros Ft Fx Fy. unfold within_tolerance. rewrite sub_equiv, abs_equiv.
    change (Bleb (Babs (Bminus mode_NE bx bY)) bt = true -> (Rabs (rnd (B2R bx - B2R bY)) <= B2R bt)%R).
    pose proof (Bminus_correct prec emax _ _ mode_NE bx bY Fx Fy) as C. cbn [round_mode] in C.
    destruct (Rlt_bool _ _).
    - destruct C as (C1 & C2 & _).
      rewrite Bleb_correct; [|now rewrite is_finite_Babs|exact Ft].
      rewrite B2R_Babs, C1. now destruct (Rle_bool_spec (Rabs (rnd (B2R bx - B2R bY))) (B2R bt)).
    - destruct C as [C _]. unfold Bleb. rewrite <- abs_equiv, C. unfold binary_overflow. cbn.
      now destruct bt.
  Qed.

  Lemma within_bound tol x y :
    number prec emax tol -> number prec emax x -> number prec emax y -> finite tol -> finite x -> finite y ->
    within_tolerance prec emax tol x y = true ->
    (Rabs (value x - value y) <= value tol * (1 + powerRZ 2 (- prec)))%R.
  Proof.
    intros (bt & <- & Rt)%number_bin (bx & <- & Rx)%number_bin (bY & <- & Ry)%number_bin Ft Fx Fy H.
    apply finite_bin in Ft, Fx, Fy. rewrite <- Rt, <- Rx, <- Ry.
    apply within_rounded in H; [|assumption..].
    destruct (FLT_plus_error_N_round_ex radix2 (SpecFloat.emin prec emax) prec (fun n => negb (Z.even n)) (B2R bx) (- B2R bY))
      as (eps & E1 & E2).
    { apply generic_format_B2R. }
    { apply generic_format_opp, generic_format_B2R. }
    change (round radix2 (FLT_exp (SpecFloat.emin prec emax) prec) _ (B2R bx + - B2R bY))
      with (rnd (B2R bx - B2R bY)) in E2.
    change (B2R bx + - B2R bY)%R with (B2R bx - B2R bY)%R in E2.
    rewrite E2, Rabs_mult.
    assert (U : u_ro radix2 prec = powerRZ 2 (- prec)).
    { unfold u_ro. rewrite bpow_plus, bpow_powerRZ. cbn. lra. }
    rewrite U in E1.
    assert (T : (Rabs (1 + eps) <= 1 + powerRZ 2 (- prec))%R).
    { eapply Rle_trans; [apply Rabs_triang|]. rewrite Rabs_R1. lra. }
    apply Rmult_le_compat; [apply Rabs_pos|apply Rabs_pos|exact H|exact T].
  Qed.

  (** If neither number is more than twice the other, the difference is exact. *)
  Lemma within_near tol x y :
    number prec emax tol -> number prec emax x -> number prec emax y -> finite tol -> finite x -> finite y ->
    (value y / 2 <= value x <= 2 * value y)%R ->
    within_tolerance prec emax tol x y = true <-> (Rabs (value x - value y) <= value tol)%R.
  Proof.
    intros Nt Nx Ny Ft Fx Fy H. split; [|now apply within_accepts].
    intros K. apply number_bin in Nt as (bt & <- & Rt), Nx as (bx & <- & Rx), Ny as (bY & <- & Ry).
    apply finite_bin in Ft, Fx, Fy.
    apply within_rounded in K; [|assumption..]. rewrite Rx, Ry, Rt in K.
    rewrite round_generic in K; [exact K|apply valid_rnd_N|].
    apply sterbenz; [apply fexp_correct; exact Hp|apply fexp_monotone| | |exact H].
    - rewrite <- Rx. apply generic_format_B2R.
    - rewrite <- Ry. apply generic_format_B2R.
  Qed.
End format.
