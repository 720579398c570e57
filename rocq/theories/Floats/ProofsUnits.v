(** Conversions of floating point numbers. *)
From Coq Require Import ZArith List Bool Reals SpecFloat Lia Lra Psatz.
From Flocq Require Import Core BinarySingleNaN Plus_error Sterbenz Relative Div_sqrt_error.
From Verif.Floats Require Import Model ModelStats ModelUnits Spec Proofs ProofsReal ProofsSum ProofsStatsSign ProofsStats.
Import ListNotations.

Lemma Rlt_bool_true_inv x y : Rlt_bool x y = true -> (x < y)%R.
Proof. now destruct (Rlt_bool_spec x y). Qed.
Lemma Rlt_bool_false_inv x y : Rlt_bool x y = false -> (y <= x)%R.
Proof. now destruct (Rlt_bool_spec x y). Qed.

Section format.
  Context (prec emax : Z) (Hp : (0 < prec)%Z) (He : (prec < emax)%Z).

  Local Instance prec_pos : Prec_gt_0 prec := Hp.
  Local Instance prec_emax : Prec_lt_emax prec emax := He.

  Notation bin := (binary_float prec emax).
  Notation fexp := (SpecFloat.fexp prec emax).
  Notation rnd := (round radix2 fexp ZnearestE).

  (** The result of rounding a real number: infinity if that is too large. *)
  Definition rounds (x : spec_float) (r : R) : Prop :=
    ((Rabs (rnd r) < bpow radix2 emax)%R /\ exists b : bin, x = B2SF b /\ is_finite b = true /\ B2R b = rnd r) \/
    ((bpow radix2 emax <= Rabs (rnd r))%R /\ x = S754_infinity (Rlt_bool r 0)).

  Lemma rnd_le r s : (r <= s)%R -> (rnd r <= rnd s)%R.
  Proof. intros H. apply round_le; [apply fexp_correct; exact Hp|apply valid_rnd_N|exact H]. Qed.
  Lemma rnd_0 : rnd 0 = 0%R.
  Proof. apply round_0. apply valid_rnd_N. Qed.
  Lemma rnd_pos r : (0 <= r)%R -> (0 <= rnd r)%R.
  Proof. intros H. rewrite <- rnd_0. now apply rnd_le. Qed.
  Lemma rnd_neg r : (r <= 0)%R -> (rnd r <= 0)%R.
  Proof. intros H. rewrite <- rnd_0. now apply rnd_le. Qed.

  Lemma leb_bin (x y : bin) : is_finite x = true -> is_finite y = true -> (B2R x <= B2R y)%R ->
    SFleb (B2SF x) (B2SF y) = true.
  Proof. intros Fx Fy H. change (Bleb x y = true). rewrite Bleb_correct by assumption. now apply Rle_bool_true. Qed.

  Lemma rounds_mono x y r s : rounds x r -> rounds y s -> (r <= s)%R -> SFleb x y = true.
  Proof.
    intros [[B1 (b & -> & Fb & Vb)]|[B1 ->]] [[B2 (c & -> & Fc & Vc)]|[B2 ->]] H; pose proof (rnd_le r s H) as K.
    - apply leb_bin; [exact Fb|exact Fc|]. lra.
    - assert (s >= 0)%R.
      { destruct (Rle_or_lt 0 s) as [|N]; [lra|]. pose proof (rnd_neg s) as P.
        rewrite (Rabs_left1 (rnd s)) in B2 by (apply P; lra). apply Rabs_def2 in B1. lra. }
      rewrite Rlt_bool_false by lra. clear Vb. now destruct b as [| | |[]].
    - assert (r < 0)%R.
      { destruct (Rle_or_lt 0 r) as [N|]; [|lra]. pose proof (rnd_pos r N) as P.
        rewrite (Rabs_pos_eq (rnd r)) in B1 by exact P. apply Rabs_def2 in B2. lra. }
      rewrite Rlt_bool_true by lra. clear Vc. now destruct c as [| | |[]].
    - destruct (Rlt_bool_spec r 0), (Rlt_bool_spec s 0); try easy. lra.
  Qed.

  Lemma rounds_number x r : rounds x r -> number prec emax x /\ x <> S754_nan.
  Proof.
    intros [[_ (b & -> & Fb & _)]|[_ ->]]; [|easy]. split; [apply (number_B2SF prec emax)|]. now destruct b.
  Qed.

  Lemma rounds_finite x r : rounds x r -> finite x -> exists b : bin, x = B2SF b /\ is_finite b = true /\ B2R b = rnd r.
  Proof. intros [[_ K]|[_ ->]]; [now intros _|]. easy. Qed.

  (** ** Operations *)
  Lemma sign_pos (b : bin) : is_finite b = true -> (if Bsign b then B2R b <= 0 else 0 <= B2R b)%R.
  Proof.
    destruct b as [s|s| |s m e B]; cbn; try easy.
    - intros _. destruct s; lra.
    - intros _. destruct s; cbn; [apply F2R_le_0|apply F2R_ge_0]; cbn; lia.
  Qed.

  Lemma overflow_rounds x r s : B2SF (x : bin) = binary_overflow prec emax mode_NE s ->
    Rlt_bool (Rabs (rnd r)) (bpow radix2 emax) = false -> (if s then r <= 0 else 0 <= r)%R -> rounds (B2SF x) r.
  Proof.
    intros -> B H. apply Rlt_bool_false_inv in B. right. split; [exact B|]. cbn. f_equal.
    assert (r <> 0)%R.
    { intros ->. rewrite rnd_0, Rabs_R0 in B. pose proof (bpow_gt_0 radix2 emax). lra. }
    destruct s; [rewrite Rlt_bool_true by lra|rewrite Rlt_bool_false by lra]; reflexivity.
  Qed.

  Lemma mul_rounds (x c : bin) : is_finite x = true -> is_finite c = true ->
    rounds (SFmul prec emax (B2SF x) (B2SF c)) (B2R x * B2R c).
  Proof.
    intros Fx Fc. rewrite (mul_equiv prec emax Hp He).
    pose proof (Bmult_correct prec emax Hp He mode_NE x c) as C. cbn [round_mode] in C.
    destruct (Rlt_bool _ _) eqn:B.
    - left. apply Rlt_bool_true_inv in B. destruct C as (C1 & C2 & _). split; [exact B|]. eexists. split; [reflexivity|].
      rewrite Fx, Fc in C2. now split.
    - apply (overflow_rounds _ _ _ C B). pose proof (sign_pos x Fx) as Sx. pose proof (sign_pos c Fc) as Sc.
      destruct (Bsign x), (Bsign c); cbn; nra.
  Qed.

  Lemma div_rounds (x c : bin) : is_finite x = true -> is_finite c = true -> (0 < B2R c)%R ->
    rounds (SFdiv prec emax (B2SF x) (B2SF c)) (B2R x / B2R c).
  Proof.
    intros Fx Fc Pc. rewrite (div_equiv prec emax Hp He).
    pose proof (Bdiv_correct prec emax Hp He mode_NE x c) as C. cbn [round_mode] in C. specialize (C ltac:(lra)).
    destruct (Rlt_bool _ _) eqn:B.
    - left. apply Rlt_bool_true_inv in B. destruct C as (C1 & C2 & _). split; [exact B|]. eexists. split; [reflexivity|].
      rewrite Fx in C2. now split.
    - apply (overflow_rounds _ _ _ C B). pose proof (sign_pos x Fx) as Sx.
      assert (Sc : Bsign c = false) by (pose proof (sign_pos c Fc); destruct (Bsign c); [lra|easy]). rewrite Sc, xorb_false_r.
      assert (I : (0 < / B2R c)%R) by now apply Rinv_0_lt_compat. unfold Rdiv. destruct (Bsign x); nra.
  Qed.

  Lemma add_rounds (x c : bin) : is_finite x = true -> is_finite c = true ->
    rounds (SFadd prec emax (B2SF x) (B2SF c)) (B2R x + B2R c).
  Proof.
    intros Fx Fc. rewrite (add_equiv prec emax Hp He).
    pose proof (Bplus_correct prec emax Hp He mode_NE x c Fx Fc) as C. cbn [round_mode] in C.
    destruct (Rlt_bool _ _) eqn:B.
    - left. apply Rlt_bool_true_inv in B. destruct C as (C1 & C2 & _). split; [exact B|]. eexists. split; [reflexivity|].
      now split.
    - destruct C as [C Sg]. apply (overflow_rounds _ _ _ C B). pose proof (sign_pos x Fx) as Sx. pose proof (sign_pos c Fc) as Sc.
      destruct (Bsign x), (Bsign c); try easy; lra.
  Qed.

  Lemma cast_rounds x : finite x -> rounds (cast prec emax x) (value x).
  Proof.
    intros F. destruct x as [s|s| |s m e]; try easy.
    - left. cbn [value]. rewrite rnd_0, Rabs_R0. split; [apply bpow_gt_0|]. now exists (B754_zero s).
    - cbn [cast]. rewrite (binary_normalize_equiv prec emax Hp He).
      pose proof (binary_normalize_correct prec emax Hp He mode_NE (if s then Z.neg m else Z.pos m) e s) as C.
      cbn zeta in C. cbn [round_mode] in C.
      assert (V : F2R (Float radix2 (if s then Z.neg m else Z.pos m) e) = value (S754_finite s m e)).
      { cbn [value]. unfold F2R. cbn [Fnum Fexp]. now rewrite bpow_powerRZ. }
      rewrite V in C. destruct (Rlt_bool (Rabs _) _) eqn:B.
      + left. apply Rlt_bool_true_inv in B. destruct C as (C1 & C2 & _). split; [exact B|]. eexists. split; [reflexivity|]. now split.
      + apply Rlt_bool_false_inv in B. right. split; [exact B|]. exact C.
  Qed.
End format.

(** ** Monotone operations, from one format to another *)
Section monotone.
  Context (pA eA pB eB : Z) (HpA : (0 < pA)%Z) (HeA : (pA < eA)%Z) (HpB : (0 < pB)%Z) (HeB : (pB < eB)%Z).

  Definition operation (f : spec_float -> spec_float) (g : R -> R) : Prop :=
    (forall x, number pA eA x -> finite x -> rounds pB eB (f x) (g (value x))) /\
    (forall s, f (S754_infinity s) = S754_infinity s).

  Lemma operation_number f g x : operation f g -> number pA eA x -> x <> S754_nan ->
    number pB eB (f x) /\ f x <> S754_nan.
  Proof.
    intros [F I] N H. destruct x as [s|s| |s m e]; try easy; try (apply (rounds_number pB eB _ _ (F _ N Logic.I))).
    rewrite I. easy.
  Qed.

  Lemma leb_value x y : number pA eA x -> number pA eA y -> finite x -> finite y -> SFleb x y = true ->
    (value x <= value y)%R.
  Proof.
    intros (a & <- & _)%(number_bin pA eA) (b & <- & _)%(number_bin pA eA) Fa Fb H.
    apply (finite_bin pA eA) in Fa, Fb. change (Bleb a b = true) in H. rewrite Bleb_correct in H by assumption.
    rewrite !(value_bin pA eA). destruct (Rle_bool_spec (B2R a) (B2R b)); [assumption|discriminate].
  Qed.

  Lemma operation_mono f g x y : operation f g -> (forall r s, (r <= s)%R -> (g r <= g s)%R) ->
    number pA eA x -> number pA eA y -> SFleb x y = true -> SFleb (f x) (f y) = true.
  Proof.
    intros O M Nx Ny H.
    assert (Xn : x <> S754_nan) by (intros ->; now destruct y).
    assert (Yn : y <> S754_nan) by (intros ->; now destruct x as [[]|[]| |[]]).
    destruct (operation_number f g x O Nx Xn) as [_ Fx]. destruct (operation_number f g y O Ny Yn) as [_ Fy].
    destruct O as [F I].
    assert (D : forall z, z <> S754_nan -> finite z \/ exists s, z = S754_infinity s).
    { intros [| | |]; cbn; try (now left); try easy. right. now eexists. }
    destruct (D x Xn) as [Hx|[s ->]], (D y Yn) as [Hy|[t ->]].
    - apply (rounds_mono pB eB HpB _ _ (g (value x)) (g (value y))); [now apply F|now apply F|].
      apply M. now apply leb_value.
    - destruct t; [now destruct x as [| | |[]]|]. rewrite I. destruct (f x) as [|[]| |[]]; easy.
    - destruct s; [|now destruct y as [| | |[]]]. rewrite I. destruct (f y) as [|[]| |[]]; easy.
    - rewrite !I. exact H.
  Qed.
End monotone.

(** ** The conversion *)
Section conversion.
  Context (prec emax Prec Emax : Z) (Hp : (0 < prec)%Z) (He : (prec < emax)%Z) (HP : (0 < Prec)%Z) (HE : (Prec < Emax)%Z).

  Notation u := (powerRZ 2 (- prec)).
  Notation eta := (powerRZ 2 (2 - emax - prec)).
  Notation U := (powerRZ 2 (- Prec)).

  Lemma mul_operation c : (0 < c < 2 ^ prec)%Z ->
    operation prec emax prec emax (fun x => SFmul prec emax x (of_int prec emax c)) (fun r => r * IZR c)%R.
  Proof.
    intros H. destruct (of_int_bin prec emax Hp He c H) as (b & -> & Fb & <- & m & e & Eb). split.
    - intros x (a & <- & <-)%(number_bin prec emax) F. apply mul_rounds; [exact Hp|exact He| |exact Fb].
      now apply (finite_bin prec emax).
    - intros s. rewrite Eb. now destruct s.
  Qed.

  Lemma div_operation c : (0 < c < 2 ^ prec)%Z ->
    operation prec emax prec emax (fun x => SFdiv prec emax x (of_int prec emax c)) (fun r => r / IZR c)%R.
  Proof.
    intros H. destruct (of_int_bin prec emax Hp He c H) as (b & -> & Fb & Vb & m & e & Eb). split.
    - intros x (a & <- & <-)%(number_bin prec emax) F. rewrite <- Vb. apply div_rounds; [exact Hp|exact He| |exact Fb|].
      + now apply (finite_bin prec emax).
      + rewrite Vb. apply IZR_lt. lia.
    - intros s. rewrite Eb. now destruct s.
  Qed.

  Lemma add_operation d : number Prec Emax d -> finite d ->
    operation Prec Emax Prec Emax (fun x => SFadd Prec Emax x d) (fun r => r + value d)%R.
  Proof.
    intros (b & <- & <-)%(number_bin Prec Emax) F. split.
    - intros x (a & <- & <-)%(number_bin Prec Emax) Fx. apply add_rounds; [exact HP|exact HE|now apply (finite_bin Prec Emax)..].
    - intros s. now destruct b.
  Qed.

  Lemma widen_operation : operation prec emax Prec Emax (cast Prec Emax) (fun r => r).
  Proof. split; [|easy]. intros x _ F. now apply (cast_rounds Prec Emax HP HE). Qed.
  Lemma narrow_operation : operation Prec Emax prec emax (cast prec emax) (fun r => r).
  Proof. split; [|easy]. intros x _ F. now apply (cast_rounds prec emax Hp He). Qed.

  Lemma convert_mono num den d v w : (0 < num < 2 ^ prec)%Z -> (0 < den < 2 ^ prec)%Z ->
    number Prec Emax d -> finite d -> number prec emax v -> number prec emax w -> SFleb v w = true ->
    SFleb (convert prec emax Prec Emax num den d v) (convert prec emax Prec Emax num den d w) = true.
  Proof.
    intros Hn Hd Nd Fd Nv Nw H. unfold convert, scale.
    assert (Vn : v <> S754_nan) by (intros ->; now destruct w).
    assert (Wn : w <> S754_nan) by (intros ->; now destruct v as [[]|[]| |[]]).
    pose proof (mul_operation num Hn) as O1. pose proof (div_operation den Hd) as O2. pose proof (add_operation d Nd Fd) as O4.
    pose proof widen_operation as O3. pose proof narrow_operation as O5.
    destruct (operation_number _ _ _ _ _ _ _ O1 Nv Vn) as [N1 E1]. destruct (operation_number _ _ _ _ _ _ _ O1 Nw Wn) as [N1' E1'].
    destruct (operation_number _ _ _ _ _ _ _ O2 N1 E1) as [N2 E2]. destruct (operation_number _ _ _ _ _ _ _ O2 N1' E1') as [N2' E2'].
    destruct (operation_number _ _ _ _ _ _ _ O3 N2 E2) as [N3 E3]. destruct (operation_number _ _ _ _ _ _ _ O3 N2' E2') as [N3' E3'].
    destruct (operation_number _ _ _ _ _ _ _ O4 N3 E3) as [N4 E4]. destruct (operation_number _ _ _ _ _ _ _ O4 N3' E3') as [N4' E4'].
    apply (operation_mono _ _ _ _ Hp _ _ _ _ O5 ltac:(easy) N4 N4').
    apply (operation_mono _ _ _ _ HP _ _ _ _ O4 ltac:(intros; lra) N3 N3').
    apply (operation_mono _ _ _ _ HP _ _ _ _ O3 ltac:(easy) N2 N2').
    apply (operation_mono _ _ _ _ Hp _ _ _ _ O2); [|exact N1|exact N1'|].
    { intros r s K. apply Rmult_le_compat_r; [|exact K]. left. apply Rinv_0_lt_compat, IZR_lt. lia. }
    apply (operation_mono _ _ _ _ Hp _ _ _ _ O1); [|exact Nv|exact Nw|exact H].
    intros r s K. apply Rmult_le_compat_r; [|exact K]. apply IZR_le. lia.
  Qed.

  (** ** Validity of values converted from the root *)
  Lemma leb_ltb x y : SFleb x y = true -> SFltb y x = false.
  Proof.
    destruct x as [sx|sx| |sx mx ex], y as [sy|sy| |sy my ey]; cbn; try easy; try (now destruct sx); try (now destruct sy);
      try (now destruct sx, sy).
    unfold SFleb, SFltb. cbn. destruct sx, sy; try easy; rewrite (Z.compare_antisym ex ey); destruct (Z.compare ex ey); cbn; try easy;
      change (Pos.compare_cont Eq my mx) with (Pos.compare my mx); change (Pos.compare_cont Eq mx my) with (Pos.compare mx my);
      rewrite (Pos.compare_antisym mx my); now destruct (Pos.compare mx my).
  Qed.

  Lemma add_comm x y : SFadd Prec Emax x y = SFadd Prec Emax y x.
  Proof.
    destruct x as [sx|sx| |sx mx ex], y as [sy|sy| |sy my ey]; try easy; try (now destruct sx, sy).
    cbn [SFadd]. rewrite (Z.min_comm ey ex). f_equal. apply Z.add_comm.
  Qed.

  Lemma lower_root first units : lower_bound Prec Emax first units = root_disp Prec Emax first units.
  Proof.
    unfold lower_bound, root_disp, product_disp. revert first. induction units as [|k units IH]; intros d; [easy|].
    cbn [fold_left]. rewrite IH. now rewrite (add_comm (disp k)).
  Qed.

  Lemma convert_zero num den d : (0 < num < 2 ^ prec)%Z -> (0 < den < 2 ^ prec)%Z -> finite d ->
    same_but_zero (cast prec emax d) (convert prec emax Prec Emax num den d (S754_zero false)).
  Proof.
    intros Hn Hd Fd. unfold convert, scale.
    destruct (of_int_bin prec emax Hp He num Hn) as (bn & -> & _ & _ & mn & en & ->).
    destruct (of_int_bin prec emax Hp He den Hd) as (bd & -> & _ & _ & md & ed & ->). cbn [SFmul SFdiv xorb cast].
    destruct d as [s|s| |s m e]; try easy.
    - right. exists s. now destruct s; eexists.
    - now left.
  Qed.

  Lemma from_root num den first units v : (0 < num < 2 ^ prec)%Z -> (0 < den < 2 ^ prec)%Z ->
    let d := root_disp Prec Emax first units in
    number Prec Emax d -> finite d -> number prec emax v -> SFleb (S754_zero false) v = true ->
    interval_accepts prec emax (lower_bound Prec Emax first units) (convert prec emax Prec Emax num den d v) = true.
  Proof.
    intros Hn Hd d Nd Fd Nv H. unfold interval_accepts. rewrite lower_root. fold d.
    assert (K : SFltb (convert prec emax Prec Emax num den d v) (cast prec emax d) = false); [|now rewrite K].
    pose proof (convert_mono num den d (S754_zero false) v Hn Hd Nd Fd eq_refl Nv H) as M.
    apply leb_ltb. destruct (convert_zero num den d Hn Hd Fd) as [-> |(s & t & -> & E)]; [exact M|].
    rewrite E in M. revert M. generalize (convert prec emax Prec Emax num den d v). now intros [| | |].
  Qed.

  (** ** Errors *)
  Lemma rnd_error p e r : (0 < p)%Z ->
    (Rabs (round radix2 (SpecFloat.fexp p e) ZnearestE r - r) <= powerRZ 2 (- p) * Rabs r + powerRZ 2 (2 - e - p))%R.
  Proof.
    intros H. destruct (error_N_FLT radix2 (SpecFloat.emin p e) p H (fun n => negb (Z.even n)) r) as (a & h & E & K & _ & Q).
    change (round radix2 (FLT_exp (SpecFloat.emin p e) p) _ r) with (round radix2 (SpecFloat.fexp p e) ZnearestE r) in Q. rewrite Q.
    rewrite (u_eq p) in E. rewrite (eta_eq p e) in K. replace (r * (1 + a) + h - r)%R with (a * r + h)%R by ring.
    eapply Rle_trans; [apply Rabs_triang|]. rewrite Rabs_mult.
    apply Rplus_le_compat; [|exact K]. apply Rmult_le_compat_r; [apply Rabs_pos|exact E].
  Qed.

  (** A number of the narrower format is one of the wider. *)
  Lemma widen_exact x : (prec <= Prec)%Z -> (emax <= Emax)%Z -> number prec emax x -> finite x ->
    number Prec Emax (cast Prec Emax x) /\ finite (cast Prec Emax x) /\ value (cast Prec Emax x) = value x.
  Proof.
    intros H1 H2 Nx Fx. pose proof (cast_rounds Prec Emax HP HE x Fx) as R.
    destruct (rounds_number Prec Emax _ _ R) as [N _]. split; [exact N|].
    assert (G : round radix2 (SpecFloat.fexp Prec Emax) ZnearestE (value x) = value x).
    { apply round_generic; [apply valid_rnd_N|]. apply (number_bin prec emax) in Nx as (b & <- & <-).
      apply (generic_inclusion_mag radix2 (SpecFloat.fexp prec emax)); [|apply generic_format_B2R].
      intros _. unfold SpecFloat.fexp, SpecFloat.emin. lia. }
    destruct R as [[_ (b & -> & Fb & Vb)]|[B _]].
    - rewrite (value_bin Prec Emax), (finite_bin Prec Emax). split; [exact Fb|]. congruence.
    - exfalso. rewrite G in B. apply (number_bin prec emax) in Nx as (b & <- & E). rewrite <- E in B.
      pose proof (abs_B2R_lt_emax prec emax b) as K. pose proof (bpow_le radix2 emax Emax H2) as L. lra.
  Qed.

  Lemma operation_finite pA eA pB eB f g x : operation pA eA pB eB f g -> number pA eA x -> finite (f x) ->
    x <> S754_nan -> finite x.
  Proof. intros [_ I] Nx F N. destruct x as [| | |]; try easy. now rewrite I in F. Qed.

  Lemma convert_error num den d v : (prec <= Prec)%Z -> (emax <= Emax)%Z -> (0 < num < 2 ^ prec)%Z -> (0 < den < 2 ^ prec)%Z ->
    number Prec Emax d -> finite d -> number prec emax v -> finite v ->
    finite (convert prec emax Prec Emax num den d v) ->
    exists q : R,
      (Rabs (q - value v * IZR num / IZR den) <= ((1 + u) * (1 + u) - 1) * Rabs (value v * IZR num / IZR den) + (2 + u) * eta)%R /\
      (Rabs (value (convert prec emax Prec Emax num den d v) - (q + value d))
       <= ((1 + u) * (1 + U) - 1) * Rabs (q + value d) + eta)%R.
  Proof.
    intros H1 H2 Hn Hd Nd Fd Nv Fv F. unfold convert, scale in *.
    pose proof (mul_operation num Hn) as O1. pose proof (div_operation den Hd) as O2. pose proof (add_operation d Nd Fd) as O4.
    pose proof widen_operation as O3. pose proof narrow_operation as O5.
    assert (Vn : v <> S754_nan) by now destruct v.
    destruct (operation_number _ _ _ _ _ _ _ O1 Nv Vn) as [N1 E1]. destruct (operation_number _ _ _ _ _ _ _ O2 N1 E1) as [N2 E2].
    destruct (operation_number _ _ _ _ _ _ _ O3 N2 E2) as [N3 E3]. destruct (operation_number _ _ _ _ _ _ _ O4 N3 E3) as [N4 E4].
    pose proof (operation_finite _ _ _ _ _ _ _ O5 N4 F E4) as F4. pose proof (operation_finite _ _ _ _ _ _ _ O4 N3 F4 E3) as F3.
    pose proof (operation_finite _ _ _ _ _ _ _ O3 N2 F3 E2) as F2. pose proof (operation_finite _ _ _ _ _ _ _ O2 N1 F2 E1) as F1.
    destruct (rounds_finite _ _ _ _ (proj1 O1 v Nv Fv) F1) as (b1 & K1 & _ & V1).
    destruct (rounds_finite _ _ _ _ (proj1 O2 _ N1 F1) F2) as (b2 & K2 & _ & V2).
    destruct (rounds_finite _ _ _ _ (proj1 O5 _ N4 F4) F) as (b5 & K5 & _ & V5).
    destruct (widen_exact _ H1 H2 N2 F2) as (_ & _ & V3).
    set (x1 := SFmul _ _ v _) in *. set (x2 := SFdiv _ _ x1 _) in *. set (x3 := cast Prec Emax x2) in *.
    set (x4 := SFadd _ _ x3 d) in *.
    assert (E4' : (Rabs (value x4 - (value x3 + value d)) <= U * Rabs (value x3 + value d))%R).
    { unfold x4 in *. clearbody x3. clear - N3 F3 Nd Fd F4 HP HE.
      apply (number_bin Prec Emax) in N3 as (a & <- & _). apply (number_bin Prec Emax) in Nd as (b & <- & _).
      rewrite (add_equiv Prec Emax HP HE) in *. rewrite !(value_bin Prec Emax).
      apply (finite_bin Prec Emax) in F3, Fd, F4. now apply (add_error Prec Emax HP HE). }
    rewrite K5, (value_bin prec emax), V5. exists (value x2).
    pose proof (rnd_error prec emax (value v * IZR num) Hp) as R1. rewrite <- V1, <- (value_bin prec emax), <- K1 in R1.
    pose proof (rnd_error prec emax (value x1 / IZR den) Hp) as R2. rewrite <- V2, <- (value_bin prec emax), <- K2 in R2.
    pose proof (rnd_error prec emax (value x4) Hp) as R5. set (y := round _ _ _ (value x4)) in *. rewrite V3 in E4'.
    pose proof (u_pos prec) as Pu. pose proof (u_pos Prec) as PU. pose proof (eta_pos prec emax) as Pe. clear V1 V2 V5 K1 K2 K5 V3.
    assert (Dn : (1 <= IZR den)%R) by (apply IZR_le; lia).
    assert (Id : (0 < / IZR den <= 1)%R).
    { split; [apply Rinv_0_lt_compat; lra|]. rewrite <- Rinv_1. apply Rinv_le; lra. }
    split.
    - unfold Rdiv in *. set (r := (value v * IZR num)%R) in *. set (i := (/ IZR den)%R) in *.
      set (a := value x1) in *. set (c := value x2) in *.
      assert (A1 : (Rabs (a * i - r * i) <= u * Rabs (r * i) + eta)%R).
      { replace (a * i - r * i)%R with ((a - r) * i)%R by ring. rewrite !Rabs_mult, (Rabs_pos_eq i) by lra.
        apply Rle_trans with ((u * Rabs r + eta) * i)%R; [apply Rmult_le_compat_r; lra|]. 
        assert (eta * i <= eta * 1)%R by (apply Rmult_le_compat_l; lra). lra. }
      assert (A2 : (Rabs (a * i) <= (1 + u) * Rabs (r * i) + eta)%R).
      { replace (a * i)%R with (r * i + (a * i - r * i))%R by ring. eapply Rle_trans; [apply Rabs_triang|]. lra. }
      replace (c - r * i)%R with ((c - a * i) + (a * i - r * i))%R by ring. eapply Rle_trans; [apply Rabs_triang|].
      assert (u * Rabs (a * i) <= u * ((1 + u) * Rabs (r * i) + eta))%R by (apply Rmult_le_compat_l; lra). lra.
    - set (t := (value x2 + value d)%R) in *. set (s := value x4) in *.
      assert (A : (Rabs s <= (1 + U) * Rabs t)%R).
      { replace s with (t + (s - t))%R by ring. eapply Rle_trans; [apply Rabs_triang|]. lra. }
      replace (y - t)%R with ((y - s) + (s - t))%R by ring. eapply Rle_trans; [apply Rabs_triang|].
      assert (u * Rabs s <= u * ((1 + U) * Rabs t))%R by (apply Rmult_le_compat_l; lra). lra.
  Qed.

  (** A conversion which changes nothing. *)
  Lemma convert_identity v s : (prec <= Prec)%Z -> (emax <= Emax)%Z -> number prec emax v -> finite v ->
    finite (convert prec emax Prec Emax 1 1 (S754_zero s) v) /\
    value (convert prec emax Prec Emax 1 1 (S754_zero s) v) = value v.
  Proof.
    intros H1 H2 Nv Fv. assert (O : (0 < 1 < 2 ^ prec)%Z) by (split; [lia|]; apply Z.pow_gt_1; lia).
    assert (Exact : forall x r, rounds prec emax x r -> r = value v -> number prec emax x /\ finite x /\ value x = value v).
    { intros x r R ->. apply (number_bin prec emax) in Nv as (b & <- & E). rewrite <- E in *.
      assert (G : round radix2 (SpecFloat.fexp prec emax) ZnearestE (B2R b) = B2R b)
        by (apply round_generic; [apply valid_rnd_N|apply generic_format_B2R]).
      destruct R as [[_ (c & -> & Fc & Vc)]|[B _]].
      - split; [apply (number_B2SF prec emax)|]. rewrite (finite_bin prec emax), (value_bin prec emax). split; [exact Fc|]. congruence.
      - rewrite G in B. pose proof (abs_B2R_lt_emax prec emax b). lra. }
    unfold convert, scale.
    destruct (Exact _ _ (proj1 (mul_operation 1 O) v Nv Fv) ltac:(ring)) as (N1 & F1 & V1).
    destruct (Exact _ _ (proj1 (div_operation 1 O) _ N1 F1) ltac:(rewrite V1; field)) as (N2 & F2 & V2).
    destruct (widen_exact _ H1 H2 N2 F2) as (N3 & F3 & V3).
    set (x := cast Prec Emax _) in *. clearbody x.
    assert (K : finite (SFadd Prec Emax x (S754_zero s)) /\ value (SFadd Prec Emax x (S754_zero s)) = value x).
    { destruct x as [t|t| |t m e]; try easy. cbn. now destruct (Bool.eqb t s). }
    destruct K as [F4 V4]. apply (Exact _ _ (cast_rounds prec emax Hp He _ F4)). congruence.
  Qed.
End conversion.
