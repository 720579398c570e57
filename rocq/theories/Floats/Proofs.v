(** Laws which hold for the results themselves, whatever is lost by rounding. *)
From Coq Require Import ZArith List Bool SpecFloat Lia.
From Verif.Floats Require Import Model Spec.
Import ListNotations.

Section format.
  Context (prec emax : Z).

  Lemma abs_round_aux s m e l :
    SFabs (binary_round_aux prec emax s m e l) = SFabs (binary_round_aux prec emax false m e l).
  Proof.
    unfold binary_round_aux. destruct (shr_fexp prec emax m e l) as [r e1].
    destruct (shr_fexp prec emax _ e1 loc_Exact) as [r2 e2]. destruct (shr_m r2) as [|p|p]; [easy| |easy].
    now destruct (Zle_bool e2 (emax - prec)).
  Qed.

  Lemma abs_round s m e : SFabs (binary_round prec emax s m e) = SFabs (binary_round prec emax false m e).
  Proof. unfold binary_round. destruct (shl_align m e _) as [m' e']. apply abs_round_aux. Qed.

  Lemma abs_normalize_opp m e s :
    SFabs (binary_normalize prec emax (- m) e s) = SFabs (binary_normalize prec emax m e s).
  Proof.
    destruct m as [|p|p]; cbn [Z.opp binary_normalize]; [easy| |].
    - apply abs_round.
    - symmetry. apply abs_round.
  Qed.

  Lemma abs_sub x y : SFabs (SFsub prec emax x y) = SFabs (SFsub prec emax y x).
  Proof.
    destruct x as [[]|[]| |s1 m1 e1], y as [[]|[]| |s2 m2 e2]; try easy.
    cbn [SFsub]. rewrite (Z.min_comm e2 e1).
    rewrite <- abs_normalize_opp. f_equal. f_equal. lia.
  Qed.

  Lemma within_symmetric tol x y : within_tolerance prec emax tol x y = within_tolerance prec emax tol y x.
  Proof. unfold within_tolerance. now rewrite abs_sub. Qed.

  Lemma within_nan tol x y : x = S754_nan \/ y = S754_nan \/ tol = S754_nan -> within_tolerance prec emax tol x y = false.
  Proof.
    unfold within_tolerance, SFleb. intros [-> |[-> | ->]].
    - easy.
    - now destruct x.
    - now destruct (SFabs _).
  Qed.

  (** An infinity is at no finite distance from anything, and at none at all from itself. *)
  Lemma within_infinity tol s y : SFleb tol (S754_infinity false) = true ->
    within_tolerance prec emax tol (S754_infinity s) y = true ->
    tol = S754_infinity false /\ y <> S754_infinity s /\ y <> S754_nan.
  Proof.
    unfold within_tolerance, SFleb. intros H.
    destruct tol as [|[]| |[]], y as [|s2| |]; cbn; try discriminate; try easy;
      destruct s; try destruct s2; cbn; try discriminate; easy.
  Qed.

  Lemma leb_trans x y z : SFleb x y = true -> SFleb y z = true -> SFleb x z = true.
  Proof.
    unfold SFleb.
    destruct x as [sx|sx| |sx mx ex], y as [sy|sy| |sy my ey], z as [sz|sz| |sz mz ez]; cbn;
      try discriminate; try easy;
      try (destruct sx; try discriminate); try (destruct sy; try discriminate); try (destruct sz; try discriminate); try easy.
    - change (Pos.compare_cont Eq mx my) with (Pos.compare mx my).
      change (Pos.compare_cont Eq my mz) with (Pos.compare my mz).
      change (Pos.compare_cont Eq mx mz) with (Pos.compare mx mz).
      destruct (Z.compare_spec ex ey), (Z.compare_spec ey ez), (Z.compare_spec ex ez); try easy; try lia.
      destruct (Pos.compare_spec mx my), (Pos.compare_spec my mz), (Pos.compare_spec mx mz); cbn; try easy; lia.
    - change (Pos.compare_cont Eq mx my) with (Pos.compare mx my).
      change (Pos.compare_cont Eq my mz) with (Pos.compare my mz).
      change (Pos.compare_cont Eq mx mz) with (Pos.compare mx mz).
      destruct (Z.compare_spec ex ey), (Z.compare_spec ey ez), (Z.compare_spec ex ez); try easy; try lia.
      destruct (Pos.compare_spec mx my), (Pos.compare_spec my mz), (Pos.compare_spec mx mz); cbn; try easy; lia.
  Qed.

  Lemma within_wider t1 t2 x y : SFleb t1 t2 = true ->
    within_tolerance prec emax t1 x y = true -> within_tolerance prec emax t2 x y = true.
  Proof. intros H1 H2. exact (leb_trans _ _ _ H2 H1). Qed.

  (** The difference of a finite number and itself is zero. *)
  Lemma within_same tol x : finite x -> SFleb (S754_zero false) tol = true ->
    within_tolerance prec emax tol x x = true.
  Proof.
    intros F H. unfold within_tolerance.
    destruct x as [[]|s| |s m e]; try contradiction; cbn; try exact H.
    now rewrite Z.sub_diag.
  Qed.

  (** ** Inner products *)
  Lemma mul_comm x y : SFmul prec emax x y = SFmul prec emax y x.
  Proof.
    destruct x as [sx|sx| |sx mx ex], y as [sy|sy| |sy my ey]; cbn [SFmul]; try easy;
      rewrite (xorb_comm sx sy); [easy..|].
    now rewrite (Pos.mul_comm mx my), (Z.add_comm ex ey).
  Qed.

  Lemma product_symmetric v w : inner_product prec emax v w = inner_product prec emax w v.
  Proof.
    unfold inner_product. generalize (S754_zero false). revert w.
    induction v as [|x v IH]; intros [|y w] f; cbn [combine fold_left fst snd]; try easy.
    rewrite IH. now rewrite (mul_comm x y).
  Qed.

  Lemma mul_abs x : SFmul prec emax (SFabs x) (SFabs x) = SFmul prec emax x x.
  Proof. now destruct x as [[]|[]| |[] m e]. Qed.

  Lemma product_abs v : inner_product prec emax (map SFabs v) (map SFabs v) = inner_product prec emax v v.
  Proof.
    unfold inner_product. generalize (S754_zero false).
    induction v as [|x v IH]; intros f; cbn [map combine fold_left fst snd]; [easy|].
    rewrite IH. now rewrite mul_abs.
  Qed.

  Lemma abs_abs x : SFabs (SFabs x) = SFabs x.
  Proof. now destruct x. Qed.

  Lemma norm_abs v : norm prec emax (map SFabs v) = norm prec emax v.
  Proof.
    destruct v as [|x [|y v]].
    - easy.
    - apply abs_abs.
    - unfold norm. cbn [map]. now rewrite <- (product_abs (x :: y :: v)).
  Qed.

  Lemma norm_opposite v : norm prec emax (opposite v) = norm prec emax v.
  Proof.
    rewrite <- (norm_abs (opposite v)), <- (norm_abs v). f_equal.
    unfold opposite. rewrite map_map. apply map_ext. now intros [].
  Qed.

  Lemma norm_difference v w : norm prec emax (difference prec emax v w) = norm prec emax (difference prec emax w v).
  Proof.
    rewrite <- (norm_abs (difference prec emax v w)), <- (norm_abs (difference prec emax w v)). f_equal.
    unfold difference. rewrite !map_map.
    revert w. induction v as [|x v IH]; intros [|y w]; cbn [combine map fst snd]; try easy.
    now rewrite abs_sub, IH.
  Qed.

  Lemma round_aux_opp s m e l :
    binary_round_aux prec emax (negb s) m e l = SFopp (binary_round_aux prec emax s m e l).
  Proof.
    unfold binary_round_aux. destruct (shr_fexp prec emax m e l) as [r e1].
    destruct (shr_fexp prec emax _ e1 loc_Exact) as [r2 e2]. destruct (shr_m r2) as [|p|p]; [easy| |easy].
    now destruct (Zle_bool e2 (emax - prec)).
  Qed.

  Lemma normalize_opp m e s :
    same_but_zero (binary_normalize prec emax (- m) e s) (SFopp (binary_normalize prec emax m e s)).
  Proof.
    destruct m as [|p|p]; cbn [Z.opp binary_normalize].
    - right. now exists s, (negb s).
    - left. unfold binary_round. destruct (shl_align p e _) as [m' e']. apply (round_aux_opp false).
    - left. unfold binary_round. destruct (shl_align p e _) as [m' e']. apply (round_aux_opp true).
  Qed.

  Lemma normalize_opp_args sx sy p q e :
    binary_normalize prec emax (- (cond_Zopp sx (Z.pos p) + cond_Zopp sy (Z.pos q))) e false =
    binary_normalize prec emax (cond_Zopp (negb sx) (Z.pos p) + cond_Zopp (negb sy) (Z.pos q)) e false.
  Proof. f_equal. destruct sx, sy; cbn [cond_Zopp negb]; lia. Qed.

  Lemma mul_opp x y : SFmul prec emax (SFopp x) y = SFopp (SFmul prec emax x y).
  Proof.
    destruct x as [sx|sx| |sx mx ex], y as [sy|sy| |sy my ey]; cbn [SFmul SFopp]; try easy;
      rewrite <- negb_xorb_l; try easy.
    apply round_aux_opp.
  Qed.

  Lemma add_opp x y : same_but_zero (SFadd prec emax (SFopp x) (SFopp y)) (SFopp (SFadd prec emax x y)).
  Proof.
    destruct x as [sx|sx| |sx mx ex], y as [sy|sy| |sy my ey]; cbn [SFadd SFopp]; try (now left).
    - destruct sx, sy; cbn; (now left) || (right; now eexists _, _).
    - destruct sx, sy; now left.
    - cbn zeta. rewrite <- (normalize_opp_args sx sy _ _ (Z.min ex ey)). apply normalize_opp.
  Qed.

  Lemma same_trans x y z : same_but_zero x y -> same_but_zero y z -> same_but_zero x z.
  Proof.
    intros [-> |(s & t & -> & ->)]; [easy|]. intros [<- |(s' & t' & _ & ->)]; right; now eexists _, _.
  Qed.

  Lemma add_same f f' x : same_but_zero f f' -> same_but_zero (SFadd prec emax f x) (SFadd prec emax f' x).
  Proof.
    intros [-> |(s & t & -> & ->)]; [now left|].
    destruct x as [u| | |]; cbn [SFadd]; try (now left).
    right. destruct (eqb s u), (eqb t u); now eexists _, _.
  Qed.

  Lemma product_opposite v w :
    same_but_zero (inner_product prec emax (opposite v) w) (SFopp (inner_product prec emax v w)).
  Proof.
    unfold inner_product, opposite.
    assert (H : same_but_zero (S754_zero false) (SFopp (S754_zero false))) by (right; now eexists _, _).
    revert H. generalize (S754_zero false) at 1 3. generalize (S754_zero false).
    revert w. induction v as [|x v IH]; intros [|y w] f f' H; cbn [map combine fold_left fst snd]; try easy.
    apply IH. rewrite mul_opp.
    eapply same_trans; [apply add_same; exact H|]. apply add_opp.
  Qed.

  (** ** NaN and the sign *)
  Lemma iter_shr_1 p r : (0 <= shr_m r)%Z -> (0 <= shr_m (iter_pos shr_1 p r))%Z.
  Proof.
    revert r. induction p as [p IH|p IH|]; intros r H; cbn [iter_pos].
    - apply IH, IH. destruct r as [[|[]|] b c]; cbn in *; lia.
    - now apply IH, IH.
    - destruct r as [[|[]|] b c]; cbn in *; lia.
  Qed.

  Lemma shr_fexp_m m e l : (0 <= m)%Z -> (0 <= shr_m (fst (shr_fexp prec emax m e l)))%Z.
  Proof.
    intros H. unfold shr_fexp, shr.
    assert (K : (0 <= shr_m (shr_record_of_loc m l))%Z) by (now destruct l as [|[]]).
    destruct (_ - e)%Z; cbn [fst]; [exact K| |exact K]. now apply iter_shr_1.
  Qed.

  Lemma round_aux_non_negative m e l : (0 <= m)%Z -> non_negative (binary_round_aux prec emax false m e l).
  Proof.
    intros H. unfold binary_round_aux.
    pose proof (shr_fexp_m m e l H) as H1. destruct (shr_fexp prec emax m e l) as [r e1]; cbn [fst] in H1.
    assert (H2 : (0 <= round_nearest_even (shr_m r) (loc_of_shr_record r))%Z).
    { destruct r as [a [] []]; cbn in *; try destruct (Z.even a); lia. }
    pose proof (shr_fexp_m _ e1 loc_Exact H2) as H3.
    destruct (shr_fexp prec emax _ e1 loc_Exact) as [r2 e2]; cbn [fst] in H3.
    destruct (shr_m r2) as [|p|p]; [easy| |lia]. now destruct (Zle_bool e2 (emax - prec)).
  Qed.

  Lemma round_non_negative m e : non_negative (binary_round prec emax false m e).
  Proof. unfold binary_round. destruct (shl_align m e _) as [m' e']. now apply round_aux_non_negative. Qed.

  Lemma mul_non_negative x : x <> S754_nan -> non_negative (SFmul prec emax x x).
  Proof.
    destruct x as [s|s| |s m e]; cbn [SFmul]; rewrite ?xorb_nilpotent; try easy.
    intros _. now apply round_aux_non_negative.
  Qed.

  Lemma add_non_negative x y : non_negative x -> non_negative y -> non_negative (SFadd prec emax x y).
  Proof.
    destruct x as [sx|sx| |sx mx ex], y as [sy|sy| |sy my ey]; cbn [non_negative SFadd]; try easy;
      intros -> ->; try easy.
    cbn [cond_Zopp]. rewrite <- Pos2Z.inj_add. apply round_non_negative.
  Qed.

  Lemma product_self_from v f : non_negative f -> ~ In S754_nan v ->
    non_negative (fold_left (fun f z => SFadd prec emax f (SFmul prec emax (fst z) (snd z))) (combine v v) f).
  Proof.
    revert f. induction v as [|x v IH]; intros f Hf Hv; cbn [combine fold_left fst snd]; [easy|].
    apply IH; [|intros H; apply Hv; now right].
    apply add_non_negative; [easy|]. apply mul_non_negative. intros ->. apply Hv. now left.
  Qed.

  Lemma product_self v : ~ In S754_nan v -> non_negative (inner_product prec emax v v).
  Proof. now apply product_self_from. Qed.

  Lemma sqrt_non_negative x : non_negative x -> non_negative (SFsqrt prec emax x).
  Proof.
    destruct x as [s|s| |s m e]; cbn [SFsqrt non_negative]; try easy; intros ->; try easy.
    unfold SFsqrt_core_binary. cbn zeta. destruct (Z.sqrtrem _) as [q r] eqn:E.
    apply round_aux_non_negative.
    match type of E with Z.sqrtrem ?n = _ => pose proof (Z.sqrtrem_sqrt n) as S end.
    rewrite E in S. cbn [fst] in S. rewrite S. apply Z.sqrt_nonneg.
  Qed.

  Lemma norm_non_negative v : ~ In S754_nan v -> non_negative (norm prec emax v).
  Proof.
    intros H. assert (K : non_negative (SFsqrt prec emax (inner_product prec emax v v))) by (now apply sqrt_non_negative, product_self).
    destruct v as [|x [|y v]]; cbn [norm]; try exact K.
    destruct x; cbn; easy || (apply H; now left).
  Qed.

  Lemma fold_nan l : fold_left (fun f z => SFadd prec emax f (SFmul prec emax (fst z) (snd z))) l S754_nan = S754_nan.
  Proof. induction l as [|z l IH]; cbn [fold_left]; [easy|]. exact IH. Qed.

  Lemma product_nan v f : In S754_nan v ->
    fold_left (fun f z => SFadd prec emax f (SFmul prec emax (fst z) (snd z))) (combine v v) f = S754_nan.
  Proof.
    revert f. induction v as [|x v IH]; intros f; cbn [combine fold_left fst snd]; [easy|].
    intros [-> |H]; [|now apply IH]. replace (SFadd _ _ _ _) with S754_nan by (now destruct f). apply fold_nan.
  Qed.

  Lemma number_dec (x y : spec_float) : {x = y} + {x <> y}.
  Proof. decide equality; try apply bool_dec; [apply Z.eq_dec|apply Pos.eq_dec]. Qed.

  Lemma norm_nan v : norm prec emax v = S754_nan <-> In S754_nan v.
  Proof.
    split.
    - intros H. destruct (in_dec number_dec S754_nan v) as [K|K]; [exact K|].
      apply norm_non_negative in K. now rewrite H in K.
    - intros H. assert (K : SFsqrt prec emax (inner_product prec emax v v) = S754_nan)
        by (unfold inner_product; now rewrite product_nan).
      destruct v as [|x [|y v]]; cbn [norm]; try exact K.
      destruct H as [-> |[]]. easy.
  Qed.

  (** In one dimension the norm is zero for zero only. *)
  Lemma norm_one x : norm prec emax [x] = S754_zero false <-> exists s, x = S754_zero s.
  Proof. cbn. split; [|now intros [s ->]]. destruct x; try discriminate. now exists s. Qed.
End format.
