(** Signs of statistics of floating point numbers. *)
From Coq Require Import ZArith List Bool SpecFloat Lia.
From Verif.Floats Require Import Model ModelStats Spec Proofs.
Import ListNotations.

Section signs.
  Context (prec emax : Z).

  Lemma round_aux_nan s m e l : (0 <= m)%Z -> binary_round_aux prec emax s m e l <> S754_nan.
  Proof.
    intros H. pose proof (round_aux_non_negative prec emax m e l H) as N. destruct s.
    - change true with (negb false). rewrite round_aux_opp. now destruct (binary_round_aux _ _ _ _ _ _).
    - now destruct (binary_round_aux _ _ _ _ _ _).
  Qed.

  Lemma normalize_nan m e s : binary_normalize prec emax m e s <> S754_nan.
  Proof.
    destruct m as [|p|p]; cbn; [easy| |]; unfold binary_round; destruct (shl_align p e _); apply round_aux_nan; lia.
  Qed.

  Lemma add_nan f x : f <> S754_nan -> finite x -> SFadd prec emax f x <> S754_nan.
  Proof.
    intros Hf Hx. destruct f as [sf|sf| |sf mf ef], x as [sx|sx| |sx mx ex]; try easy.
    - cbn. now destruct (Bool.eqb _ _).
    - apply normalize_nan.
  Qed.

  Lemma sub_nan x m : finite x -> m <> S754_nan -> SFsub prec emax x m <> S754_nan.
  Proof.
    intros Hx Hm. destruct m as [sf|sf| |sf mf ef], x as [sx|sx| |sx mx ex]; try easy.
    - cbn. now destruct (Bool.eqb _ _).
    - apply normalize_nan.
  Qed.

  Lemma sum_nan l : Forall finite l -> sum prec emax l <> S754_nan.
  Proof.
    unfold sum. assert (H : S754_zero false <> S754_nan) by easy. revert H. generalize (S754_zero false).
    induction l as [|x l IH]; intros f Hf Hl; cbn; [exact Hf|].
    apply IH; [|now apply Forall_inv_tail in Hl]. apply add_nan; [exact Hf|]. now apply Forall_inv in Hl.
  Qed.

  Lemma core_div_m m1 e1 m2 e2 q e l : SFdiv_core_binary prec emax (Zpos m1) e1 (Zpos m2) e2 = (q, e, l) -> (0 <= q)%Z.
  Proof.
    unfold SFdiv_core_binary. set (s := (e1 - e2 - _)%Z).
    set (m' := match s with Z0 => _ | Zpos _ => _ | Zneg _ => _ end).
    assert (P : (0 <= m')%Z).
    { unfold m'. destruct s; [lia| |lia]. apply Z.shiftl_nonneg. lia. }
    pose proof (Z.div_pos m' (Zpos m2) P ltac:(lia)) as Q. unfold Z.div in Q.
    destruct (Z.div_eucl m' (Zpos m2)) as [q' r]. now intros [= <- _ _].
  Qed.

  Lemma div_nan x m e : x <> S754_nan -> SFdiv prec emax x (S754_finite false m e) <> S754_nan.
  Proof.
    intros H. destruct x as [| | |s mx ex]; try easy. cbn [SFdiv].
    destruct (SFdiv_core_binary _ _ _ _ _ _) as [[q e'] l] eqn:E. apply core_div_m in E. now apply round_aux_nan.
  Qed.

  Lemma div_non_negative x m e : non_negative x -> non_negative (SFdiv prec emax x (S754_finite false m e)).
  Proof.
    intros H. destruct x as [s|s| |s mx ex]; cbn in H; subst; try easy. cbn [SFdiv xorb].
    destruct (SFdiv_core_binary _ _ _ _ _ _) as [[q e'] l] eqn:E. apply core_div_m in E. now apply round_aux_non_negative.
  Qed.

  Lemma square_diffs_non_negative m l : Forall finite l -> m <> S754_nan -> non_negative (square_diffs prec emax m l).
  Proof.
    intros Hl Hm. unfold square_diffs. assert (H : non_negative (S754_zero false)) by easy. revert H.
    generalize (S754_zero false). induction l as [|x l IH]; intros f Hf; cbn; [exact Hf|].
    apply IH; [now apply Forall_inv_tail in Hl|]. apply add_non_negative; [exact Hf|].
    apply mul_non_negative, sub_nan; [now apply Forall_inv in Hl|exact Hm].
  Qed.
End signs.
