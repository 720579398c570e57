(** Lemmas for C53: linear sequences. *)
From Coq Require Import Bool ZArith Lia Znumtheory.
From Verif.Base Require Import Outcome.
From Verif.Linear Require Import Model.
Local Open Scope Z_scope.

(** The integer types of C++ with the usual widths. *)
Definition valid (t : ity) : Prop := width t = 8 \/ width t = 16 \/ width t = 32 \/ width t = 64.

Lemma valid_pos t : valid t -> 0 < width t.
Proof. intros [H|[H|[H|H]]]; lia. Qed.

Lemma fits_iff t z : fits t z = true <-> lo t <= z <= hi t.
Proof. unfold fits. rewrite andb_true_iff, !Z.leb_le. reflexivity. Qed.

Lemma hi_lo t : 0 < width t -> hi t = lo t + 2 ^ width t - 1.
Proof.
  intros Hw. unfold hi, lo. destruct (signed t); [|lia].
  replace (width t) with (width t - 1 + 1) at 3 by lia.
  rewrite Z.pow_add_r by lia. lia.
Qed.

Lemma conv_cong t z : 0 < width t -> (2 ^ width t | z - conv t z).
Proof.
  intros Hw. unfold conv.
  exists ((z - lo t) / 2 ^ width t).
  pose proof (Z.div_mod (z - lo t) (2 ^ width t)) as H.
  assert (2 ^ width t <> 0) by (apply Z.pow_nonzero; lia). specialize (H H0). lia.
Qed.

Lemma conv_fits t z : 0 < width t -> fits t z = true -> conv t z = z.
Proof.
  intros Hw H. apply fits_iff in H. rewrite hi_lo in H by assumption. unfold conv.
  rewrite Z.mod_small by lia. lia.
Qed.

Lemma conv_eq t z1 z2 : 0 < width t -> (2 ^ width t | z1 - z2) -> conv t z1 = conv t z2.
Proof.
  intros Hw [k Hk]. unfold conv. f_equal.
  replace (z1 - lo t) with (z2 - lo t + k * 2 ^ width t) by lia.
  apply Z_mod_plus_full.
Qed.

Lemma common_valid t u : valid t -> valid u -> valid (common t u).
Proof.
  intros [Ht|[Ht|[Ht|Ht]]] [Hu|[Hu|[Hu|Hu]]]; destruct t as [[] wt], u as [[] wu];
    cbn [width] in *; subst; (right; right; left; reflexivity) || (right; right; right; reflexivity).
Qed.

Lemma common_width t u : valid t -> valid u -> width t <= width (common u t).
Proof.
  intros [Ht|[Ht|[Ht|Ht]]] [Hu|[Hu|[Hu|Hu]]]; destruct t as [[] wt], u as [[] wu];
    cbn [width] in *; subst; apply Z.leb_le; reflexivity.
Qed.

(** Doing the conversions again changes nothing. *)
Lemma common_common t u : valid t -> valid u -> common t (common u t) = common u t.
Proof.
  intros [Ht|[Ht|[Ht|Ht]]] [Hu|[Hu|[Hu|Hu]]]; destruct t as [[] wt], u as [[] wu];
    cbn [width] in *; subst; reflexivity.
Qed.

(** A signed common type has all the values of both types. *)
Lemma common_fits t u z :
  valid t -> valid u -> signed (common u t) = true ->
  fits t z = true \/ fits u z = true -> fits (common u t) z = true.
Proof.
  intros Ht Hu Hs.
  assert (((lo (common u t) <=? lo t) && (hi t <=? hi (common u t)) &&
           (lo (common u t) <=? lo u) && (hi u <=? hi (common u t)))%bool = true) as H.
  { destruct Ht as [Ht|[Ht|[Ht|Ht]]], Hu as [Hu|[Hu|[Hu|Hu]]]; destruct t as [[] wt], u as [[] wu];
      cbn [width] in *; subst; (reflexivity || discriminate Hs). }
  rewrite !andb_true_iff, !Z.leb_le in H. rewrite !fits_iff. lia.
Qed.

Lemma divide_weaken w w' z : 0 <= w <= w' -> (2 ^ w' | z) -> (2 ^ w | z).
Proof.
  intros Hw H. apply Z.divide_trans with (2 ^ w'); [|assumption].
  exists (2 ^ (w' - w)). rewrite <- Z.pow_add_r by lia. f_equal. lia.
Qed.

Lemma linear_at_exact t ix start step i :
  valid t -> valid ix ->
  fits t start = true -> fits t step = true -> fits ix i = true ->
  fits t (start + i * step) = true ->
  (signed (common ix t) = true -> fits (common ix t) (i * step) = true) ->
  linear_at t ix start step i = Ok (start + i * step).
Proof.
  intros Ht Hix Hstart Hstep Hi Hres Hprod. unfold linear_at.
  rewrite common_common by assumption. set (c := common ix t) in *.
  assert (valid c) as Hc by (apply common_valid; assumption).
  pose proof (valid_pos _ Hc) as Hcp. pose proof (valid_pos _ Ht) as Htp.
  assert (width t <= width c) as Hw by (apply common_width; assumption).
  unfold arith. destruct (signed c) eqn:Hs.
  - assert (forall z, fits t z = true \/ fits ix z = true -> fits c z = true) as Hin.
    { intros z Hz. apply common_fits; assumption. }
    rewrite !(conv_fits c i), !(conv_fits c step) by (auto using Hin).
    rewrite Hprod by reflexivity. cbn [rbind].
    rewrite (conv_fits c (i * step)) by auto.
    rewrite (conv_fits c start) by auto.
    rewrite Hin by auto. cbn [rbind]. f_equal. apply conv_fits; assumption.
  - cbn [rbind]. f_equal. rewrite <- (conv_fits t (start + i * step)) by assumption.
    apply conv_eq; [assumption|].
    apply divide_weaken with (width c); [lia|].
    set (p := conv c (conv c i * conv c step)).
    assert ((2 ^ width c | i * step - p)) as Hp.
    { unfold p. replace (i * step - conv c (conv c i * conv c step)) with
        ((conv c i * conv c step - conv c (conv c i * conv c step)) +
         ((i - conv c i) * step + conv c i * (step - conv c step))) by ring.
      apply Z.divide_add_r; [apply conv_cong; assumption|].
      apply Z.divide_add_r.
      - apply Z.divide_mul_l, conv_cong. assumption.
      - apply Z.divide_mul_r, conv_cong. assumption. }
    replace (conv c (conv c start + conv c p) - (start + i * step)) with
      (- ((conv c start + conv c p - conv c (conv c start + conv c p)) +
          (start - conv c start) + (p - conv c p) + (i * step - p))) by ring.
    apply Z.divide_opp_r. apply Z.divide_add_r; [apply Z.divide_add_r; [apply Z.divide_add_r|]|assumption];
      apply conv_cong; assumption.
Qed.
