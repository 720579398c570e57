(** Lemmas for C32: ratios. *)
From Coq Require Import Bool ZArith Lia Znumtheory.
From Verif.Base Require Import Outcome.
From Verif.Linear Require Import Model Proofs.
From Verif.Ratio Require Import Model Spec.
Local Open Scope Z_scope.

Section plain.
  Context (t : ity) (Ht : plain t).

  Lemma plain_width : 0 < width t.
  Proof. destruct Ht as [_ [H|H]]; lia. Qed.

  Lemma common_self : common t t = t.
  Proof. destruct t as [s w]. destruct Ht as [Hs [Hw|Hw]]; cbn in Hs, Hw; subst; reflexivity. Qed.

  Lemma std_common_self : std_common t t = t.
  Proof. unfold std_common, ity_eqb. rewrite eqb_reflx, Z.eqb_refl. reflexivity. Qed.

  Lemma plain_lo : lo t = - hi t - 1.
  Proof. unfold lo, hi. destruct Ht as [-> _]. lia. Qed.

  Lemma hi_pos : 1 < hi t.
  Proof.
    unfold hi. destruct Ht as [-> [Hw|Hw]]; rewrite Hw; reflexivity.
  Qed.

  Lemma small_fits z : small t z -> fits t z = true.
  Proof. intros H. apply fits_iff. rewrite plain_lo. unfold small in H. lia. Qed.

  Lemma small_conv z : small t z -> conv t z = z.
  Proof. intros H. apply conv_fits; [exact plain_width|]. apply small_fits, H. Qed.

  Lemma const_fits z : fits t z = true -> const t z = Some (TV t z).
  Proof. intros H. unfold const, arith. destruct Ht as [-> _]. rewrite H. reflexivity. Qed.

  Lemma const_bad z : fits t z = false -> const t z = None.
  Proof. intros H. unfold const, arith. destruct Ht as [-> _]. rewrite H. reflexivity. Qed.

  Lemma ratio_small n d :
    small t n -> small t d -> (n <> 0 \/ d <> 0) ->
    exists g n' d', ratio (TV t n) (TV t d) = Some (TV t n', TV t d') /\
      0 < g /\ n = n' * g /\ d = d' * g /\ rel_prime n' d' /\ small t n' /\ small t d'.
  Proof.
    intros Hn Hd Hnz. unfold ratio, tv_gcd. cbn [ty_of val].
    rewrite std_common_self.
    assert (small t (Z.abs n)) as Hn' by (unfold small in *; lia).
    assert (small t (Z.abs d)) as Hd' by (unfold small in *; lia).
    rewrite !small_fits by assumption. cbn [andb obind].
    set (g := Z.gcd n d).
    assert (0 < g) as Hg.
    { assert (g <> 0) by (unfold g; rewrite Z.gcd_eq_0; lia). pose proof (Z.gcd_nonneg n d). unfold g in *. lia. }
    destruct (Z.gcd_divide_l n d) as [n' En]. destruct (Z.gcd_divide_r n d) as [d' Ed].
    fold g in En, Ed.
    assert (small t n') as Sn by (unfold small in *; rewrite En, Z.abs_mul in Hn; nia).
    assert (small t d') as Sd by (unfold small in *; rewrite Ed, Z.abs_mul in Hd; nia).
    assert (small t g) as Sg.
    { unfold small in *. destruct Hnz as [Hz|Hz].
      - rewrite En, Z.abs_mul in Hn. assert (n' <> 0) by (intros ->; lia). nia.
      - rewrite Ed, Z.abs_mul in Hd. assert (d' <> 0) by (intros ->; lia). nia. }
    assert (forall z z', z = z' * g -> small t z -> small t z' ->
      tv_div (TV t z) (TV t g) = Some (TV t z')) as Hdiv.
    { intros z z' Ez Sz Sz'. unfold tv_div. cbn [ty_of val]. rewrite common_self.
      rewrite (small_conv g), (small_conv z) by assumption.
      destruct (Z.eqb_spec g 0); [lia|]. rewrite Ez, Z.quot_mul by lia.
      apply const_fits, small_fits, Sz'. }
    rewrite (Hdiv n n' En Hn Sn). cbn [obind]. rewrite (Hdiv d d' Ed Hd Sd). cbn [obind].
    exists g, n', d'. repeat (split; [first [reflexivity|assumption]|]). split; [|split; assumption].
    apply Zgcd_1_rel_prime. unfold g in *.
    assert (Z.gcd n' d' * Z.gcd n d = Z.gcd n d) as Hk.
    { rewrite <- (Z.abs_eq (Z.gcd n d)) at 1 by lia. rewrite <- Z.gcd_mul_mono_r.
      rewrite <- En, <- Ed. reflexivity. }
    nia.
  Qed.

  Lemma div_max_ok m : small t m -> m <> 0 -> tv_div (TV t (hi t)) (TV t m) = Some (TV t (Z.quot (hi t) m)).
  Proof.
    intros Hm Hz. unfold tv_div. cbn [ty_of val]. rewrite common_self.
    pose proof hi_pos as Hp. assert (small t (hi t)) as Hh by (unfold small; lia).
    rewrite (small_conv m), (small_conv (hi t)) by assumption.
    destruct (Z.eqb_spec m 0); [lia|]. apply const_fits, small_fits. unfold small.
    rewrite <- Z.quot_abs by lia. rewrite (Z.abs_eq (hi t)) by lia.
    rewrite Z.quot_div_nonneg by lia. apply Z.div_le_upper_bound; [lia|]. nia.
  Qed.

  Lemma quot_small m : small t m -> m <> 0 -> small t (Z.quot (hi t) m).
  Proof.
    intros Hm Hz. pose proof hi_pos as Hp. unfold small.
    rewrite <- Z.quot_abs by lia. rewrite (Z.abs_eq (hi t)) by lia.
    rewrite Z.quot_div_nonneg by lia. apply Z.div_le_upper_bound; [lia|]. nia.
  Qed.

  Lemma mul_small m n : small t m -> small t n ->
    tv_mul (TV t m) (TV t n) = if fits t (m * n) then Some (TV t (m * n)) else None.
  Proof.
    intros Hm Hn. unfold tv_mul. cbn [ty_of val]. rewrite common_self, !small_conv by assumption.
    destruct (fits t (m * n)) eqn:E; [apply const_fits, E|apply const_bad, E].
  Qed.
End plain.

Lemma product_strict t m n : plain t -> small t m -> small t n -> m <> 0 ->
  product false (TV t m) (TV t n) =
  if fits t (m * n) then Some (RInt (TV t (m * n))) else None.
Proof.
  intros Ht Hm Hn Hz. unfold product. cbn [ty_of val negb]. rewrite orb_true_r. cbn [orb].
  unfold product_wide. cbn [ty_of val negb orb]. rewrite (std_common_self t).
  destruct (Z.eqb_spec m 1) as [->|Hm1]; destruct (Z.eqb_spec n 1) as [->|Hn1]; cbn [andb].
  - rewrite small_fits; [reflexivity|exact Ht|exact Hm].
  - rewrite Z.mul_1_l, small_fits by assumption. reflexivity.
  - rewrite Z.mul_1_r, small_fits by assumption. reflexivity.
  - rewrite div_max_ok by assumption. cbn [obind]. rewrite (mul_small t Ht) by assumption.
    destruct (fits t (m * n)); reflexivity.
Qed.

Lemma overflow_test t m n : plain t -> small t m -> small t n -> 0 < m -> 0 < n ->
  tv_lt (TV t (Z.quot (hi t) m)) (TV t n) = (hi t <? m * n).
Proof.
  intros Ht Hm Hn Pm Pn. unfold tv_lt. cbn [ty_of val]. rewrite (common_self t Ht).
  rewrite !(small_conv t Ht) by (assumption || apply quot_small; (assumption || lia)).
  pose proof (hi_pos t Ht). rewrite Z.quot_div_nonneg by lia.
  destruct (Z.ltb_spec (hi t) (m * n)) as [H1|H1].
  - apply Z.ltb_lt. apply Z.div_lt_upper_bound; lia.
  - apply Z.ltb_ge. apply Z.div_le_lower_bound; lia.
Qed.

Lemma plain_intmax : plain intmax.
Proof. split; [reflexivity|right; reflexivity]. Qed.

Lemma hi_le_intmax t : plain t -> hi t <= hi intmax.
Proof.
  destruct t as [s w]. intros [Hs [Hw|Hw]]; cbn in Hs, Hw; subst; vm_compute; discriminate.
Qed.

Definition relaxed_result (t : ity) (z : Z) : rval :=
  if z <=? hi t then RInt (TV t z) else if z <=? hi intmax then RInt (TV intmax z) else RFloat.

Lemma product_wide_relaxed t m n : plain t -> width t = 64 -> small t m -> small t n -> 0 < m -> 0 < n ->
  product_wide true (TV t m) (TV t n) = Some (relaxed_result t (m * n)).
Proof.
  intros Ht Hw Hm Hn Pm Pn. unfold product_wide. cbn [ty_of val negb orb]. rewrite (std_common_self t).
  assert (t = intmax) as ->.
  { destruct t as [s w]. destruct Ht as [Hs _]. cbn in Hs, Hw. subst. reflexivity. }
  unfold relaxed_result.
  destruct (Z.eqb_spec m 1) as [->|Hm1]; destruct (Z.eqb_spec n 1) as [->|Hn1]; cbn [andb].
  - reflexivity.
  - rewrite Z.mul_1_l. destruct (Z.leb_spec n (hi intmax)); [reflexivity|unfold small in *; lia].
  - rewrite Z.mul_1_r. destruct (Z.leb_spec m (hi intmax)); [reflexivity|unfold small in *; lia].
  - rewrite div_max_ok by (assumption || lia). cbn [obind]. rewrite overflow_test by assumption.
    destruct (Z.ltb_spec (hi intmax) (m * n)) as [H1|H1]; cbn [negb].
    + destruct (Z.leb_spec (m * n) (hi intmax)); [lia|]. reflexivity.
    + destruct (Z.leb_spec (m * n) (hi intmax)); [|lia]. rewrite (mul_small _ Ht) by assumption.
      rewrite small_fits; [reflexivity|exact Ht|unfold small; nia].
Qed.

Lemma product_relaxed t m n : plain t -> small t m -> small t n -> 0 < m -> 0 < n ->
  product true (TV t m) (TV t n) = Some (relaxed_result t (m * n)).
Proof.
  intros Ht Hm Hn Pm Pn. unfold product. cbn [ty_of val negb]. rewrite orb_false_r, (std_common_self t).
  destruct Ht as [Hs [Hw|Hw]] eqn:E; cycle 1.
  { rewrite Hw. rewrite orb_true_r. apply product_wide_relaxed; assumption. }
  clear E. rewrite Hw. cbn [Z.leb Z.compare Pos.compare Pos.compare_cont]. rewrite orb_false_r.
  pose proof (hi_le_intmax t Ht) as Hle. pose proof (hi_pos t Ht) as Hp.
  destruct (Z.eqb_spec m 1) as [->|Hm1]; cbn [orb].
  { unfold product_wide, relaxed_result. cbn [ty_of val negb orb]. rewrite (std_common_self t).
    rewrite Z.mul_1_l. destruct (Z.leb_spec n (hi t)); [|unfold small in *; lia].
    destruct (Z.eqb_spec n 1) as [->|Hn1]; reflexivity. }
  destruct (Z.eqb_spec n 1) as [->|Hn1]; cbn [orb].
  { unfold product_wide, relaxed_result. cbn [ty_of val negb orb]. rewrite (std_common_self t).
    rewrite Z.mul_1_r. destruct (Z.leb_spec m (hi t)); [|unfold small in *; lia].
    destruct (Z.eqb_spec m 1) as [->|_]; [lia|reflexivity]. }
  rewrite div_max_ok by (assumption || lia). cbn [obind]. rewrite overflow_test by assumption.
  unfold relaxed_result.
  destruct (Z.ltb_spec (hi t) (m * n)) as [H1|H1]; cbn [negb].
  - destruct (Z.leb_spec (m * n) (hi t)); [lia|].
    assert (small intmax m /\ small intmax n) as [Sm Sn] by (unfold small in *; lia).
    rewrite !(small_conv _ plain_intmax) by assumption.
    rewrite product_wide_relaxed by (assumption || apply plain_intmax || reflexivity).
    unfold relaxed_result. destruct (m * n <=? hi intmax); reflexivity.
  - destruct (Z.leb_spec (m * n) (hi t)); [|lia]. rewrite (mul_small _ Ht) by assumption.
    rewrite small_fits; [reflexivity|exact Ht|unfold small; nia].
Qed.

(** ** Cross reduction *)
Lemma rel_prime_gcd a b : rel_prime a b <-> Z.gcd a b = 1.
Proof. split; [apply Zgcd_1_rel_prime|apply Zgcd_1_rel_prime]. Qed.

Record reduced (t : ity) (n1 d1 n2 d2 p q r s : Z) : Prop := {
  red_small : small t p /\ small t q /\ small t r /\ small t s;
  red_coprime : Z.gcd (p * r) (q * s) = 1;
  red_exact : exists k, k <> 0 /\ n1 * n2 = p * r * k /\ d1 * d2 = q * s * k;
  red_nz : q <> 0 /\ s <> 0 /\ (n1 <> 0 -> p <> 0) /\ (n2 <> 0 -> r <> 0);
  red_pos : 0 < n1 -> 0 < d1 -> 0 < n2 -> 0 < d2 -> 0 < p /\ 0 < q /\ 0 < r /\ 0 < s }.

Lemma cross_reduce t n1 d1 n2 d2 :
  plain t -> small t n1 -> small t d1 -> small t n2 -> small t d2 -> d1 <> 0 -> d2 <> 0 ->
  exists p q r s, reduced t n1 d1 n2 d2 p q r s /\ forall relaxed,
    ratio_multiply relaxed (TV t n1) (TV t d1) (TV t n2) (TV t d2) =
    let! n := product relaxed (TV t p) (TV t r) in
    let! d := product relaxed (TV t s) (TV t q) in
    final_ratio n d.
Proof.
  intros Ht Sn1 Sd1 Sn2 Sd2 Hd1 Hd2. unfold ratio_multiply.
  destruct (ratio_small t Ht n1 d1) as (g1 & n1' & d1' & -> & Pg1 & En1 & Ed1 & R1 & Sn1' & Sd1'); auto.
  destruct (ratio_small t Ht n2 d2) as (g2 & n2' & d2' & -> & Pg2 & En2 & Ed2 & R2 & Sn2' & Sd2'); auto.
  cbn [obind fst snd].
  assert (d1' <> 0 /\ d2' <> 0) as [Hd1' Hd2'] by (split; intros ->; lia).
  destruct (ratio_small t Ht n1' d2') as (ga & p & s & -> & Pga & Ep & Es & Ra & Sp & Ss); auto.
  destruct (ratio_small t Ht n2' d1') as (gb & r & q & -> & Pgb & Er & Eq & Rb & Sr & Sq); auto.
  cbn [obind fst snd].
  exists p, q, r, s. split; [|reflexivity].
  assert (q <> 0 /\ s <> 0) as [Hq Hs] by (split; intros ->; lia).
  split.
  - auto.
  - apply Zgcd_1_rel_prime. apply rel_prime_mult.
    + apply rel_prime_sym, rel_prime_mult; apply rel_prime_sym.
      * apply (rel_prime_div n1'); [|exists ga; lia]. apply rel_prime_sym.
        apply (rel_prime_div d1'); [|exists gb; lia]. apply rel_prime_sym. exact R1.
      * exact Rb.
    + apply rel_prime_sym, rel_prime_mult; apply rel_prime_sym.
      * exact Ra.
      * apply (rel_prime_div n2'); [|exists gb; lia]. apply rel_prime_sym.
        apply (rel_prime_div d2'); [|exists ga; lia]. apply rel_prime_sym. exact R2.
  - exists (ga * gb * g1 * g2). subst. split; [|split; ring]. nia.
  - repeat split; [assumption|assumption|intros H ->; lia|intros H ->; lia].
  - intros P1 P2 P3 P4. subst. repeat split; nia.
Qed.

Lemma gcd_neg_min t n d : plain t -> Z.abs n <= hi t + 1 -> Z.abs d <= hi t + 1 -> Z.gcd n d = 1 ->
  final_ratio (RInt (TV t n)) (RInt (TV t d)) =
  if (Z.abs n <=? hi t) && (Z.abs d <=? hi t) then Some (RInt (TV t n), RInt (TV t d)) else None.
Proof.
  intros Ht Bn Bd Hg. cbn [final_ratio]. pose proof (hi_pos t Ht) as Hp.
  destruct (Z.leb_spec (Z.abs n) (hi t)) as [Hn|Hn]; [destruct (Z.leb_spec (Z.abs d) (hi t)) as [Hd|Hd]|]; cbn [andb].
  - destruct (ratio_small t Ht n d) as (g & n' & d' & -> & Pg & En & Ed & R & _ & _); [assumption|assumption| |].
    { destruct (Z.eq_dec n 0) as [->|]; [|auto]. right. intros ->. discriminate. }
    assert (g = 1) as ->.
    { subst. rewrite Z.gcd_mul_mono_r, Z.abs_eq in Hg by lia. apply Z.eq_mul_1_nonneg' in Hg; lia. }
    rewrite Z.mul_1_r in En, Ed. subst. reflexivity.
  - unfold ratio, tv_gcd. cbn [ty_of val]. rewrite (std_common_self t).
    assert (fits t (Z.abs d) = false) as ->.
    { apply not_true_is_false. rewrite fits_iff. lia. }
    rewrite andb_false_r. reflexivity.
  - unfold ratio, tv_gcd. cbn [ty_of val]. rewrite (std_common_self t).
    assert (fits t (Z.abs n) = false) as ->.
    { apply not_true_is_false. rewrite fits_iff. lia. }
    reflexivity.
Qed.

Lemma coprime_unique n d a b : Z.gcd n d = 1 -> Z.gcd a b = 1 -> n * b = d * a -> Z.abs n = Z.abs a /\ Z.abs d = Z.abs b.
Proof.
  intros H1 H2 E. split; apply Z.divide_antisym_abs.
  - apply (Z.gauss n d a); [exists b; lia|exact H1].
  - apply (Z.gauss a b n); [exists d; lia|exact H2].
  - apply (Z.gauss d n b); [exists a; lia|rewrite Z.gcd_comm; exact H1].
  - apply (Z.gauss b a d); [exists n; lia|rewrite Z.gcd_comm; exact H2].
Qed.

Lemma reduced_unique t n1 d1 n2 d2 p q r s n d :
  reduced t n1 d1 n2 d2 p q r s -> Z.gcd n d = 1 -> exact_product n1 d1 n2 d2 n d ->
  Z.abs n = Z.abs (p * r) /\ Z.abs d = Z.abs (q * s).
Proof.
  intros [_ Hc (k & Hk & E1 & E2) _ _] Hg He. apply coprime_unique; [exact Hg|exact Hc|].
  unfold exact_product in He. rewrite E1, E2 in He.
  apply (Z.mul_reg_r _ _ k Hk). rewrite <- !Z.mul_assoc in *. exact He.
Qed.

Lemma reduced_exact t n1 d1 n2 d2 p q r s :
  reduced t n1 d1 n2 d2 p q r s -> exact_product n1 d1 n2 d2 (p * r) (q * s).
Proof. intros [_ _ (k & Hk & E1 & E2) _ _]. unfold exact_product. rewrite E1, E2. ring. Qed.

Lemma multiply_strict t n1 d1 n2 d2 :
  plain t -> small t n1 -> small t d1 -> small t n2 -> small t d2 -> d1 <> 0 -> d2 <> 0 -> n1 <> 0 ->
  match ratio_multiply false (TV t n1) (TV t d1) (TV t n2) (TV t d2) with
  | Some (n, d) => exists n' d', n = RInt (TV t n') /\ d = RInt (TV t d') /\
      small t n' /\ small t d' /\ exact_product n1 d1 n2 d2 n' d' /\ lowest_terms n' d'
  | None => forall n' d', exact_product n1 d1 n2 d2 n' d' -> lowest_terms n' d' ->
      hi t < Z.abs n' \/ hi t < Z.abs d'
  end.
Proof.
  intros Ht S1 S2 S3 S4 Hd1 Hd2 Hn1.
  destruct (cross_reduce t n1 d1 n2 d2) as (p & q & r & s & Hr & ->); [assumption..|].
  pose proof (red_nz _ _ _ _ _ _ _ _ _ Hr) as (Hq & Hs & Hp & _). specialize (Hp Hn1).
  pose proof (red_small _ _ _ _ _ _ _ _ _ Hr) as (Sp & Sq & Sr & Ss).
  pose proof (red_coprime _ _ _ _ _ _ _ _ _ Hr) as Hc.
  pose proof (hi_pos t Ht) as Hpos.
  rewrite !product_strict by assumption.
  assert (forall z, fits t z = true -> Z.abs z <= hi t + 1) as Hf.
  { intros z Hz. apply fits_iff in Hz. rewrite plain_lo in Hz by exact Ht. lia. }
  assert (forall z, fits t z = false -> hi t < Z.abs z) as Hnf.
  { intros z Hz. destruct (Z.lt_ge_cases (hi t) (Z.abs z)) as [H|H]; [exact H|].
    rewrite small_fits in Hz; [discriminate|exact Ht|exact H]. }
  destruct (fits t (p * r)) eqn:F1; cbn [obind].
  2: { intros n' d' He [_ Hl]. left. apply Hnf in F1.
       destruct (reduced_unique _ _ _ _ _ _ _ _ _ n' d' Hr Hl He) as [-> _]. exact F1. }
  destruct (fits t (s * q)) eqn:F2; cbn [obind].
  2: { intros n' d' He [_ Hl]. right. apply Hnf in F2.
       destruct (reduced_unique _ _ _ _ _ _ _ _ _ n' d' Hr Hl He) as [_ ->].
       rewrite (Z.mul_comm q s). exact F2. }
  rewrite (Z.mul_comm s q) in *.
  rewrite (gcd_neg_min t) by auto.
  destruct (Z.leb_spec (Z.abs (p * r)) (hi t)) as [B1|B1]; [destruct (Z.leb_spec (Z.abs (q * s)) (hi t)) as [B2|B2]|]; cbn [andb].
  - exists (p * r), (q * s). repeat split; try assumption; [eapply reduced_exact; eassumption|nia].
  - intros n' d' He [_ Hl]. right.
    destruct (reduced_unique _ _ _ _ _ _ _ _ _ n' d' Hr Hl He) as [_ ->]. exact B2.
  - intros n' d' He [_ Hl]. left.
    destruct (reduced_unique _ _ _ _ _ _ _ _ _ n' d' Hr Hl He) as [-> _]. exact B1.
Qed.

Lemma divide_strict t n1 d1 n2 d2 :
  plain t -> small t n1 -> small t d1 -> small t n2 -> small t d2 -> d1 <> 0 -> d2 <> 0 -> n1 <> 0 -> n2 <> 0 ->
  match ratio_divide false (TV t n1) (TV t d1) (TV t n2) (TV t d2) with
  | Some (n, d) => exists n' d', n = RInt (TV t n') /\ d = RInt (TV t d') /\
      small t n' /\ small t d' /\ exact_quotient n1 d1 n2 d2 n' d' /\ lowest_terms n' d'
  | None => forall n' d', exact_quotient n1 d1 n2 d2 n' d' -> lowest_terms n' d' ->
      hi t < Z.abs n' \/ hi t < Z.abs d'
  end.
Proof.
  intros Ht S1 S2 S3 S4 Hd1 Hd2 Hn1 Hn2. unfold ratio_divide.
  destruct (ratio_small t Ht n2 d2) as (g & n2' & d2' & -> & Pg & En & Ed & R & Sn & Sd); auto.
  cbn [obind fst snd].
  assert (n2' <> 0 /\ d2' <> 0) as [Hn2' Hd2'] by (split; intros ->; lia).
  assert (forall n d, exact_quotient n1 d1 n2 d2 n d <-> exact_product n1 d1 d2' n2' n d) as Heq.
  { intros n d. unfold exact_quotient, exact_product. subst n2 d2. split; intros H.
    - apply (Z.mul_reg_r _ _ g ltac:(lia)). rewrite <- !Z.mul_assoc in *. exact H.
    - rewrite !Z.mul_assoc in *. rewrite H. reflexivity. }
  pose proof (multiply_strict t n1 d1 d2' n2' Ht S1 S2 Sd Sn Hd1 Hn2' Hn1) as HM.
  destruct (ratio_multiply _ _ _ _ _) as [[n d]|].
  - destruct HM as (n' & d' & ? & ? & ? & ? & ? & ?). exists n', d'. rewrite Heq. auto 10.
  - intros n' d'. rewrite Heq. apply HM.
Qed.

(** ** Relaxed *)
Lemma final_mixed t u n d : plain t -> plain u -> small t n -> small u d -> Z.gcd n d = 1 ->
  final_ratio (RInt (TV t n)) (RInt (TV u d)) = Some (RInt (TV (common t u) n), RInt (TV (common t u) d)).
Proof.
  intros Ht Hu Sn Sd Hg.
  assert (plain (common t u) /\ hi t <= hi (common t u) /\ hi u <= hi (common t u) /\
    std_common t u = common t u /\ common t (common t u) = common t u /\ common u (common t u) = common t u)
    as (Hc & Ct & Cu & Cs & Cc1 & Cc2).
  { destruct t as [s w], u as [s' w']. destruct Ht as [Hs Hw], Hu as [Hs' Hw']. cbn in Hs, Hw, Hs', Hw'. subst.
    destruct Hw as [-> | ->], Hw' as [-> | ->]; vm_compute; repeat split; try reflexivity; try discriminate; auto. }
  assert (small (common t u) n /\ small (common t u) d) as [Sn' Sd'] by (unfold small in *; lia).
  pose proof (hi_pos _ Hc) as Hp.
  cbn [final_ratio]. unfold ratio, tv_gcd. cbn [ty_of val]. rewrite Cs.
  rewrite !(small_fits _ Hc) by (unfold small in *; lia). cbn [andb obind]. rewrite Hg.
  unfold tv_div. cbn [ty_of val]. rewrite Cc1, Cc2.
  rewrite !(small_conv _ Hc) by (assumption || unfold small; lia).
  cbn [Z.eqb]. rewrite !Z.quot_1_r. rewrite !(const_fits _ Hc) by (apply small_fits; assumption). reflexivity.
Qed.

Lemma multiply_relaxed t n1 d1 n2 d2 :
  plain t -> 0 < n1 <= hi t -> 0 < d1 <= hi t -> 0 < n2 <= hi t -> 0 < d2 <= hi t ->
  exists n d, exact_product n1 d1 n2 d2 n d /\ lowest_terms n d /\ 0 < n /\ 0 < d /\
    exists n' d', ratio_multiply true (TV t n1) (TV t d1) (TV t n2) (TV t d2) = Some (n', d') /\
      (n <= hi t -> d <= hi t -> n' = RInt (TV t n) /\ d' = RInt (TV t d)) /\
      (n <= hi intmax -> d <= hi intmax -> exists u, plain u /\ n' = RInt (TV u n) /\ d' = RInt (TV u d)) /\
      (hi intmax < n -> n' = RFloat) /\ (hi intmax < d -> d' = RFloat).
Proof.
  intros Ht B1 B2 B3 B4.
  destruct (cross_reduce t n1 d1 n2 d2) as (p & q & r & s & Hr & HM); [assumption|unfold small; lia..|lia|lia|].
  pose proof (red_pos _ _ _ _ _ _ _ _ _ Hr) as Hpos.
  destruct Hpos as (Pp & Pq & Pr & Ps); [lia..|].
  pose proof (red_small _ _ _ _ _ _ _ _ _ Hr) as (Sp & Sq & Sr & Ss).
  pose proof (red_coprime _ _ _ _ _ _ _ _ _ Hr) as Hc.
  exists (p * r), (q * s). split; [eapply reduced_exact; eassumption|].
  split; [split; [nia|exact Hc]|]. split; [nia|]. split; [nia|].
  rewrite HM, !product_relaxed by assumption. cbn [obind]. rewrite (Z.mul_comm s q).
  assert (0 < p * r /\ 0 < q * s) as [Pn Pd] by nia.
  revert Hc Pn Pd. generalize (p * r), (q * s). intros n d Hc Pn Pd.
  pose proof (hi_le_intmax t Ht) as Hle. pose proof plain_intmax as Hi.
  unfold relaxed_result.
  destruct (Z.leb_spec n (hi t)) as [N1|N1]; [|destruct (Z.leb_spec n (hi intmax)) as [N2|N2]];
    (destruct (Z.leb_spec d (hi t)) as [D1|D1]; [|destruct (Z.leb_spec d (hi intmax)) as [D2|D2]]);
    try (rewrite final_mixed by (assumption || unfold small; lia));
    (eexists; eexists; split; [reflexivity|]);
    try rewrite (common_self t Ht);
    (split; [intros; try lia; auto|]); (split; [intros; try lia|split; intros; try lia; reflexivity]);
    eexists; (split; [|split; reflexivity]).
  - exact Ht.
  - destruct t as [z w]. destruct Ht as [Hs [Hw|Hw]]; cbn in Hs, Hw; subst; vm_compute; auto.
  - destruct t as [z w]. destruct Ht as [Hs [Hw|Hw]]; cbn in Hs, Hw; subst; vm_compute; auto.
  - vm_compute; auto.
Qed.

Lemma ratio_lowest t n d :
  plain t -> small t n -> small t d -> d <> 0 ->
  exists n' d', ratio (TV t n) (TV t d) = Some (TV t n', TV t d') /\ n' * d = d' * n /\ lowest_terms n' d'.
Proof.
  intros Ht Hn Hd Hz.
  destruct (ratio_small t Ht n d) as (g & n' & d' & -> & Pg & En & Ed & R & _ & _); auto.
  exists n', d'. subst. split; [reflexivity|]. split; [ring|]. split; [intros ->; lia|].
  apply Zgcd_1_rel_prime, R.
Qed.
