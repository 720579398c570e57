(** Lemmas for C51: bitmasks. *)
From Coq Require Import Bool ZArith Lia.
From Verif.Base Require Import Outcome.
From Verif.Linear Require Import Model Proofs.
From Verif.Bitmask Require Import Model Spec.
Local Open Scope Z_scope.

Lemma conv_value t z : 0 < width t -> is_value t (conv t z).
Proof.
  intros Hw. unfold is_value. rewrite hi_lo by assumption. unfold conv.
  assert (0 < 2 ^ width t) as Hp by (apply Z.pow_pos_nonneg; lia).
  pose proof (Z.mod_pos_bound (z - lo t) _ Hp). lia.
Qed.

Lemma value_fits t a : is_value t a <-> fits t a = true.
Proof. rewrite fits_iff. reflexivity. Qed.

Lemma testbit_cong w a b i : 0 <= i < w -> (2 ^ w | a - b) -> Z.testbit a i = Z.testbit b i.
Proof.
  intros Hi [k Hk]. rewrite <- (Z.mod_pow2_bits_low a w i), <- (Z.mod_pow2_bits_low b w i) by lia.
  f_equal. replace a with (b + k * 2 ^ w) by lia. apply Z_mod_plus_full.
Qed.

Lemma conv_testbit t z i : is_flag t i -> Z.testbit (conv t z) i = Z.testbit z i.
Proof.
  intros Hi. symmetry. apply (testbit_cong (width t)); [exact Hi|]. apply conv_cong. unfold is_flag in Hi. lia.
Qed.

Lemma flags_ext t a b : cpp_type t -> is_value t a -> is_value t b ->
  (forall i, is_flag t i -> Z.testbit a i = Z.testbit b i) -> a = b.
Proof.
  intros Ht Ha Hb He. assert (0 < width t) as Hw by (apply valid_pos; exact Ht).
  apply value_fits in Ha, Hb. rewrite <- (conv_fits t a), <- (conv_fits t b) by assumption.
  apply conv_eq; [exact Hw|].
  apply Z.mod_divide; [apply Z.pow_nonzero; lia|].
  rewrite Zminus_mod.
  assert (a mod 2 ^ width t = b mod 2 ^ width t) as ->.
  { apply Z.bits_inj'. intros i Hi. destruct (Z.lt_ge_cases i (width t)) as [H|H].
    - rewrite !Z.mod_pow2_bits_low by lia. apply He. split; assumption.
    - rewrite !Z.mod_pow2_bits_high by lia. reflexivity. }
  rewrite Z.sub_diag. apply Z.mod_0_l. apply Z.pow_nonzero; lia.
Qed.

Lemma promote_flag t i : cpp_type t -> is_flag t i -> is_flag (promote t) i.
Proof.
  unfold is_flag, promote. intros Ht Hi. destruct (Z.ltb_spec (width t) 32); cbn [width]; lia.
Qed.

Lemma common_flag t i : cpp_type t -> is_flag t i -> is_flag (common t t) i.
Proof.
  intros Ht Hi. pose proof (common_width t t Ht Ht). unfold is_flag in *. lia.
Qed.

Section ops.
  Context (t : ity) (Ht : cpp_type t).

  Lemma or_value a b : is_value t (bm_or t a b).
  Proof. apply conv_value, valid_pos, Ht. Qed.
  Lemma and_value a b : is_value t (bm_and t a b).
  Proof. apply conv_value, valid_pos, Ht. Qed.
  Lemma xor_value a b : is_value t (bm_xor t a b).
  Proof. apply conv_value, valid_pos, Ht. Qed.
  Lemma not_value a : is_value t (bm_not t a).
  Proof. apply conv_value, valid_pos, Ht. Qed.

  Lemma or_bit a b i : is_flag t i -> Z.testbit (bm_or t a b) i = Z.testbit a i || Z.testbit b i.
  Proof.
    intros Hi. unfold bm_or. rewrite conv_testbit, Z.lor_spec by assumption.
    rewrite !conv_testbit by (apply common_flag; assumption). reflexivity.
  Qed.
  Lemma and_bit a b i : is_flag t i -> Z.testbit (bm_and t a b) i = Z.testbit a i && Z.testbit b i.
  Proof.
    intros Hi. unfold bm_and. rewrite conv_testbit, Z.land_spec by assumption.
    rewrite !conv_testbit by (apply common_flag; assumption). reflexivity.
  Qed.
  Lemma xor_bit a b i : is_flag t i -> Z.testbit (bm_xor t a b) i = xorb (Z.testbit a i) (Z.testbit b i).
  Proof.
    intros Hi. unfold bm_xor. rewrite conv_testbit, Z.lxor_spec by assumption.
    rewrite !conv_testbit by (apply common_flag; assumption). reflexivity.
  Qed.
  Lemma not_bit a i : is_flag t i -> Z.testbit (bm_not t a) i = negb (Z.testbit a i).
  Proof.
    intros Hi. pose proof (promote_flag t i Ht Hi) as Hi'. unfold bm_not.
    rewrite !conv_testbit by assumption. rewrite Z.lnot_spec by apply Hi.
    rewrite conv_testbit by assumption. reflexivity.
  Qed.

  Lemma flag_test a m : is_value t a -> is_value t m ->
    (bm_and t a m = m <-> forall i, is_flag t i -> has_flag m i -> has_flag a i).
  Proof.
    intros Ha Hm. unfold has_flag. split.
    - intros E i Hi. rewrite <- E at 1. rewrite and_bit by assumption. rewrite andb_true_iff. tauto.
    - intros H. apply (flags_ext t); [exact Ht|apply and_value|exact Hm|].
      intros i Hi. rewrite and_bit by assumption.
      destruct (Z.testbit m i) eqn:E; [|apply andb_false_r]. rewrite (H i Hi E). reflexivity.
  Qed.
End ops.

Lemma op_flags t a b : cpp_type t -> is_value t a -> is_value t b ->
  (is_value t (bm_or t a b) /\ forall i, is_flag t i -> has_flag (bm_or t a b) i <-> has_flag a i \/ has_flag b i) /\
  (is_value t (bm_and t a b) /\ forall i, is_flag t i -> has_flag (bm_and t a b) i <-> has_flag a i /\ has_flag b i) /\
  (is_value t (bm_xor t a b) /\ forall i, is_flag t i ->
     has_flag (bm_xor t a b) i <-> (has_flag a i /\ ~ has_flag b i) \/ (~ has_flag a i /\ has_flag b i)) /\
  (is_value t (bm_not t a) /\ forall i, is_flag t i -> has_flag (bm_not t a) i <-> ~ has_flag a i).
Proof.
  intros Ht _ _. unfold has_flag.
  split; [split; [apply or_value, Ht|]|split; [split; [apply and_value, Ht|]|
    split; [split; [apply xor_value, Ht|]|split; [apply not_value, Ht|]]]]; intros i Hi.
  - rewrite or_bit by assumption. apply orb_true_iff.
  - rewrite and_bit by assumption. apply andb_true_iff.
  - rewrite xor_bit by assumption. destruct (Z.testbit a i), (Z.testbit b i); cbn; intuition congruence.
  - rewrite not_bit by assumption. destruct (Z.testbit a i); cbn; intuition congruence.
Qed.

Lemma assign_forms t a b :
  bm_or_assign t a b = bm_or t a b /\ bm_and_assign t a b = bm_and t a b /\ bm_xor_assign t a b = bm_xor t a b.
Proof. repeat split. Qed.

Ltac flags t Ht :=
  apply (flags_ext t); [exact Ht|first [assumption|apply or_value; exact Ht|apply and_value; exact Ht|
    apply xor_value; exact Ht|apply not_value; exact Ht]..|];
  let i := fresh "i" in let Hi := fresh "Hi" in
  intros i Hi; repeat first [rewrite or_bit by assumption|rewrite and_bit by assumption|rewrite xor_bit by assumption|rewrite not_bit by assumption].

Lemma boolean_algebra t a b c : cpp_type t -> is_value t a -> is_value t b -> is_value t c ->
  let none := 0 in let all := bm_not t 0 in
  (bm_or t a b = bm_or t b a /\ bm_and t a b = bm_and t b a) /\
  (bm_or t a (bm_or t b c) = bm_or t (bm_or t a b) c /\ bm_and t a (bm_and t b c) = bm_and t (bm_and t a b) c) /\
  (bm_or t a (bm_and t a b) = a /\ bm_and t a (bm_or t a b) = a) /\
  (bm_and t a (bm_or t b c) = bm_or t (bm_and t a b) (bm_and t a c) /\
   bm_or t a (bm_and t b c) = bm_and t (bm_or t a b) (bm_or t a c)) /\
  (bm_or t a (bm_not t a) = all /\ bm_and t a (bm_not t a) = none) /\
  (bm_or t a none = a /\ bm_and t a all = a) /\
  bm_not t (bm_not t a) = a /\
  bm_xor t a b = bm_or t (bm_and t a (bm_not t b)) (bm_and t (bm_not t a) b) /\
  bm_xor t (bm_xor t a b) b = a.
Proof.
  intros Ht Ha Hb Hc none all.
  assert (is_value t none) as Hn.
  { unfold is_value, none, lo, hi. assert (0 < 2 ^ (width t - 1) /\ 0 < 2 ^ width t).
    { pose proof (valid_pos t Ht). split; apply Z.pow_pos_nonneg; lia. }
    destruct (signed t); lia. }
  unfold all.
  repeat split; flags t Ht; unfold none; rewrite ?Z.bits_0;
    repeat match goal with |- context [Z.testbit ?x ?j] => destruct (Z.testbit x j) end; reflexivity.
Qed.
