From stdpp Require Import list.
From Coq Require Import ZArith QArith Qcanon.
From Verif.Base Require Import Outcome ListLemmas.
From Verif.Products Require Import Model Spec Proofs ProofsUnits.
From Verif.Quantities Require Import Model Spec.
Local Open Scope Qc_scope.

Lemma pos_nonzero x : 0 < x -> x <> 0.
Proof. intros H ->. by apply (Qclt_not_le 0 0). Qed.
Lemma pos_times x y : 0 < x -> 0 < y -> 0 < x * y.
Proof. intros Hx Hy. rewrite <-(Qcmult_0_l y). by apply Qcmult_lt_compat_r. Qed.
Lemma nonneg_times x y : 0 <= x -> 0 <= y -> 0 <= x * y.
Proof. intros Hx Hy. rewrite <-(Qcmult_0_l y). by apply Qcmult_le_compat_r. Qed.
Lemma pos_inverse x : 0 < x -> 0 < / x.
Proof.
  intros H. destruct (Qclt_le_dec 0 (/ x)) as [|Hle]; [done|]. exfalso.
  assert (/ x * x <= 0 * x) as Hc by (apply Qcmult_le_compat_r; [done|by apply Qclt_le_weak]).
  rewrite Qcmult_inv_l, Qcmult_0_l in Hc by (by apply pos_nonzero). by vm_compute in Hc.
Qed.
Lemma pos_over x y : 0 < x -> 0 < y -> 0 < x / y.
Proof. intros. apply pos_times; [done|by apply pos_inverse]. Qed.
Lemma nonneg_pos x : 0 <= x -> x <> 0 -> 0 < x.
Proof. intros H Hn. destruct (Qclt_le_dec 0 x) as [|Hle]; [done|]. destruct Hn. by apply Qcle_antisym. Qed.
Lemma nonneg_over x y : 0 <= x -> 0 <= y -> y <> 0 -> 0 <= x / y.
Proof. intros Hx Hy Hn. apply nonneg_times; [done|]. apply Qclt_le_weak, pos_inverse. by apply nonneg_pos. Qed.

Lemma power_nonzero x n : x <> 0 -> Qcpower x n <> 0.
Proof.
  intros H. induction n as [|n IH]; [by vm_compute|]. cbn [Qcpower]. intros E. apply Qcmult_integral in E as [E|E]; done.
Qed.
Lemma to_the_succ x z : x <> 0 -> to_the x (Z.succ z) = to_the x z * x.
Proof.
  intros H. destruct z as [|p|p].
  - change (Z.succ 0) with 1%Z. unfold to_the. change (Pos.to_nat 1) with 1%nat. cbn [Qcpower]. ring.
  - replace (Z.succ (Z.pos p)) with (Z.pos (Pos.succ p)) by lia. unfold to_the. rewrite Pos2Nat.inj_succ. cbn [Qcpower]. ring.
  - destruct (Pos.eq_dec p 1) as [-> |Hp].
    + change (Z.succ (-1)) with 0%Z. unfold to_the. change (Pos.to_nat 1) with 1%nat. cbn [Qcpower]. field. exact H.
    + assert (exists q, p = Pos.succ q) as [q ->] by (exists (Pos.pred p); by rewrite Pos.succ_pred).
      replace (Z.succ (Z.neg (Pos.succ q))) with (Z.neg q) by lia. unfold to_the. rewrite Pos2Nat.inj_succ. cbn [Qcpower].
      field. split; [by apply power_nonzero|exact H].
Qed.
Lemma to_the_0 x : to_the x 0 = 1. Proof. done. Qed.
Lemma to_the_1 x : to_the x 1 = x.
Proof. unfold to_the. change (Pos.to_nat 1) with 1%nat. cbn [Qcpower]. ring. Qed.
Lemma to_the_nonzero x z : x <> 0 -> to_the x z <> 0.
Proof.
  intros H. destruct z as [|p|p]; cbn; [by vm_compute|by apply power_nonzero|]. intros E.
  assert (/ Qcpower x (Pos.to_nat p) * Qcpower x (Pos.to_nat p) = 1) as E1 by (apply Qcmult_inv_l; by apply power_nonzero).
  rewrite E, Qcmult_0_l in E1. by vm_compute in E1.
Qed.
Lemma to_the_add x y z : x <> 0 -> to_the x (y + z) = to_the x y * to_the x z.
Proof.
  intros H. revert y. induction z as [|z IH|z IH] using Z.peano_ind; intros y.
  - rewrite Z.add_0_r, to_the_0. ring.
  - rewrite Z.add_succ_r, !to_the_succ, IH by done. ring.
  - pose proof (to_the_succ x (Z.pred z) H) as E. rewrite Z.succ_pred in E.
    pose proof (to_the_succ x (y + Z.pred z) H) as E'. replace (Z.succ (y + Z.pred z)) with (y + z)%Z in E' by lia. rewrite IH, E in E'.
    assert (to_the x (y + Z.pred z) * x / x = to_the x y * (to_the x (Z.pred z) * x) / x) as E2 by (by rewrite E').
    transitivity (to_the x (y + Z.pred z) * x / x); [field; exact H|]. rewrite E2. field. exact H.
Qed.
Lemma to_the_opp x z : x <> 0 -> to_the x (- z) = / to_the x z.
Proof.
  intros H. destruct z as [|p|p]; [done|done|]. unfold Z.opp, to_the. assert (Qcpower x (Pos.to_nat p) <> 0) by (by apply power_nonzero).
  generalize dependent (Qcpower x (Pos.to_nat p)). intros y Hy. field. split; [exact Hy|]. by vm_compute.
Qed.
Lemma to_the_sub x y z : x <> 0 -> to_the x (y - z) = to_the x y / to_the x z.
Proof. intros H. unfold Z.sub. rewrite to_the_add, to_the_opp by done. done. Qed.

(** ** Units in terms of others *)
Fixpoint scale_to (σ : nat -> Qc) (f : nat -> Z) (m : nat) : Qc :=
  match m with O => 1 | S m' => to_the (σ m') (f m') * scale_to σ f m' end.
Lemma scale_to_ext σ f g m : (forall n, to_the (σ n) (f n) = to_the (σ n) (g n)) -> scale_to σ f m = scale_to σ g m.
Proof. intros H. induction m as [|m IH]; [done|]. cbn. by rewrite IH, H. Qed.
Lemma scale_to_add σ f g m : (forall n, σ n <> 0) -> scale_to σ (fun n => f n + g n)%Z m = scale_to σ f m * scale_to σ g m.
Proof. intros H. induction m as [|m IH]; cbn; [ring|]. rewrite IH, to_the_add by done. ring. Qed.
Lemma scale_to_opp σ f m : (forall n, σ n <> 0) -> scale_to σ (fun n => - f n)%Z m = / scale_to σ f m.
Proof.
  intros H. assert (forall m, scale_to σ f m <> 0) as Hn.
  { clear m. intros m. induction m as [|m IH]; [by vm_compute|]. cbn. intros E. apply Qcmult_integral in E as [E|E]; [|done]. by apply to_the_nonzero in E. }
  induction m as [|m IH]; cbn; [done|]. rewrite IH, to_the_opp by done. field. split; [done|]. by apply to_the_nonzero.
Qed.
Lemma scale_to_one σ (f : nat -> Z) i z m : (forall n, σ n <> 0) -> (i < m)%nat ->
  scale_to σ (fun n => (if Nat.eqb i n then z else 0) + f n)%Z m = to_the (σ i) z * scale_to σ f m.
Proof.
  intros H Hi. rewrite scale_to_add by done. f_equal. clear f. induction m as [|m IH]; [lia|]. cbn.
  destruct (Nat.eqb_spec i m) as [-> |E].
  - assert (forall k, (k <= m)%nat -> scale_to σ (fun n => if Nat.eqb m n then z else 0%Z) k = 1) as Hz.
    { intros k. induction k as [|k IHk]; intros Hk; [done|]. cbn. rewrite IHk by lia. rewrite (proj2 (Nat.eqb_neq m k)) by lia. rewrite ?to_the_0. ring. }
    rewrite Hz by lia. ring.
  - rewrite IH by lia. rewrite ?to_the_0. ring.
Qed.
Lemma scale_of_to σ ts m : (forall n, σ n <> 0) -> Forall (fun t => (name t < m)%nat) ts -> scale_of σ ts = scale_to σ (fun n => exponent n ts) m.
Proof.
  intros H Hm. induction Hm as [|t ts Ht _ IH].
  - cbn. symmetry. induction m as [|m IH]; [done|]. cbn. rewrite IH, ?to_the_0. ring.
  - cbn [scale_of exponent]. rewrite IH. symmetry. by apply scale_to_one.
Qed.
Lemma names_below (ts : list ty) : exists m, Forall (fun t => (name t < m)%nat) ts.
Proof.
  induction ts as [|t ts [m IH]]; [by exists 0%nat|]. exists (S (max (name t) m)). constructor; [lia|]. eapply Forall_impl; [exact IH|].
  intros u Hu. cbn in *. lia.
Qed.
Lemma scale_nonzero σ ts : (forall n, σ n <> 0) -> scale_of σ ts <> 0.
Proof.
  intros H. induction ts as [|t ts IH]; [by vm_compute|]. cbn. intros E. apply Qcmult_integral in E as [E|E]; [|done]. by apply to_the_nonzero in E.
Qed.

Section scale.
  Context (no_unit : nat) (σ : nat -> Qc).
  Hypotheses (Hσ : forall n, σ n <> 0) (Hone : σ no_unit = 1).
  Lemma one_to_the z : to_the 1 z = 1.
  Proof.
    assert (forall n, Qcpower 1 n = 1) as Hp by (intros n; induction n as [|n IH]; [done|]; cbn; rewrite IH; ring).
    destruct z; cbn; rewrite ?Hp; done.
  Qed.
  Lemma scale_dimension a m : Forall (fun t => (name t < m)%nat) (factors a) -> scale_of σ (factors a) = scale_to σ (dimension no_unit a) m.
  Proof using Hσ Hone.
    intros H. rewrite (scale_of_to σ (factors a) m) by done. apply scale_to_ext. intros n. unfold dimension.
    destruct (Nat.eqb_spec n no_unit) as [-> |E]; [|done]. rewrite Hone. by rewrite !one_to_the.
  Qed.
  Lemma scale_combined a b c : (forall n, dimension no_unit c n = dimension no_unit a n + dimension no_unit b n)%Z ->
    scale_of σ (factors c) = scale_of σ (factors a) * scale_of σ (factors b).
  Proof using Hσ Hone.
    intros H. destruct (names_below (factors a ++ factors b ++ factors c)) as [m Hm]. apply Forall_app in Hm as [Ha Hm]. apply Forall_app in Hm as [Hb Hc].
    rewrite (scale_dimension a m Ha), (scale_dimension b m Hb), (scale_dimension c m Hc), <-scale_to_add by done.
    apply scale_to_ext. intros n. by rewrite H.
  Qed.
  Lemma scale_opposite a b : (forall n, dimension no_unit b n = - dimension no_unit a n)%Z -> scale_of σ (factors b) = / scale_of σ (factors a).
  Proof using Hσ Hone.
    intros H. destruct (names_below (factors a ++ factors b)) as [m Hm]. apply Forall_app in Hm as [Ha Hb].
    rewrite (scale_dimension a m Ha), (scale_dimension b m Hb), <-scale_to_opp by done. apply scale_to_ext. intros n. by rewrite H.
  Qed.
End scale.

(** ** Products of powers *)
Definition single_value (q : kind * list Qc) : Prop := exists x, q.2 = [x] /\ x <> 0.
Lemma worth_zero f env : Forall single_value env -> (forall i, f i = 0%Z) -> worth f env = 1.
Proof.
  intros H. revert f. induction H as [|[k xs] env (x & Hx & Hn) _ IH]; intros f Hf; [done|]. cbn in Hx. subst xs. cbn. rewrite Hf, ?to_the_0, IH by done. ring.
Qed.
Lemma worth_add f g env : Forall single_value env -> worth (fun i => f i + g i)%Z env = worth f env * worth g env.
Proof.
  intros H. revert f g. induction H as [|[k xs] env (x & Hx & Hn) _ IH]; intros f g; [cbn; ring|]. cbn in Hx. subst xs.
  cbn. rewrite (IH (fun i => f (S i)) (fun i => g (S i))), to_the_add by done. ring.
Qed.
Lemma worth_sub f g env : Forall single_value env -> worth (fun i => f i - g i)%Z env = worth f env / worth g env.
Proof.
  intros H. assert (worth g env <> 0) as Hw.
  { revert g. induction H as [|[k xs] env (x & Hx & Hn) _ IH]; intros g; [by vm_compute|]. cbn in Hx. subst xs.
    cbn. intros E. apply Qcmult_integral in E as [E|E]; [|by apply IH in E]. rewrite Qcmult_1_r in E. by apply to_the_nonzero in E. }
  assert (worth (fun i => f i - g i)%Z env * worth g env = worth f env) as E.
  { rewrite <-worth_add by done. clear. revert f g. induction env as [|[k xs] env IH]; intros f g; [done|]. cbn.
    rewrite (IH (fun i => f (S i)) (fun i => g (S i))). by replace (f 0%nat - g 0%nat + g 0%nat)%Z with (f 0%nat) by lia. }
  rewrite <-E. by field.
Qed.
Lemma worth_var i env k x : Forall single_value env -> env !! i = Some (k, [x]) -> worth (fun j => if Nat.eqb j i then 1 else 0)%Z env = x.
Proof.
  intros H. revert i. induction H as [|[k' xs] env (x' & Hx & Hn) Hf IH]; intros i E; [done|]. cbn in Hx. subst xs. destruct i as [|i]; cbn in E; cbn [worth fmap list_fmap foldr Nat.eqb].
  - injection E as -> ->. rewrite (worth_zero (fun _ => 0%Z)), to_the_1 by done. ring.
  - rewrite (IH i), ?to_the_0 by done. ring.
Qed.
Lemma worth_ext f g env : (forall i, f i = g i) -> worth f env = worth g env.
Proof. revert f g. induction env as [|[k xs] env IH]; intros f g H; [done|]. cbn. rewrite (H 0%nat). f_equal. by apply IH. Qed.

Section exponents.
  Context (no_unit : nat).
  Lemma exponents_add f g env n : exponents no_unit (fun i => f i + g i)%Z env n = (exponents no_unit f env n + exponents no_unit g env n)%Z.
  Proof. revert f g. induction env as [|[k xs] env IH]; intros f g; [done|]. cbn. rewrite (IH (fun i => f (S i)) (fun i => g (S i))). lia. Qed.
  Lemma exponents_sub f g env n : exponents no_unit (fun i => f i - g i)%Z env n = (exponents no_unit f env n - exponents no_unit g env n)%Z.
  Proof. revert f g. induction env as [|[k xs] env IH]; intros f g; [done|]. cbn. rewrite (IH (fun i => f (S i)) (fun i => g (S i))). lia. Qed.
  Lemma exponents_zero env n : exponents no_unit (fun _ => 0%Z) env n = 0%Z.
  Proof. induction env as [|[k xs] env IH]; [done|]. cbn. by rewrite IH. Qed.
  Lemma exponents_var i env k xs n : env !! i = Some (k, xs) ->
    exponents no_unit (fun j => if Nat.eqb j i then 1 else 0)%Z env n = dimension no_unit (unit_of k) n.
  Proof.
    revert i. induction env as [|[k' ys] env IH]; intros i E; [done|]. destruct i as [|i]; cbn in E |- *.
    - injection E as -> ->. rewrite exponents_zero. lia.
    - rewrite (IH i) by done. lia.
  Qed.
  Lemma exponents_ext f g env n : (forall i, f i = g i) -> exponents no_unit f env n = exponents no_unit g env n.
  Proof. revert f g. induction env as [|[k xs] env IH]; intros f g H; [done|]. cbn. rewrite (H 0%nat). f_equal. by apply IH. Qed.
End exponents.
