From Coq Require Import ZArith QArith Bool List Lia Lqa Field.
From Verif.Base Require Import Outcome.
From Verif.Units Require Import Model Spec.
Import ListNotations.
Local Open Scope Q_scope.

(** * Numbers *)
Definition no_int (x : number) : Prop := match x with I z => z = 0%Z | F _ => True end.

Lemma n_mul_q x y : to_q (n_mul x y) == to_q x * to_q y.
Proof. destruct x, y; cbn [n_mul to_q]; try reflexivity. Qed.
Lemma n_add_q x y : to_q (n_add x y) == to_q x + to_q y.
Proof. destruct x, y; cbn [n_add to_q]; try reflexivity; rewrite inject_Z_plus; reflexivity. Qed.
Lemma n_neg_q x : to_q (n_neg x) == - to_q x.
Proof. destruct x; cbn [n_neg to_q]; try reflexivity. Qed.
Lemma n_is_zero_spec x : n_is_zero x = true <-> to_q x == 0.
Proof. unfold n_is_zero. apply Qeq_bool_iff. Qed.
Lemma n_is_zero_false x : n_is_zero x = false <-> ~ to_q x == 0.
Proof.
  rewrite <-n_is_zero_spec. destruct (n_is_zero x); split; intros H; congruence.
Qed.

Lemma no_int_mul x y : no_int x -> no_int (n_mul x y).
Proof. destruct x, y; cbn; intros; subst; auto. Qed.
Lemma no_int_add x y : no_int x -> no_int y -> no_int (n_add x y).
Proof. destruct x, y; cbn; intros; subst; auto. Qed.
Lemma no_int_neg x : no_int x -> no_int (n_neg x).
Proof. destruct x; cbn; intros; subst; auto. Qed.

Lemma n_div_exact x y :
  no_int x -> ~ to_q y == 0 -> exists z, n_div x y = Some z /\ no_int z /\ to_q z == to_q x / to_q y.
Proof.
  intros Hx Hy. unfold n_div. rewrite (proj2 (n_is_zero_false y) Hy).
  destruct x as [a|q].
  - cbn in Hx. subst a. destruct y as [b|q].
    + exists (I 0). assert (b <> 0%Z) as Hb by (intros ->; apply Hy; reflexivity).
      rewrite Z.quot_0_l by exact Hb. cbn [no_int to_q]. repeat split.
    + exists (F (inject_Z 0 / q)). cbn [no_int to_q]. repeat split.
  - exists (F (q / to_q y)). repeat split.
Qed.

(** * Transformations *)
(** [t] is exact: its displacement is not subject to integer division. *)
Definition exact_transform (t : transform) : Prop :=
  ~ to_q (num t) == 0 /\ ~ to_q (den t) == 0 /\ no_int (disp t).

Lemma inverse_exact t :
  exact_transform t ->
  exists i, inverse t = Some i /\ exact_transform i /\
    to_q (num i) = to_q (den t) /\ to_q (den i) = to_q (num t) /\
    to_q (disp i) == - (to_q (disp t) * to_q (den t) / to_q (num t)).
Proof.
  intros (Hn & Hd & Hi). unfold inverse.
  destruct (n_div_exact (n_mul (disp t) (den t)) (num t)) as (z & Ez & Hz & Hq);
    [apply no_int_mul; exact Hi|exact Hn|].
  rewrite Ez. cbn [obind]. eexists. split; [reflexivity|]. cbn [num den disp].
  split; [|split; [reflexivity|split; [reflexivity|]]].
  - split; [exact Hd|split; [exact Hn|]]. apply no_int_neg, Hz.
  - rewrite n_neg_q, Hq, n_mul_q. reflexivity.
Qed.

Lemma product_exact l r :
  exact_transform l -> exact_transform r ->
  exists p, product l r = Some p /\ exact_transform p /\
    to_q (num p) == to_q (num l) * to_q (num r) /\ to_q (den p) == to_q (den l) * to_q (den r) /\
    to_q (disp p) == to_q (disp l) + to_q (disp r) * to_q (num l) / to_q (den l).
Proof.
  intros (Hn & Hd & Hi) (Hn' & Hd' & Hi'). unfold product.
  destruct (n_div_exact (n_mul (disp r) (num l)) (den l)) as (z & Ez & Hz & Hq);
    [apply no_int_mul; exact Hi'|exact Hd|].
  rewrite Ez. cbn [obind]. eexists. split; [reflexivity|]. cbn [num den disp].
  split; [|split; [apply n_mul_q|split; [apply n_mul_q|]]].
  - split; [|split]; cbn [num den disp].
    + rewrite n_mul_q. intros E. apply Qmult_integral in E. tauto.
    + rewrite n_mul_q. intros E. apply Qmult_integral in E. tauto.
    + apply no_int_add; [exact Hi|exact Hz].
  - rewrite n_add_q, Hq, n_mul_q. reflexivity.
Qed.

(** * Roots *)
Global Instance in_root_proper u : Morphisms.Proper (Qeq ==> Qeq) (in_root u).
Proof.
  induction u as [n v|w IH t r]; intros a b E; cbn [in_root]; [exact E|]. apply IH. rewrite E. reflexivity.
Qed.
Global Instance diff_in_root_proper u : Morphisms.Proper (Qeq ==> Qeq) (diff_in_root u).
Proof.
  induction u as [n v|w IH t r]; intros a b E; cbn [diff_in_root]; [exact E|]. apply IH. rewrite E. reflexivity.
Qed.

Definition back (t : transform) (v : Q) : Q := (v - to_q (disp t)) * to_q (den t) / to_q (num t).
Definition back_diff (t : transform) (v : Q) : Q := v * to_q (den t) / to_q (num t).

Lemma proper_transform w t r : proper (Derived w t r) -> exact_transform t /\ proper w.
Proof. intros (Hn & Hd & Hi & Hw). split; [|exact Hw]. split; [exact Hn|split; [exact Hd|exact Hi]]. Qed.

Lemma root_transform_exact u :
  proper u -> exists t, root_transform u = Some t /\ exact_transform t /\
    (forall v, in_root u v == back t v) /\ (forall v, diff_in_root u v == back_diff t v).
Proof.
  induction u as [n vr|w IH t r]; intros Hu.
  - eexists. split; [reflexivity|]. split; [|split].
    + split; [|split]; [intros E; vm_compute in E; discriminate E|intros E; vm_compute in E; discriminate E|reflexivity].
    + intros v. unfold back. cbn [in_root num den disp to_q]. change (inject_Z 0) with 0. change (inject_Z 1) with 1. field.
    + intros v. unfold back_diff. cbn [diff_in_root num den disp to_q]. change (inject_Z 1) with 1. field.
  - apply proper_transform in Hu as [Ht Hw].
    destruct (IH Hw) as (tw & Etw & Htw & Hp & Hq).
    destruct w as [n vr|w' t' r'].
    + cbn [root_transform]. exists t. split; [reflexivity|]. split; [exact Ht|]. split; intros v; reflexivity.
    + change (root_transform (Derived (Derived w' t' r') t r))
        with (let! x := root_transform (Derived w' t' r') in product t x).
      rewrite Etw. cbn [obind].
      destruct (product_exact t tw Ht Htw) as (p & Ep & Hpe & Hn & Hd & Hdisp).
      exists p. split; [exact Ep|]. split; [exact Hpe|].
      destruct Ht as (Hn1 & Hd1 & _), Htw as (Hn2 & Hd2 & _).
      split; intros v.
      * change (in_root (Derived (Derived w' t' r') t r) v)
          with (in_root (Derived w' t' r') ((v - to_q (disp t)) * to_q (den t) / to_q (num t))).
        rewrite Hp. unfold back. rewrite Hn, Hd, Hdisp. field. auto.
      * change (diff_in_root (Derived (Derived w' t' r') t r) v)
          with (diff_in_root (Derived w' t' r') (v * to_q (den t) / to_q (num t))).
        rewrite Hq. unfold back_diff. rewrite Hn, Hd. field. auto.
Qed.

Lemma conversion_exact t1 t2 :
  exact_transform t1 -> exact_transform t2 ->
  exists t, conversion (Some t1) (Some t2) = Some t /\
    (forall v, back t2 (transformed false t v) == back t1 v) /\
    (forall v, back_diff t2 (transformed true t v) == back_diff t1 v).
Proof.
  intros H1 H2. unfold conversion. cbn [obind].
  destruct (inverse_exact t1 H1) as (i & Ei & Hi & Hin & Hid & Hidisp). rewrite Ei. cbn [obind].
  destruct (product_exact t2 i H2 Hi) as (p & Ep & Hp & Hn & Hd & Hdisp).
  exists p. split; [exact Ep|].
  destruct H1 as (Hn1 & Hd1 & _), H2 as (Hn2 & Hd2 & _).
  rewrite Hin in Hn. rewrite Hid in Hd. rewrite Hidisp in Hdisp.
  split; intros v.
  - unfold back, transformed. rewrite Hn, Hd, Hdisp. field. auto.
  - unfold back_diff, transformed. rewrite Hn, Hd. field. auto.
Qed.

Lemma same_root_eq u1 u2 : root_unit u1 = root_unit u2 -> same_root u1 u2 = true.
Proof.
  intros E. unfold same_root. rewrite E.
  assert (exists n v, root_unit u2 = Root n v) as (n & v & ->).
  { clear E. induction u2 as [n v|w IH t r]; [eexists; eexists; reflexivity|exact IH]. }
  apply Nat.eqb_refl.
Qed.

(** * Conversions *)
Lemma construct_ok v q r : construct v q = Ok r -> r = q.
Proof. unfold construct. destruct (accepts v q); congruence. Qed.

Lemma convert_spec from to v1 v2 :
  proper from -> proper to -> root_unit from = root_unit to ->
  validator_of from = Some v1 -> validator_of to = Some v2 ->
  forall v, exists r,
    convert_to false from to v = Some (construct v2 r) /\ in_root to r == in_root from v.
Proof.
  intros Hf Ht Er E1 E2 v. unfold convert_to. rewrite (same_root_eq _ _ Er).
  destruct (root_transform_exact from Hf) as (t1 & Et1 & H1 & Hb1 & Hd1).
  destruct (root_transform_exact to Ht) as (t2 & Et2 & H2 & Hb2 & Hd2).
  rewrite Et1, Et2. destruct (conversion_exact t1 t2 H1 H2) as (t & Et & Hc & _).
  rewrite Et, E1, E2. cbn [obind]. eexists. split; [reflexivity|].
  rewrite Hb2, Hb1. apply Hc.
Qed.

Lemma convert_diff_spec from to v1 v2 :
  proper from -> proper to -> root_unit from = root_unit to ->
  validator_of from = Some v1 -> validator_of to = Some v2 ->
  forall v, exists r,
    convert_to true from to v = Some (Ok r) /\ diff_in_root to r == diff_in_root from v.
Proof.
  intros Hf Ht Er E1 E2 v. unfold convert_to. rewrite (same_root_eq _ _ Er).
  destruct (root_transform_exact from Hf) as (t1 & Et1 & H1 & Hb1 & Hd1).
  destruct (root_transform_exact to Ht) as (t2 & Et2 & H2 & Hb2 & Hd2).
  rewrite Et1, Et2. destruct (conversion_exact t1 t2 H1 H2) as (t & Et & _ & Hc).
  rewrite Et, E1, E2. cbn [obind]. eexists. split; [reflexivity|].
  rewrite Hd2, Hd1. apply Hc.
Qed.

(** A number in terms of the root determines the number in terms of the unit. *)
Lemma in_root_inj u a b : proper u -> in_root u a == in_root u b -> a == b.
Proof.
  intros Hu E. destruct (root_transform_exact u Hu) as (t & _ & (Hn & Hd & _) & Hb & _).
  rewrite !Hb in E. unfold back in E.
  assert (a - to_q (disp t) == b - to_q (disp t)) as E'.
  { transitivity ((a - to_q (disp t)) * to_q (den t) / to_q (num t) * to_q (num t) / to_q (den t)); [field; auto|].
    rewrite E. field. auto. }
  lra.
Qed.

(** Differences are differences. *)
Lemma diff_spec u a b : proper u -> diff_in_root u (a - b) == in_root u a - in_root u b.
Proof.
  intros Hu. destruct (root_transform_exact u Hu) as (t & _ & (Hn & Hd & _) & Hb & Hdf).
  rewrite Hdf, !Hb. unfold back, back_diff. field. auto.
Qed.

(** * Validators *)
Lemma qle_bool_ext a b c d : (a <= b <-> c <= d) -> Qle_bool a b = Qle_bool c d.
Proof.
  intros H. destruct (Qle_bool a b) eqn:E1, (Qle_bool c d) eqn:E2; try reflexivity.
  - apply Qle_bool_iff in E1. apply H, Qle_bool_iff in E1. congruence.
  - apply Qle_bool_iff in E2. apply H, Qle_bool_iff in E2. congruence.
Qed.

Global Instance accepts_proper v : Morphisms.Proper (Qeq ==> eq) (accepts v).
Proof.
  intros a b E. destruct v as [| |l u]; cbn [accepts]; [reflexivity| |].
  - apply qle_bool_ext. rewrite E. reflexivity.
  - f_equal; [destruct l|destruct u]; try reflexivity; apply qle_bool_ext; rewrite E; reflexivity.
Qed.

(** With [x == r * y + d], [r] positive: order is preserved. *)
Lemma affine_le r d a b : 0 < r -> (a * r + d <= b * r + d <-> a <= b).
Proof.
  intros Hr. rewrite Qplus_le_l. apply Qmult_le_r, Hr.
Qed.

Definition not_everything (v : validator) : Prop := v <> VInterval MInf PInf.

Lemma synthesised_accepts v t v' :
  exact_transform t -> 0 < to_q (num t) / to_q (den t) -> not_everything v ->
  synthesised_validator v t = Some v' ->
  (forall q, accepts v' q = accepts v (back t q)) /\ not_everything v'.
Proof.
  intros (Hn & Hd & _) Hr Hv E.
  set (r := to_q (num t) / to_q (den t)) in *. set (d := to_q (disp t)) in *.
  assert (forall q, q == back t q * r + d) as Hback.
  { intros q. unfold back, r, d. field. auto. }
  assert (forall l q, Qle_bool (l * r + d) q = Qle_bool l (back t q)) as Hl.
  { intros l q. apply qle_bool_ext. rewrite (Hback q) at 1. apply affine_le, Hr. }
  assert (forall u q, Qle_bool q (u * r + d) = Qle_bool (back t q) u) as Hu.
  { intros u q. apply qle_bool_ext. rewrite (Hback q) at 1. apply affine_le, Hr. }
  assert (forall q, apply t q == q * r + d) as Ha by (intros q; unfold apply, r, d; field; auto).
  unfold synthesised_validator in E.
  destruct (scale_invariant v) eqn:Es; cbn [andb] in E.
  - destruct (n_is_zero (disp t)) eqn:Ez; cbn [andb orb negb] in E.
    + apply n_is_zero_spec in Ez. fold d in Ez.
      assert (v' = v) as -> by (destruct (translation_invariant v); cbn in E; congruence).
      split; [|exact Hv]. intros q.
      assert (forall q, Qle_bool 0 q = Qle_bool 0 (back t q)) as H0.
      { intros q'. rewrite <-Hl. apply qle_bool_ext. rewrite Ez. split; intros; lra. }
      destruct v as [| |[|l|] [|u|]]; cbn in Es; try discriminate; cbn [accepts]; try reflexivity; try apply H0.
      f_equal. apply Qeq_bool_iff in Es.
      transitivity (Qle_bool 0 q); [apply qle_bool_ext; rewrite Es; reflexivity|].
      rewrite H0. apply qle_bool_ext. rewrite Es. reflexivity.
    + destruct (translation_invariant v) eqn:Et; cbn [andb orb negb] in E; [discriminate|].
      destruct (disp t) as [z|d'] eqn:Ed; [discriminate|]. injection E as <-.
      split; [|discriminate]. intros q. cbn [accepts]. rewrite andb_true_r.
      assert (Qle_bool d' q = Qle_bool 0 (back t q)) as H0.
      { rewrite <-Hl. apply qle_bool_ext. unfold d. cbn [to_q]. split; intros; lra. }
      rewrite H0.
      destruct v as [| |[|l|] [|u|]]; cbn in Es; try discriminate; cbn [accepts].
      * reflexivity.
      * exfalso. apply Hv. reflexivity.
      * rewrite andb_true_r. apply Qeq_bool_iff in Es. apply qle_bool_ext. rewrite Es. reflexivity.
  - destruct v as [| |l u]; try discriminate.
    destruct (apply_bound t l) as [l'|] eqn:El; [|discriminate].
    destruct (apply_bound t u) as [u'|] eqn:Eu; [|discriminate].
    cbn [obind] in E. destruct (bound_lt l' u') eqn:Eb; [|discriminate]. injection E as <-.
    assert (forall b b', apply_bound t b = Some b' ->
      match b with Fin q => b' = Fin (apply t q) | _ => b' = b end) as Hab.
    { intros b b' E. unfold apply_bound in E. rewrite (proj2 (n_is_zero_false (den t)) Hd) in E.
      fold r in E.
      assert (Qeq_bool r 0 = false) as Er0.
      { apply not_true_is_false. intros E'. apply Qeq_bool_iff in E'. lra. }
      assert (Qle_bool 0 r = true) as Er1 by (apply Qle_bool_iff; lra).
      rewrite Er0, Er1 in E. destruct b; congruence. }
    apply Hab in El, Eu. split.
    + intros q. cbn [accepts]. f_equal.
      * destruct l as [|ql|]; subst l'; [reflexivity| |reflexivity].
        rewrite <-Hl. apply qle_bool_ext. rewrite Ha. reflexivity.
      * destruct u as [|qu|]; subst u'; [reflexivity| |reflexivity].
        rewrite <-Hu. apply qle_bool_ext. rewrite Ha. reflexivity.
    + intros E. injection E as -> ->. destruct l, u; discriminate.
Qed.

Lemma validator_accepts u v :
  proper u -> increasing u -> synthesised u -> not_everything (root_validator u) ->
  validator_of u = Some v ->
  (forall q, accepts v q = accepts (root_validator u) (in_root u q)) /\ not_everything v.
Proof.
  revert v. induction u as [n vr|w IH t r]; intros v Hp Hi Hs Hr E.
  - cbn in E. injection E as <-. split; [reflexivity|exact Hr].
  - apply proper_transform in Hp as [Ht Hp]. destruct Hi as [Hi Hi'], Hs as [-> Hs]. cbn [validator_of] in E.
    destruct (validator_of w) as [vw|]; [|discriminate].
    destruct (IH vw Hp Hi' Hs Hr eq_refl) as [Ha Hn]. cbn [obind] in E.
    destruct (synthesised_validator vw t) as [v''|] eqn:Es; [|discriminate]. cbn [obind] in E. injection E as <-.
    destruct (synthesised_accepts vw t v'' Ht Hi Hn Es) as [Hb Hn']. split; [|exact Hn'].
    intros q. rewrite Hb, Ha. reflexivity.
Qed.

Lemma root_validator_eq u1 u2 : root_unit u1 = root_unit u2 -> root_validator u1 = root_validator u2.
Proof. intros E. unfold root_validator. rewrite E. reflexivity. Qed.

Lemma convert_valid from to v1 v2 :
  proper from -> proper to -> increasing from -> increasing to -> synthesised from -> synthesised to ->
  root_unit from = root_unit to -> root_validator from <> VInterval MInf PInf ->
  validator_of from = Some v1 -> validator_of to = Some v2 ->
  forall v,
    (accepts v1 v = true -> exists r, convert_to false from to v = Some (Ok r)) /\
    (accepts v1 v = false -> convert_to false from to v = Some (Throw DomainError)).
Proof.
  intros Hf Ht If It Sf St Er Hn E1 E2 v.
  destruct (convert_spec from to v1 v2 Hf Ht Er E1 E2 v) as (r & Ec & Hin). rewrite Ec.
  destruct (validator_accepts from v1 Hf If Sf Hn E1) as [Ha1 _].
  rewrite (root_validator_eq _ _ Er) in Hn.
  destruct (validator_accepts to v2 Ht It St Hn E2) as [Ha2 _].
  assert (accepts v2 r = accepts v1 v) as E.
  { rewrite Ha1, Ha2, Hin, (root_validator_eq _ _ Er). reflexivity. }
  unfold construct. rewrite E. split; intros ->; eauto.
Qed.

(** * Products of units *)
Lemma product_scaling a b :
  proper a -> proper b -> scaling a -> scaling b ->
  exists t, composite_root_transform [a; b] = Some t /\ exact_transform t /\ to_q (disp t) == 0 /\
    forall v, product_in_root [a; b] v == back_diff t v.
Proof.
  intros Ha Hb Sa Sb.
  assert (forall u t, proper u -> scaling u -> root_transform u = Some t -> to_q (disp t) == 0) as Hz.
  { intros u. induction u as [n vr|w IH t r]; intros t' Hp Hs E.
    - injection E as <-. reflexivity.
    - destruct Hs as [Hs Hs']. apply proper_transform in Hp as [Ht Hp].
      destruct w as [n vr|w' tw rw]; [injection E as <-; exact Hs|].
      change (root_transform (Derived (Derived w' tw rw) t r))
        with (let! x := root_transform (Derived w' tw rw) in product t x) in E.
      destruct (root_transform_exact _ Hp) as (tx & Ex & Hx & _). rewrite Ex in E. cbn [obind] in E.
      destruct (product_exact t tx Ht Hx) as (p & Ep & _ & _ & _ & Hd). rewrite Ep in E. injection E as <-.
      rewrite Hd, Hs, (IH tx Hp Hs' Ex). unfold Qdiv. ring. }
  destruct (root_transform_exact a Ha) as (ta & Eta & Xa & _ & Da).
  destruct (root_transform_exact b Hb) as (tb & Etb & Xb & _ & Db).
  destruct (product_exact ta tb Xa Xb) as (p & Ep & Xp & Hn & Hd & Hdisp).
  exists p. unfold composite_root_transform. rewrite Eta, Etb. cbn [obind].
  split; [exact Ep|]. split; [exact Xp|]. split.
  - rewrite Hdisp, (Hz a ta Ha Sa Eta), (Hz b tb Hb Sb Etb). unfold Qdiv. ring.
  - intros v. cbn [product_in_root]. rewrite Da, Db. unfold back_diff. rewrite Hn, Hd.
    destruct Xa as (? & ? & _), Xb as (? & ? & _). field. auto.
Qed.

Lemma convert_composite_spec a b a' b' :
  proper a -> proper b -> proper a' -> proper b' -> scaling a -> scaling b -> scaling a' -> scaling b' ->
  root_unit a = root_unit a' -> root_unit b = root_unit b' ->
  forall v, exists r, convert_composite [a; b] [a'; b'] v = Some r /\
    product_in_root [a'; b'] r == product_in_root [a; b] v.
Proof.
  intros Ha Hb Ha' Hb' Sa Sb Sa' Sb' E1 E2 v. unfold convert_composite.
  cbn [same_roots]. rewrite (same_root_eq _ _ E1), (same_root_eq _ _ E2). cbn [andb].
  destruct (product_scaling a b Ha Hb Sa Sb) as (t & Et & Xt & Zt & Ht).
  destruct (product_scaling a' b' Ha' Hb' Sa' Sb') as (t' & Et' & Xt' & Zt' & Ht').
  rewrite Et, Et'. destruct (conversion_exact t t' Xt Xt') as (c & Ec & Hc & _).
  rewrite Ec. cbn [obind]. eexists. split; [reflexivity|]. rewrite Ht, Ht'.
  specialize (Hc v). unfold back in Hc. unfold back_diff.
  rewrite Zt, Zt' in Hc.
  assert (forall x, x - 0 == x) as H0 by (intros; ring). rewrite !H0 in Hc. exact Hc.
Qed.
