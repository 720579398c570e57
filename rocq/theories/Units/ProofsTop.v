From Coq Require Import ZArith QArith Bool List Lqa Field.
From Verif.Base Require Import Outcome.
From Verif.Units Require Import Model Spec Proofs.
Import ListNotations.
Local Open Scope Q_scope.

Lemma conversion_top from to v1 v2 v :
  proper from -> proper to -> root_unit from = root_unit to ->
  validator_of from = Some v1 -> validator_of to = Some v2 ->
  (forall r, convert_to false from to v = Some (Ok r) -> in_root to r == in_root from v) /\
  ((exists r, convert_to false from to v = Some (Ok r)) \/ convert_to false from to v = Some (Throw DomainError)).
Proof.
  intros Hf Ht Er E1 E2. destruct (convert_spec from to v1 v2 Hf Ht Er E1 E2 v) as (r & E & H).
  rewrite E. split.
  - intros r' E'. injection E' as E'. apply construct_ok in E' as ->. exact H.
  - unfold construct. destruct (accepts v2 r); [left; eexists; reflexivity|right; reflexivity].
Qed.

Lemma diff_in_root_inj u a b : proper u -> diff_in_root u a == diff_in_root u b -> a == b.
Proof.
  intros Hu E. apply (in_root_inj u a b Hu).
  pose proof (diff_spec u a 0 Hu) as Ha. pose proof (diff_spec u b 0 Hu) as Hb.
  assert (forall x, x - 0 == x) as H0 by (intros; ring). rewrite !H0 in *. lra.
Qed.

Lemma differences_top from to v1 v2 a b :
  proper from -> proper to -> root_unit from = root_unit to ->
  validator_of from = Some v1 -> validator_of to = Some v2 ->
  exists r, convert_to true from to (a - b) = Some (Ok r) /\
    diff_in_root to r == in_root from a - in_root from b /\
    forall a' b', convert_to false from to a = Some (Ok a') -> convert_to false from to b = Some (Ok b') ->
      r == a' - b'.
Proof.
  intros Hf Ht Er E1 E2.
  destruct (convert_diff_spec from to v1 v2 Hf Ht Er E1 E2 (a - b)) as (r & E & H).
  exists r. split; [exact E|]. rewrite (diff_spec from a b Hf) in H. split; [exact H|].
  intros a' b' Ea Eb. apply (diff_in_root_inj to); [exact Ht|]. rewrite H, (diff_spec to a' b' Ht).
  rewrite (proj1 (conversion_top from to v1 v2 a Hf Ht Er E1 E2) a' Ea).
  rewrite (proj1 (conversion_top from to v1 v2 b Hf Ht Er E1 E2) b' Eb). reflexivity.
Qed.

Lemma round_trip_top u1 u2 v1 v2 v r s :
  proper u1 -> proper u2 -> root_unit u1 = root_unit u2 ->
  validator_of u1 = Some v1 -> validator_of u2 = Some v2 ->
  convert_to false u1 u2 v = Some (Ok r) -> convert_to false u2 u1 r = Some (Ok s) -> s == v.
Proof.
  intros H1 H2 Er E1 E2 Ea Eb. apply (in_root_inj u1 _ _ H1).
  rewrite (proj1 (conversion_top u2 u1 v2 v1 r H2 H1 (eq_sym Er) E2 E1) s Eb).
  apply (proj1 (conversion_top u1 u2 v1 v2 v H1 H2 Er E1 E2) r Ea).
Qed.

Lemma via_third_top u1 u2 u3 v1 v2 v3 v r s s' :
  proper u1 -> proper u2 -> proper u3 -> root_unit u1 = root_unit u2 -> root_unit u2 = root_unit u3 ->
  validator_of u1 = Some v1 -> validator_of u2 = Some v2 -> validator_of u3 = Some v3 ->
  convert_to false u1 u2 v = Some (Ok r) -> convert_to false u2 u3 r = Some (Ok s) ->
  convert_to false u1 u3 v = Some (Ok s') -> s == s'.
Proof.
  intros H1 H2 H3 R1 R2 E1 E2 E3 Ea Eb Ec. apply (in_root_inj u3 _ _ H3).
  rewrite (proj1 (conversion_top u2 u3 v2 v3 r H2 H3 R2 E2 E3) s Eb).
  rewrite (proj1 (conversion_top u1 u3 v1 v3 v H1 H3 (eq_trans R1 R2) E1 E3) s' Ec).
  apply (proj1 (conversion_top u1 u2 v1 v2 v H1 H2 R1 E1 E2) r Ea).
Qed.

Ltac nonzero := match goal with |- ~ _ == _ => let E := fresh in intros E; vm_compute in E; discriminate E end.

Lemma library_units_top pi v :
  ~ pi == 0 ->
  in_root celsius v == v + (27315 # 100) /\
  in_root fahrenheit v == (v - 32) * (5 # 9) + (27315 # 100) /\
  in_root foot v == v * (3048 # 10000) /\
  in_root gram v == v * (1 # 1000) /\ in_root milligram v == v * (1 # 1000000) /\
  in_root tonne v == v * 1000 /\ in_root kilotonne v == v * 1000000 /\
  in_root (degree pi) 180 == pi /\ in_root (gradian pi) 200 == pi /\
  Forall proper [celsius; fahrenheit; foot; gram; milligram; tonne; kilotonne; degree pi; gradian pi].
Proof.
  intros Hpi.
  repeat match goal with |- _ /\ _ => split end.
  1-7: cbv [in_root celsius fahrenheit foot gram milligram tonne kilotonne micro milli kilo mega scaled
            kelvin metre kilogram disp den num to_q inject_Z validator_of]; field.
  1-2: cbv [in_root degree gradian radian disp den num to_q inject_Z]; field.
  repeat constructor; cbn [proper disp num den to_q]; try nonzero; auto.
Qed.

Lemma product_of_three_top :
  exists us us', Forall proper us /\ Forall proper us' /\ Forall scaling us /\ Forall scaling us' /\
    map root_unit us = map root_unit us' /\ forall v, convert_composite us us' v = None.
Proof.
  exists [gram; foot; second], [kilogram; metre; second].
  repeat match goal with |- _ /\ _ => split end;
    try (repeat constructor; cbn [proper disp num den to_q]; try nonzero; reflexivity).
Qed.

Lemma integral_displacement_top :
  exists from to v r,
    root_unit from = root_unit to /\
    convert_to false from to v = Some (Ok r) /\ ~ in_root to r == in_root from v.
Proof.
  pose (root := Root 9 (VInterval (Fin (-100)) PInf)).
  exists (Derived root (Transform (I 1) (I 2) (I 1)) None), (Derived root (Transform (I 1) (I 3) (I 0)) None), 0.
  eexists. split; [reflexivity|]. split; [vm_compute; reflexivity|]. nonzero.
Qed.

Lemma prefix_top :
  exists v v1, proper celsius /\ increasing (milli celsius) /\ validator_of celsius = Some v1 /\ accepts v1 v = true /\
    convert_to false celsius (milli celsius) v = Some (Throw DomainError).
Proof.
  exists (-1). eexists. split; [|split; [|split; [vm_compute; reflexivity|split; vm_compute; reflexivity]]].
  - repeat split; nonzero.
  - repeat split.
Qed.

Lemma prefix_accepts_top :
  exists v v1, validator_of (kilo celsius) = Some v1 /\ accepts v1 v = true /\
    accepts (root_validator (kilo celsius)) (in_root (kilo celsius) v) = false.
Proof. exists (-200). eexists. split; [vm_compute; reflexivity|split; vm_compute; reflexivity]. Qed.

Lemma negative_ratio_top :
  exists u v, proper u /\ synthesised u /\ validator_of u <> None /\
    accepts VHalfLine v = true /\ root_validator u = VHalfLine /\
    convert_to false (root_unit u) u v = Some (Throw DomainError).
Proof.
  exists (Derived metre (Transform (I (-1)) (I 1) (I 0)) None), 1.
  repeat split; try nonzero; discriminate.
Qed.

Lemma unbounded_interval_top :
  exists u v, proper u /\ increasing u /\ synthesised u /\ validator_of u <> None /\
    root_validator u = VInterval MInf PInf /\
    convert_to false (root_unit u) u v = Some (Throw DomainError).
Proof.
  exists (Derived (Root 9 (VInterval MInf PInf)) (Transform (I 1) (I 1) (F 5)) None), (-1).
  repeat split; try nonzero; discriminate.
Qed.

(** With a negative ratio the bounds change places, and the interval is ill-formed. *)
Lemma negative_interval l u t :
  bound_lt l u = true -> scale_invariant (VInterval l u) = false ->
  to_q (num t) / to_q (den t) < 0 -> synthesised_validator (VInterval l u) t = None.
Proof.
  intros Hlu Hs Hr. unfold synthesised_validator. rewrite Hs. cbn [andb].
  unfold apply_bound. destruct (n_is_zero (den t)); [reflexivity|].
  set (r := to_q (num t) / to_q (den t)) in *.
  assert (Qeq_bool r 0 = false) as E0.
  { apply not_true_is_false. intros E'. apply Qeq_bool_iff in E'. lra. }
  assert (Qle_bool 0 r = false) as E1.
  { apply not_true_is_false. intros E'. apply Qle_bool_iff in E'. lra. }
  rewrite E0, E1. destruct l as [|l|], u as [|u|]; cbn in Hlu, Hs; try discriminate; cbn [obind bound_lt]; try reflexivity.
  assert (Qle_bool (apply t u) (apply t l) = true) as ->; [|reflexivity].
  apply Qle_bool_iff. apply negb_true_iff in Hlu.
  assert (l < u) as Hl.
  { apply Qnot_le_lt. intros E. apply Qle_bool_iff in E. congruence. }
  assert (forall x, apply t x == x * r + to_q (disp t)) as Ha.
  { intros x. unfold apply, r, Qdiv. ring. }
  rewrite !Ha. nra.
Qed.
