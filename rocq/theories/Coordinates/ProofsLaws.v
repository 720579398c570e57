(** Objects stay acceptable; laws of points and displacements. *)
From stdpp Require Import list.
From Verif.Base Require Import Outcome Order ListLemmas.
From Verif.Coordinates Require Import Model Spec Proofs.
Local Open Scope res_scope.

Section laws.
  Context {V : Type}.
  Implicit Types (v : validator V) (ar : arith V).

  Lemma eval_inv D k ar v op l r n x :
    validator_ok D v → sized D l → sized D r → eval n k ar v op l r = Some (Ok x) →
    ∃ raw c, combine ar op l r raw ∧ passes (in_charge v (gives_point k op l r)) raw c ∧
             holds (gives_point k op l r) x c ∧ length c = D.
  Proof.
    intros Hv Hl Hr He.
    apply (eval_more D k ar v op l r n 2) in He; [|done..|lia].
    assert (Hns : ¬ left_shift k op (type_of l) (type_of r)).
    { intros (->&H1&H2&H3). destruct l, r; try done. by rewrite left_shift_never in He. }
    assert (is_Some (resolve k op (type_of l) (type_of r))) as Hs.
    { rewrite (eval_compute D) in He by (done || lia). destruct (resolve _ _ _ _); [by eexists|done]. }
    apply (values_ok D) in He as (raw & c & Hc & Hp & Hh); [|done..|lia|done|done].
    exists raw, c. split; [done|]. split; [done|]. split; [done|].
    rewrite (passes_length D _ _ _ (in_charge_ok D v _ Hv) Hp). exact (combine_length D ar op l r raw Hl Hr Hc).
  Qed.

  Lemma made_ok D k ar v x :
    validator_ok D v → made D k ar v x → sized D x ∧ ∀ c, x = VCoord c → acceptable k v c.
  Proof.
    intros Hv. induction 1 as
      [l Hl|s|l Hl|l c Hl Hm|ts c HD Hm|y c HD Hm|n op l r x _ IHl _ IHr He|n op l r o x _ IHl _ IHr He
      |l x _ IH He|l _ IH|l i y x _ IH He].
    - done.
    - done.
    - done.
    - unfold make_span in Hm. apply (validate_passes D) in Hm; [|done|done]. split.
      + cbn. by rewrite (passes_length D _ _ _ Hv Hm).
      + intros ? [= <-]. right. eauto.
    - unfold make_pack in Hm. destruct (decide _) as [Hts|]; [|done].
      destruct (v_array v) as [f|] eqn:Ef; [|done]. injection Hm as Hm.
      pose proof (passes_array v f _ _ Ef Hm) as Hp. split.
      + cbn. rewrite (passes_length D _ _ _ Hv Hp). rewrite app_length, replicate_length. lia.
      + intros ? [= <-]. right. eauto.
    - subst D. unfold make_single in Hm. destruct (v_single v) as [g|] eqn:Eg; [|done].
      destruct (g y) as [z| | |] eqn:Egy; cbn [rbind] in Hm; try done. injection Hm as <-.
      split; [done|]. intros ? [= <-]. right. exists [y].
      destruct (v_array v) as [f|] eqn:Ef.
      + eapply passes_array; [done|]. by apply (vo_agree _ _ Hv f g y eq_refl Ef Eg).
      + by eapply passes_single.
    - destruct IHl as [Hl _], IHr as [Hr _].
      apply (eval_inv D) in He as (raw & c & _ & Hp & Hh & Hlen); [|done..].
      destruct (gives_point k op l r); cbn in Hh, Hp; subst x; (split; [done|]); intros ? [= <-].
      right. eauto.
    - assert (o = Ok tt ∨ o ≠ Ok tt) as [->|Hne] by (destruct o as [[]| | |]; [by left|by right..]).
      + apply assign_value in He. destruct IHl as [Hl _], IHr as [Hr _].
        apply (eval_inv D) in He as (raw & c & _ & Hp & Hh & Hlen); [|done..].
        destruct (gives_point k op l r); cbn in Hh, Hp; subst x; (split; [done|]); intros ? [= <-].
        right. eauto.
      + by apply assign_fails_strong in He as ->.
    - destruct IH as [Hl _].
      apply (neg_ok D) in He as (_ & a & raw & c & Ha & Ht & Hp & Hh); [|done|done].
      assert (Hlen : length c = D).
      { rewrite (passes_length D _ _ _ (in_charge_ok D v _ Hv) Hp). destruct Ht as [-> _]. by destruct Ha; subst. }
      destruct (is_point k l); cbn in Hh, Hp; subst x; (split; [done|]); intros ? [= <-].
      right. eauto.
    - done.
    - destruct IH as [Hl _]. unfold set_component in He.
      destruct (is_class (type_of l) && v_identity (validator_of v (canon k (type_of l)))
                && origin_of k (canon k (type_of l))) eqn:Eb; [|done].
      destruct (decide _) as [Hi|]; [|done]. injection He as <-.
      apply andb_true_iff in Eb as [Eb _]. apply andb_true_iff in Eb as [Ec Ei].
      assert (Hlen : length (<[i:=y]> (elements l)) = D).
      { rewrite insert_length. by destruct l. }
      unfold of_class in *. destruct (canon k (type_of l)) eqn:Et; cbn [sized]; split; try done; intros c [= <-];
        right; exists (<[i:=y]> (elements l)); cbn [validator_of] in Ei;
        apply (validate_passes D); try done; by apply (identity_validate D).
  Qed.

  Lemma made_accepts D k ar v c :
    validator_ok D v → idempotent v → k_free k = false → made D k ar v (VCoord c) → passes v c c.
  Proof.
    intros Hv Hi Hk Hm. destruct (made_ok D k ar v _ Hv Hm) as [_ H].
    destruct (H c eq_refl) as [?|[raw Hr]]; [congruence|]. by eapply Hi.
  Qed.

  (** ** Laws *)
  Lemma pointwise_length f (a b c : list V) : pointwise f a b c → length c = length b.
  Proof. intros (?&?&_). congruence. Qed.

  Lemma pointwise_at f (a b c : list V) i z :
    pointwise f a b c → c !! i = Some z → ∃ x y, a !! i = Some x ∧ b !! i = Some y ∧ f x y = Some z.
  Proof.
    intros (H1 & H2 & H3) Hz. pose proof (lookup_lt_Some _ _ _ Hz) as Hi.
    destruct (lookup_lt_is_Some_2 a i) as [x Hx]; [lia|].
    destruct (lookup_lt_is_Some_2 b i) as [y Hy]; [lia|].
    destruct (H3 i x y Hx Hy) as (z' & Hz' & Hf). exists x, y. naive_solver.
  Qed.

  Lemma passes_id_v (raw c : list V) : passes (in_charge identity_validator false) raw c → c = raw.
  Proof. apply passes_identity. Qed.

  (** The operators at work, with the class made explicit. *)
  Lemma add_point D k ar v p d q n :
    validator_ok D v → k_free k = false → length p = D → length d = D → 2 ≤ n →
    eval n k ar v Add (VCoord p) (VDisp d) = Some (Ok q) ↔
      ∃ raw c, pointwise (a_add ar) p d raw ∧ passes v raw c ∧ q = VCoord c.
  Proof.
    intros Hv Hk Hp Hd Hn.
    rewrite (values_ok D); [|done|done|done|done| |].
    - unfold gives_point, is_point. rewrite Hk. cbn [negb]. cbn iota. done.
    - destruct k as [[] [] [] ?]; try done; by eexists.
    - by intros (_&?&_).
  Qed.

  Lemma sub_point D k ar v p d q n :
    validator_ok D v → k_free k = false → length p = D → length d = D → 2 ≤ n →
    eval n k ar v Sub (VCoord p) (VDisp d) = Some (Ok q) ↔
      ∃ raw c, pointwise (a_sub ar) p d raw ∧ passes v raw c ∧ q = VCoord c.
  Proof.
    intros Hv Hk Hp Hd Hn.
    rewrite (values_ok D); [|done|done|done|done| |].
    - unfold gives_point, is_point. rewrite Hk. cbn [negb]. cbn iota. done.
    - destruct k as [[] [] [] ?]; try done; by eexists.
    - by intros (?&_).
  Qed.

  Lemma diff_points D k ar v p q d n :
    validator_ok D v → k_free k = false → length p = D → length q = D → 2 ≤ n →
    eval n k ar v Sub (VCoord q) (VCoord p) = Some (Ok d) ↔
      ∃ raw, pointwise (a_sub ar) q p raw ∧ d = VDisp raw.
  Proof.
    intros Hv Hk Hp Hq Hn.
    rewrite (values_ok D); [|done|done|done|done| |].
    - unfold gives_point, is_point. rewrite Hk. cbn [negb]. cbn iota. cbn [in_charge]. split.
      + intros (raw & c & Hr & Hc & Hd). apply passes_identity in Hc as ->. eauto.
      + intros (raw & Hr & ->). exists raw, raw. split; [done|]. split; [by apply passes_identity|done].
    - destruct k as [[] [] [] ?]; try done; by eexists.
    - by intros (?&_).
  Qed.

  Lemma op_disps op f D k ar v p q d n :
    (op = Add ∧ f = a_add ar) ∨ (op = Sub ∧ f = a_sub ar) →
    validator_ok D v → length p = D → length q = D → 2 ≤ n →
    eval n k ar v op (VDisp p) (VDisp q) = Some (Ok d) ↔
      ∃ raw, pointwise f p q raw ∧ d = VDisp raw.
  Proof.
    intros Hop Hv Hp Hq Hn.
    rewrite (values_ok D); [|done|done|done|done| |].
    - unfold gives_point, is_point. cbn [negb]. cbn iota. cbn [in_charge].
      assert (Hc : ∀ raw, combine ar op (VDisp p) (VDisp q) raw ↔ pointwise f p q raw).
      { intros raw. by destruct Hop as [[-> ->]|[-> ->]]. }
      split.
      + intros (raw & c & Hr & Hcc & Hd). apply passes_identity in Hcc as ->. exists raw. split; [by apply Hc|done].
      + intros (raw & Hr & ->). exists raw, raw. split; [by apply Hc|]. split; [by apply passes_identity|done].
    - destruct Hop as [[-> _]|[-> _]], k as [[] [] [] ?]; by eexists.
    - intros (_&_&?&_). done.
  Qed.

  Lemma scale_disp D k ar v p s d n :
    validator_ok D v → length p = D → 2 ≤ n →
    eval n k ar v Mul (VDisp p) (VScalar s) = Some (Ok d) ↔
      ∃ raw, transformed (λ x, a_mul ar x s) p raw ∧ d = VDisp raw.
  Proof.
    intros Hv Hp Hn.
    rewrite (values_ok D); [|done|done|done|done| |].
    - unfold gives_point, is_point. cbn [negb]. cbn iota. cbn [in_charge]. split.
      + intros (raw & c & Hr & Hcc & Hd). apply passes_identity in Hcc as ->. eauto.
      + intros (raw & Hr & ->). exists raw, raw. split; [done|]. split; [by apply passes_identity|done].
    - destruct k as [[] [] [] ?]; by eexists.
    - intros (?&_). done.
  Qed.

  (** p + (q - p) = q *)
  Lemma law_difference D k ar v p q d n :
    validator_ok D v → only_checks v → group_like ar → k_free k = false → length p = D → length q = D → 2 ≤ n →
    passes v q q →
    eval n k ar v Sub (VCoord q) (VCoord p) = Some (Ok d) →
    eval n k ar v Add (VCoord p) d = Some (Ok (VCoord q)).
  Proof.
    intros Hv Ho Hg Hk Hp Hq Hn Hpass He.
    apply (diff_points D) in He as (raw & Hr & ->); [|done..].
    assert (length raw = D) by (destruct Hr as (?&?&_); congruence).
    apply (add_point D); [done..|]. exists q, q. split; [|done].
    split; [congruence|]. split; [congruence|].
    intros i x z Hx Hz. destruct (pointwise_at _ _ _ _ _ _ Hr Hz) as (y & x' & Hy & Hx' & Hf).
    apply (gl_diff _ Hg) in Hf. simplify_eq. eauto.
  Qed.

  (** (p + v) - p = v *)
  Lemma law_shift_difference D k ar v p d q n :
    validator_ok D v → only_checks v → group_like ar → k_free k = false → length p = D → length d = D → 2 ≤ n →
    eval n k ar v Add (VCoord p) (VDisp d) = Some (Ok q) →
    eval n k ar v Sub q (VCoord p) = Some (Ok (VDisp d)).
  Proof.
    intros Hv Ho Hg Hk Hp Hd Hn He.
    apply (add_point D) in He as (raw & c & Hr & Hc & ->); [|done..].
    apply Ho in Hc as ->.
    assert (length raw = D) by (destruct Hr as (?&?&_); congruence).
    apply (diff_points D); [done..|]. exists d. split; [|done].
    split; [congruence|]. split; [congruence|].
    intros i z x Hz Hx. destruct (pointwise_at _ _ _ _ _ _ Hr Hz) as (x' & y & Hx' & Hy & Hf).
    destruct (gl_undo _ Hg _ _ _ Hf). simplify_eq. eauto.
  Qed.

  (** (p + v) - v = p *)
  Lemma law_undo D k ar v p d q n :
    validator_ok D v → only_checks v → group_like ar → k_free k = false → length p = D → length d = D → 2 ≤ n →
    passes v p p →
    eval n k ar v Add (VCoord p) (VDisp d) = Some (Ok q) →
    eval n k ar v Sub q (VDisp d) = Some (Ok (VCoord p)).
  Proof.
    intros Hv Ho Hg Hk Hp Hd Hn Hpass He.
    apply (add_point D) in He as (raw & c & Hr & Hc & ->); [|done..].
    apply Ho in Hc as ->.
    assert (length raw = D) by (destruct Hr as (?&?&_); congruence).
    apply (sub_point D); [done..|]. exists p, p. split; [|done].
    split; [congruence|]. split; [congruence|].
    intros i z y Hz Hy. destruct (pointwise_at _ _ _ _ _ _ Hr Hz) as (x & y' & Hx & Hy' & Hf).
    destruct (gl_undo _ Hg _ _ _ Hf). simplify_eq. eauto.
  Qed.

  (** (p + v) + w = p + (v + w) *)
  Lemma law_assoc D k ar v p d e q r u n :
    validator_ok D v → only_checks v → group_like ar → k_free k = false →
    length p = D → length d = D → length e = D → 2 ≤ n →
    eval n k ar v Add (VCoord p) (VDisp d) = Some (Ok q) →
    eval n k ar v Add q (VDisp e) = Some (Ok r) →
    eval n k ar v Add (VDisp d) (VDisp e) = Some (Ok u) →
    eval n k ar v Add (VCoord p) u = Some (Ok r).
  Proof.
    intros Hv Ho Hg Hk Hp Hd He Hn H1 H2 H3.
    apply (add_point D) in H1 as (raw & c & Hr & Hc & ->); [|done..].
    apply Ho in Hc as ->.
    assert (length raw = D) by (destruct Hr as (?&?&_); congruence).
    apply (add_point D) in H2 as (raw2 & c & Hr2 & Hc & ->); [|done..].
    pose proof (Ho _ _ Hc) as ->.
    apply (op_disps Add (a_add ar) D) in H3 as (s & Hs & ->); [|eauto|done..].
    assert (length s = D) by (destruct Hs as (?&?&_); congruence).
    assert (length raw2 = D) by (destruct Hr2 as (?&?&_); congruence).
    apply (add_point D); [done..|]. exists raw2, raw2. split; [|done].
    split; [congruence|]. split; [congruence|].
    intros i x b Hx Hb.
    destruct (lookup_lt_is_Some_2 raw2 i) as [z Hz]; [apply lookup_lt_Some in Hx; lia|].
    destruct (pointwise_at _ _ _ _ _ _ Hr2 Hz) as (a & ee & Ha & Hee & Hf2).
    destruct (pointwise_at _ _ _ _ _ _ Hr Ha) as (x' & dd & Hx' & Hdd & Hf1).
    destruct (pointwise_at _ _ _ _ _ _ Hs Hb) as (dd' & ee' & Hdd' & Hee' & Hf3).
    simplify_eq. exists z. split; [done|].
    by rewrite <- (gl_assoc _ Hg _ _ _ _ _ Hf1 Hf3).
  Qed.

  (** Displacements commute. *)
  Lemma law_comm D k ar v d e u n :
    validator_ok D v → group_like ar → length d = D → length e = D → 2 ≤ n →
    eval n k ar v Add (VDisp d) (VDisp e) = Some (Ok u) →
    eval n k ar v Add (VDisp e) (VDisp d) = Some (Ok u).
  Proof.
    intros Hv Hg Hd He Hn H.
    apply (op_disps Add (a_add ar) D) in H as (s & Hs & ->); [|eauto|done..].
    apply (op_disps Add (a_add ar) D); [eauto|done..|]. exists s. split; [|done].
    destruct Hs as (H1 & H2 & H3). split; [congruence|]. split; [congruence|].
    intros i x y Hx Hy. rewrite (gl_comm _ Hg). eauto.
  Qed.

  (** (v + w) - w = v for displacements. *)
  Lemma law_disp_undo D k ar v d e u n :
    validator_ok D v → group_like ar → length d = D → length e = D → 2 ≤ n →
    eval n k ar v Add (VDisp d) (VDisp e) = Some (Ok u) →
    eval n k ar v Sub u (VDisp e) = Some (Ok (VDisp d)).
  Proof.
    intros Hv Hg Hd He Hn H.
    apply (op_disps Add (a_add ar) D) in H as (s & Hs & ->); [|eauto|done..].
    assert (length s = D) by (destruct Hs as (?&?&_); congruence).
    apply (op_disps Sub (a_sub ar) D); [eauto|done..|]. exists d. split; [|done].
    split; [congruence|]. split; [congruence|].
    intros i z y Hz Hy. destruct (pointwise_at _ _ _ _ _ _ Hs Hz) as (x & y' & Hx & Hy' & Hf).
    destruct (gl_undo _ Hg _ _ _ Hf). simplify_eq. eauto.
  Qed.

  (** (v + w) s = v s + w s *)
  Lemma law_distrib D k ar v d e s u a b t n :
    validator_ok D v → distributive ar → length d = D → length e = D → 2 ≤ n →
    eval n k ar v Add (VDisp d) (VDisp e) = Some (Ok u) →
    eval n k ar v Mul u (VScalar s) = Some (Ok t) →
    eval n k ar v Mul (VDisp d) (VScalar s) = Some (Ok a) →
    eval n k ar v Mul (VDisp e) (VScalar s) = Some (Ok b) →
    eval n k ar v Add a b = Some (Ok t).
  Proof.
    intros Hv Hdist Hd He Hn H1 H2 H3 H4.
    apply (op_disps Add (a_add ar) D) in H1 as (us & Hus & ->); [|eauto|done..].
    assert (length us = D) by (destruct Hus as (?&?&_); congruence).
    apply (scale_disp D) in H2 as (ts & Hts & ->); [|done..].
    apply (scale_disp D) in H3 as (as_ & Has & ->); [|done..].
    apply (scale_disp D) in H4 as (bs & Hbs & ->); [|done..].
    destruct Hts as [Ht1 Ht2], Has as [Ha1 Ha2], Hbs as [Hb1 Hb2].
    apply (op_disps Add (a_add ar) D); [eauto|done|congruence|congruence|done|]. exists ts. split; [|done].
    split; [congruence|]. split; [congruence|].
    intros i x y Hx Hy.
    destruct (lookup_lt_is_Some_2 us i) as [uu Huu]; [apply lookup_lt_Some in Hx; lia|].
    destruct (pointwise_at _ _ _ _ _ _ Hus Huu) as (dd & ee & Hdd & Hee & Hf).
    destruct (Ht2 _ _ Huu) as (tt' & Htt & Hft).
    destruct (Ha2 _ _ Hdd) as (aa & Haa & Hfa).
    destruct (Hb2 _ _ Hee) as (bb & Hbb & Hfb).
    simplify_eq. exists tt'. split; [done|]. by eapply Hdist.
  Qed.

  (** The order of scalar and vector does not matter. *)
  Lemma law_scalar_left D k ar v l s n m :
    validator_ok D v → sized D l → is_class (type_of l) = true → 2 ≤ n → 2 ≤ m →
    eval n k ar v Mul (VScalar s) l = eval m k ar v Mul l (VScalar s).
  Proof.
    intros Hv Hl Hc Hn Hm.
    rewrite !(eval_compute D) by (done || by intros (?&_)).
    destruct l, k as [[] [] [] ?]; try done; cbn [type_of]; by vm_compute.
  Qed.
End laws.

(** ** Which operators are offered *)
Lemma resolve_makes_sense k op l r :
  kind_ok k → nameable l → nameable r → (op = Div → r ≠ TSpan) →
  is_Some (resolve k op l r) ↔ makes_sense k op l r.
Proof.
  intros Hk Hl Hr Hd. destruct k as [[] [] [] u]; try (by specialize (Hk eq_refl));
    destruct op, l, r; try done; try (by specialize (Hd eq_refl));
    (split; intros H; [first [exact I | reflexivity | split; reflexivity | by destruct H]
                      | first [done | by destruct H | (eexists; vm_compute; reflexivity)]]).
Qed.

Lemma candidates_at_most_one k op l r : length (candidates k op l r) ≤ 1.
Proof. destruct k as [[] [] [] u], op, l, r; vm_compute; lia. Qed.

Lemma assign_offered_compiles k op l r a :
  kind_ok k → nameable r → l = TCoord ∨ l = TDisp → resolve_assign k op l r = Some a →
  ¬ (op = Add ∧ l = TCoord ∧ r = TCoord ∧ k_free k = false) →
  ¬ (op = Div ∧ l = TCoord ∧ k_origin k = false) →
  assign_compiles k a l = true.
Proof.
  intros Hk Hr Hl Ha H1 H2. destruct k as [[] [] [] u]; try (by specialize (Hk eq_refl));
    destruct op, Hl as [-> | ->], r; try done; vm_compute in Ha; try done; injection Ha as <-;
    first [done | by destruct H1 | by destruct H2].
Qed.

Lemma assign_offered_iff k op l r :
  kind_ok k → nameable r → l = TCoord ∨ l = TDisp →
  ¬ (op = Div ∧ l = TCoord ∧ k_origin k = false) →
  is_Some (resolve_assign k op l r) ↔ assign_makes_sense k op l r.
Proof.
  intros Hk Hr Hl H2. destruct k as [[] [] [] u]; try (by specialize (Hk eq_refl));
    destruct op, Hl as [-> | ->], r; try done; try (by destruct H2);
    (split; intros H; [first [exact I | reflexivity | split; reflexivity | by destruct H]
                      | first [done | by destruct H | (eexists; vm_compute; reflexivity)]]).
Qed.

(** A compound assignment does what the operator does. *)
Lemma assign_runs {V} fuel k (ar : arith V) v op l r a :
  resolve_assign k op (type_of l) (type_of r) = Some a → assign_compiles k a (type_of l) = true →
  (∀ x, eval fuel k ar v op l r = Some (Ok x) → eval_assign fuel k ar v op l r = Some (Ok tt, x)) ∧
  (∀ e, eval fuel k ar v op l r = Some (Throw e) → eval_assign fuel k ar v op l r = Some (Throw e, l)).
Proof. intros Ha Hc. unfold eval_assign. rewrite Ha, Hc. by split; intros ? ->. Qed.

Lemma returns_result_type k op l r c d :
  kind_ok k → nameable l → nameable r → resolve k op l r = Some (c, d) → returns c d = result_type k op l r.
Proof.
  destruct k as [[] [] [] []]; intros Hk Hl Hr H; try (by specialize (Hk eq_refl));
    destruct op, l, r; try done; vm_compute in H; try discriminate H; injection H as <- <-; done.
Qed.

Lemma offers_neg_iff k t :
  kind_ok k → t = TCoord ∨ t = TDisp →
  offers_neg k t = true ↔ k_unsigned k = false ∧ (t = TDisp ∨ k_origin k = true).
Proof.
  destruct k as [[] [] [] []]; intros Hk [-> | ->]; try (by specialize (Hk eq_refl)); vm_compute;
    split; try (intros [? [?|?]]); naive_solver.
Qed.
