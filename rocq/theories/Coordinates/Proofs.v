(** Proofs about arithmetic on coordinates. *)
From stdpp Require Import list.
From Verif.Base Require Import Outcome Order ListLemmas.
From Verif.Coordinates Require Import Model Spec.
Local Open Scope res_scope.

(** Run overload resolution wherever it occurs. *)
Local Ltac res_calc :=
  repeat match goal with
    | |- context [resolve ?k ?op ?a ?b] =>
        let x := eval vm_compute in (resolve k op a b) in
        change (resolve k op a b) with x; cbn iota beta
    end.

Section proofs.
  Context {V : Type}.
  Implicit Types (raw : list V) (v : validator V) (ar : arith V).

  Lemma zip_each_pointwise f l r raw :
    length l = length r → zip_each f l r = Some raw ↔ pointwise f l r raw.
  Proof.
    revert r raw. induction l as [|x l IH]; intros [|y r] raw Hlen; cbn [length] in Hlen; try done; cbn [zip_each].
    - split.
      + intros [= <-]. repeat split. intros i ??. by rewrite lookup_nil.
      + intros (_ & H & _). by destruct raw.
    - assert (Hl : length l = length r) by lia.
      split.
      + destruct (f x y) as [z|] eqn:Ef; [|done].
        destruct (zip_each f l r) as [raw'|] eqn:Ez; [|done]. cbn. intros [= <-].
        apply IH in Ez as (_ & Hr & Hp); [|done].
        split; [cbn; lia|]. split; [cbn; lia|].
        intros [|i] a b; cbn.
        * intros [= <-] [= <-]. eauto.
        * apply Hp.
      + intros (_ & Hr & Hp). destruct raw as [|z raw]; [done|]. cbn in Hr.
        destruct (Hp 0 x y eq_refl eq_refl) as (z' & [= <-] & ->).
        assert (Hz : zip_each f l r = Some raw).
        { apply IH; [done|]. split; [done|]. split; [lia|]. intros i. apply (Hp (S i)). }
        by rewrite Hz.
  Qed.

  Lemma each_transformed f l raw : each f l = Some raw ↔ transformed f l raw.
  Proof.
    revert raw. induction l as [|x l IH]; intros raw; cbn [each].
    - split.
      + intros [= <-]. split; [done|]. intros i ?. by rewrite lookup_nil.
      + intros (H & _). by destruct raw.
    - split.
      + destruct (f x) as [z|] eqn:Ef; [|done].
        destruct (each f l) as [raw'|] eqn:Ez; [|done]. cbn. intros [= <-].
        destruct (proj1 (IH raw') eq_refl) as (Hr & Hp).
        split; [cbn; lia|].
        intros [|i] a; cbn.
        * intros [= <-]. eauto.
        * apply Hp.
      + intros (Hr & Hp). destruct raw as [|z raw]; [done|]. cbn in Hr.
        destruct (Hp 0 x eq_refl) as (z' & [= <-] & ->).
        assert (Hz : each f l = Some raw).
        { apply IH. split; [lia|]. intros i. apply (Hp (S i)). }
        by rewrite Hz.
  Qed.

  Lemma identity_ok D : validator_ok D (@identity_validator V).
  Proof.
    split.
    - right. by eexists.
    - by intros ??? [= <-] [= <-].
    - intros ?? [= <-]. eauto.
    - intros ?? [= <-]. eauto.
    - intros ??? _ [= <-] [= <-]. split; intros ?; split; naive_solver.
    - done.
  Qed.

  Lemma passes_identity raw c : passes identity_validator raw c ↔ c = raw.
  Proof.
    split.
    - intros H. inversion H; by simplify_eq/=.
    - intros ->. by eapply passes_array.
  Qed.

  Lemma refuses_identity raw e : ¬ refuses identity_validator raw e.
  Proof. intros H. inversion H; by simplify_eq/=. Qed.

  Lemma validate_passes D v raw c :
    validator_ok D v → length raw = D → validate v raw = Ok c ↔ passes v raw c.
  Proof.
    intros Hv Hl. unfold validate. destruct (v_array v) as [f|] eqn:Ea.
    - split; [by eapply passes_array|]. intros H. inversion H; simplify_eq; congruence.
    - destruct (vo_for _ _ Hv) as [(-> & g & Hg)|[? ?]]; [|congruence].
      rewrite Hg. destruct raw as [|x [|]]; try done.
      split.
      + destruct (g x) as [y| | |] eqn:E; cbn [rbind]; try done. intros [= <-]. by eapply passes_single.
      + intros H. inversion H; [congruence|]. assert (g0 = g) as -> by congruence.
        match goal with E : g x = Ok _ |- _ => rewrite E end. done.
  Qed.

  Lemma validate_refuses D v raw e :
    validator_ok D v → length raw = D → validate v raw = Throw e ↔ refuses v raw e.
  Proof.
    intros Hv Hl. unfold validate. destruct (v_array v) as [f|] eqn:Ea.
    - split; [by eapply refuses_array|]. intros H. inversion H; simplify_eq; congruence.
    - destruct (vo_for _ _ Hv) as [(-> & g & Hg)|[? ?]]; [|congruence].
      rewrite Hg. destruct raw as [|x [|]]; try done.
      split.
      + destruct (g x) as [y| | |] eqn:E; cbn [rbind]; try done. intros [= <-]. by eapply refuses_single.
      + intros H. inversion H; [congruence|]. assert (g0 = g) as -> by congruence.
        match goal with E : g x = Throw _ |- _ => rewrite E end. done.
  Qed.

  Lemma validate_total D v raw :
    validator_ok D v → length raw = D → (∃ c, validate v raw = Ok c) ∨ (∃ e, validate v raw = Throw e).
  Proof.
    intros Hv Hl. unfold validate. destruct (v_array v) as [f|] eqn:Ea.
    - by eapply vo_array.
    - destruct (vo_for _ _ Hv) as [(-> & g & Hg)|[? ?]]; [|congruence].
      rewrite Hg. destruct raw as [|x [|]]; try done.
      destruct (vo_single _ _ Hv g x Hg) as [[y ->]|[e ->]]; cbn [rbind]; eauto.
  Qed.

  Lemma passes_length D v raw c : validator_ok D v → passes v raw c → length c = length raw.
  Proof. intros Hv H. inversion H; subst; [|done]. by eapply vo_length. Qed.

  Lemma identity_validate D v raw :
    validator_ok D v → v_identity v = true → validate v raw = Ok raw.
  Proof. intros Hv Hi. unfold validate. by destruct (vo_identity _ _ Hv Hi) as [-> _]. Qed.

  (** Both helpers: the values, validated. *)
  Lemma give_apply D v l r f :
    validator_ok D v → length l = D →
    give (apply_to_each_element v l r f) =
      match zip_each f l r with Some raw => validate v raw | None => UB end.
  Proof.
    intros Hv Hl. unfold apply_to_each_element. destruct (zip_each f l r) as [raw|]; [|done].
    destruct (v_identity v) eqn:Ei.
    - by rewrite (identity_validate D v raw Hv Ei).
    - by destruct (validate v raw).
  Qed.

  Lemma give_for_each D v l f :
    validator_ok D v → length l = D →
    give (for_each_element v l f) =
      match each f l with Some raw => validate v raw | None => UB end.
  Proof.
    intros Hv Hl. unfold for_each_element. destruct (each f l) as [raw|]; [|done].
    destruct (v_identity v) eqn:Ei.
    - by rewrite (identity_validate D v raw Hv Ei).
    - by destruct (validate v raw).
  Qed.

  (** Nothing is changed unless the helper returns. *)
  Lemma apply_strong v (l r : list V) f o l' :
    apply_to_each_element v l r f = (o, l') → o ≠ Ok tt → l' = l.
  Proof.
    unfold apply_to_each_element. destruct (zip_each f l r); [|by intros [= <- <-]].
    destruct (v_identity v); [by intros [= <- <-]|]. by destruct (validate v _); intros [= <- <-].
  Qed.

  (** The common form of every operator which runs. *)
  Definition finish (v : validator V) (point : bool) (m : option (list V)) : res (value V) :=
    match m with
    | Some raw => let? c := validate (in_charge v point) raw in Ok (if point then VCoord c else VDisp c)
    | None => UB
    end.

  Definition compute (ar : arith V) (op : binop) (l r : value V) : option (list V) :=
    match op, l, r with
    | Add, (VCoord a | VDisp a), (VCoord b | VDisp b) => zip_each (a_add ar) a b
    | Sub, (VCoord a | VDisp a), (VCoord b | VDisp b) => zip_each (a_sub ar) a b
    | Mul, (VCoord a | VDisp a), VScalar s | Mul, VScalar s, (VCoord a | VDisp a) => each (λ x, a_mul ar x s) a
    | Mul, (VCoord a | VDisp a), VSpan s | Mul, VSpan s, (VCoord a | VDisp a) => zip_each (a_mul ar) a s
    | Div, (VCoord a | VDisp a), VScalar s => each (λ x, a_div ar x s) a
    | Div, (VCoord a | VDisp a), VSpan s => zip_each (a_div ar) a s
    | _, _, _ => None
    end.

  Local Instance left_shift_dec k op (s t : operand) : Decision (left_shift k op s t).
  Proof. unfold left_shift. apply _. Defined.

  Lemma eval_compute D k ar v op l r fuel :
    validator_ok D v → sized D l → sized D r → 2 ≤ fuel →
    ¬ left_shift k op (type_of l) (type_of r) →
    eval fuel k ar v op l r =
      match resolve k op (type_of l) (type_of r) with
      | Some _ => Some (finish v (gives_point k op l r) (compute ar op l r))
      | None => None
      end.
  Proof.
    intros Hv Hl Hr Hf Hns. destruct fuel as [|[|n]]; [lia|lia|]. clear Hf.
    destruct k as [o f fi u].
    destruct op, l as [a|a|a|a], r as [b|b|b|b], o, f, fi; cbn in Hl, Hr; try reflexivity;
      try (exfalso; apply Hns; repeat split; fail);
      cbn [eval type_of]; res_calc; cbn [run_cand eval type_of]; res_calc; cbn [run_cand];
      unfold as_class; cbn [validator_of elements scalar of_class];
      first
        [ rewrite (give_apply D) by (done || apply identity_ok)
        | rewrite (give_for_each D) by (done || apply identity_ok)
        | idtac ];
      unfold finish, compute, gives_point, is_point, in_charge; cbn [k_free negb]; cbn iota;
      first [ destruct (zip_each _ _ _) | destruct (each _ _) | idtac ]; reflexivity.
  Qed.

  Lemma compute_combine D ar op l r raw :
    sized D l → sized D r → compute ar op l r = Some raw ↔ combine ar op l r raw.
  Proof.
    intros Hl Hr. destruct op, l as [a|a|a|a], r as [b|b|b|b]; cbn in Hl, Hr; cbn [compute combine]; try done;
      first [ apply zip_each_pointwise; congruence | apply each_transformed ].
  Qed.

  Lemma combine_length D ar op l r raw : sized D l → sized D r → combine ar op l r raw → length raw = D.
  Proof.
    intros Hl Hr. destruct op, l as [a|a|a|a], r as [b|b|b|b]; cbn in Hl, Hr; cbn [combine]; try done;
      first [ intros (?&?&_); congruence | intros (?&_); congruence ].
  Qed.

  Lemma in_charge_ok D v p : validator_ok D v → validator_ok D (in_charge v p).
  Proof. destruct p; [done|]. intros _. apply identity_ok. Qed.

  Lemma values_ok D k ar v op l r fuel x :
    validator_ok D v → sized D l → sized D r → 2 ≤ fuel →
    is_Some (resolve k op (type_of l) (type_of r)) →
    ¬ left_shift k op (type_of l) (type_of r) →
    eval fuel k ar v op l r = Some (Ok x) ↔
      ∃ raw c, combine ar op l r raw ∧ passes (in_charge v (gives_point k op l r)) raw c ∧
               holds (gives_point k op l r) x c.
  Proof.
    intros Hv Hl Hr Hf [cd Hres] Hns. rewrite (eval_compute D) by done. rewrite Hres.
    set (p := gives_point k op l r). pose proof (in_charge_ok D v p Hv) as Hp.
    unfold finish. split.
    - destruct (compute ar op l r) as [raw|] eqn:Ec; [|done].
      apply (compute_combine D) in Ec; [|done|done].
      pose proof (combine_length D _ _ _ _ _ Hl Hr Ec) as Hlen.
      destruct (validate (in_charge v p) raw) as [c| | |] eqn:Ev; cbn [rbind]; try done.
      intros [= <-]. exists raw, c. split; [done|]. split.
      + by apply (validate_passes D).
      + by destruct p.
    - intros (raw & c & Hc & Hpass & Hx).
      pose proof (combine_length D _ _ _ _ _ Hl Hr Hc) as Hlen.
      apply (compute_combine D) in Hc; [|done|done]. rewrite Hc.
      apply (validate_passes D) in Hpass; [|done|done]. rewrite Hpass. cbn [rbind].
      unfold holds in Hx. by destruct p; subst.
  Qed.

  Lemma values_throw D k ar v op l r fuel e :
    validator_ok D v → sized D l → sized D r → 2 ≤ fuel →
    is_Some (resolve k op (type_of l) (type_of r)) →
    ¬ left_shift k op (type_of l) (type_of r) →
    eval fuel k ar v op l r = Some (Throw e) ↔
      ∃ raw, combine ar op l r raw ∧ refuses (in_charge v (gives_point k op l r)) raw e.
  Proof.
    intros Hv Hl Hr Hf [cd Hres] Hns. rewrite (eval_compute D) by done. rewrite Hres.
    set (p := gives_point k op l r). pose proof (in_charge_ok D v p Hv) as Hp.
    unfold finish. split.
    - destruct (compute ar op l r) as [raw|] eqn:Ec; [|done].
      apply (compute_combine D) in Ec; [|done|done].
      pose proof (combine_length D _ _ _ _ _ Hl Hr Ec) as Hlen.
      destruct (validate (in_charge v p) raw) as [c| | |] eqn:Ev; cbn [rbind]; try done.
      intros [= <-]. exists raw. split; [done|]. by apply (validate_refuses D).
    - intros (raw & Hc & Hpass).
      pose proof (combine_length D _ _ _ _ _ Hl Hr Hc) as Hlen.
      apply (compute_combine D) in Hc; [|done|done]. rewrite Hc.
      apply (validate_refuses D) in Hpass; [|done|done]. by rewrite Hpass.
  Qed.

  (** Otherwise the arithmetic itself is undefined. *)
  Lemma values_other D k ar v op l r fuel o :
    validator_ok D v → sized D l → sized D r → 2 ≤ fuel →
    ¬ left_shift k op (type_of l) (type_of r) →
    eval fuel k ar v op l r = Some o →
    (∃ x, o = Ok x) ∨ (∃ e, o = Throw e) ∨ (o = UB ∧ ∀ raw, ¬ combine ar op l r raw).
  Proof.
    intros Hv Hl Hr Hf Hns. rewrite (eval_compute D) by done.
    destruct (resolve _ _ _ _) as [cd|]; [|done]. intros [= <-].
    set (p := gives_point k op l r). pose proof (in_charge_ok D v p Hv) as Hp.
    unfold finish. destruct (compute ar op l r) as [raw|] eqn:Ec.
    - apply (compute_combine D) in Ec; [|done|done].
      pose proof (combine_length D _ _ _ _ _ Hl Hr Ec) as Hlen.
      destruct (validate_total D _ raw Hp Hlen) as [[c ->]|[e ->]]; cbn [rbind]; eauto.
    - right. right. split; [done|]. intros raw Hc. apply (compute_combine D) in Hc; [|done|done]. congruence.
  Qed.

  Lemma left_shift_never k ar v a b fuel :
    k_free k = false → eval fuel k ar v Add (VDisp a) (VCoord b) = Some NoFuel.
  Proof.
    intros Hk. destruct k as [o f fi u]. cbn in Hk. subst f.
    induction fuel as [|n IH]; [done|]. cbn -[eval]. cbn [eval].
    destruct o; cbn; exact IH.
  Qed.

  (** Unary minus. *)
  Lemma neg_ok D k ar v l x :
    validator_ok D v → sized D l →
    eval_neg k ar v l = Some (Ok x) ↔
      offers_neg k (type_of l) = true ∧
      ∃ a raw c, (l = VCoord a ∨ l = VDisp a) ∧ transformed (a_neg ar) a raw ∧
                 passes (in_charge v (is_point k l)) raw c ∧ holds (is_point k l) x c.
  Proof.
    intros Hv Hl. pose proof (in_charge_ok D v (is_point k l) Hv) as Hp. split.
    - unfold eval_neg. destruct (is_class (type_of l)) eqn:Ec; [|done].
      destruct (offers_neg k (type_of l)) eqn:Eo; [|done]. cbn [andb].
      destruct (each (a_neg ar) (elements l)) as [raw|] eqn:Ee; [|done].
      apply each_transformed in Ee. intros [= H]. split; [done|].
      exists (elements l), raw.
      assert (Hlen : length raw = D).
      { destruct Ee as [-> _]. destruct l; cbn in *; try done; congruence. }
      assert (Hin : validator_of v (canon k (type_of l)) = in_charge v (is_point k l)).
      { destruct l, k as [? [] ? ?]; try done. }
      unfold make_span, as_class in H. rewrite Hin in H.
      destruct (validate _ raw) as [c| | |] eqn:Ev; cbn [rbind] in H; try done.
      injection H as H. exists c. split; [destruct l; try done; eauto|]. split; [done|].
      split; [by apply (validate_passes D)|].
      destruct l, k as [? [] ? ?]; try done; by rewrite <- H.
    - intros (Ho & a & raw & c & Hla & Ht & Hpass & Hh).
      assert (Hlen : length raw = D).
      { destruct Ht as [-> _]. by destruct Hla; subst. }
      apply (validate_passes D) in Hpass; [|done|done].
      apply each_transformed in Ht. unfold eval_neg. rewrite Ho.
      destruct Hla; subst l; cbn [type_of is_class andb elements]; rewrite Ht;
        unfold make_span, as_class; destruct k as [? [] ? ?]; unfold is_point, holds, in_charge in Hpass, Hh;
        cbn [k_free negb] in Hpass, Hh; cbn iota in Hpass, Hh;
        cbn [canon k_free validator_of]; rewrite Hpass; cbn [rbind of_class]; by rewrite Hh.
  Qed.

  (** Compound assignment. *)
  Lemma assign_fails_strong fuel k ar v op l r o x :
    eval_assign fuel k ar v op l r = Some (o, x) → o ≠ Ok tt → x = l.
  Proof.
    unfold eval_assign. destruct (resolve_assign _ _ _ _); [|done].
    destruct (assign_compiles _ _ _); [|done].
    destruct (eval _ _ _ _ _ _ _) as [[y|e| |]|]; intros [= <- <-]; done.
  Qed.

  Lemma assign_value fuel k ar v op l r x :
    eval_assign fuel k ar v op l r = Some (Ok tt, x) → eval fuel k ar v op l r = Some (Ok x).
  Proof.
    unfold eval_assign. destruct (resolve_assign _ _ _ _); [|done].
    destruct (assign_compiles _ _ _); [|done].
    by destruct (eval _ _ _ _ _ _ _) as [[y|e| |]|]; intros [= <-].
  Qed.

  Lemma assign_outcome fuel k ar v op l r o x :
    eval_assign fuel k ar v op l r = Some (o, x) →
    ∃ o', eval fuel k ar v op l r = Some o' ∧
          (o = Ok tt ↔ ∃ y, o' = Ok y) ∧ (∀ e, o = Throw e ↔ o' = Throw e).
  Proof.
    unfold eval_assign. destruct (resolve_assign _ _ _ _); [|done].
    destruct (assign_compiles _ _ _); [|done].
    destruct (eval _ _ _ _ _ _ _) as [[y|e| |]|]; intros [= <- <-]; eexists; (split; [done|]);
      split; intros; split; intros; naive_solver.
  Qed.

  (** Fuel: results other than running out do not depend on it. *)
  Lemma eval_more D k ar v op l r n m x :
    validator_ok D v → sized D l → sized D r →
    eval n k ar v op l r = Some (Ok x) → 2 ≤ m → eval m k ar v op l r = Some (Ok x).
  Proof.
    intros Hv Hl Hr He Hm.
    destruct (decide (left_shift k op (type_of l) (type_of r))) as [(->&H1&H2&H3)|Hns].
    { destruct l, r; try done. rewrite left_shift_never in He by done. done. }
    destruct (decide (2 ≤ n)).
    { rewrite (eval_compute D) in He by done. by rewrite (eval_compute D). }
    destruct n as [|[|n]]; [done| |lia].
    rewrite (eval_compute D) by done.
    destruct k as [o f fi u].
    destruct op, l as [a|a|a|a], r as [b|b|b|b], o, f, fi; cbn in Hl, Hr; try done;
      rewrite <- He;
      cbn [eval type_of]; res_calc; cbn [run_cand eval type_of]; res_calc; cbn [run_cand];
      unfold as_class; cbn [validator_of elements scalar of_class];
      first
        [ rewrite (give_apply D) by (done || apply identity_ok)
        | rewrite (give_for_each D) by (done || apply identity_ok)
        | idtac ];
      unfold finish, compute, gives_point, is_point, in_charge; cbn [k_free negb]; cbn iota;
      first [ destruct (zip_each _ _ _) | destruct (each _ _) | idtac ]; reflexivity.
  Qed.
End proofs.
