(** Checks for equality find exactly the differences. *)
From stdpp Require Import list.
From Verif.Base Require Import Outcome Order ListLemmas.
From Verif.Checks Require Import Model Spec Proofs.

Section equality.
  Context (st : nat → bool) (heap : nat → val) (E : env) (HE : honest st heap E).
  Notation has_type := (has_type heap).
  Notation same_value := (same_value st).

  Lemma all2_iff f e l r :
    (∀ x y, has_type e x → has_type e y → f x y = true ↔ same_value e x y) →
    (∀ x, x ∈ l → has_type e x) → (∀ x, x ∈ r → has_type e x) →
    all2 f l r = true ↔ Forall2 (same_value e) l r.
  Proof.
    intros Hf. revert r. induction l as [|x l IH]; intros [|y r] Hl Hr; cbn [all2].
    - done.
    - split; [done|]. intros H; inversion H.
    - split; [done|]. intros H; inversion H.
    - rewrite andb_true_iff, Forall2_cons. rewrite Hf; [|apply Hl; by left|apply Hr; by left].
      rewrite IH; [done| |]; intros z Hz; [apply Hl|apply Hr]; by right.
  Qed.

  Lemma all_with_iff ts fs l r :
    Forall2 (λ t f, ∀ x y, has_type t x → has_type t y → f x y = true ↔ same_value t x y) ts fs →
    related (map (λ t x (_ : val), has_type t x) ts) l l →
    related (map (λ t x (_ : val), has_type t x) ts) r r →
    all_with fs l r = true ↔ related (map same_value ts) l r.
  Proof.
    intros H. revert l r. induction H as [|t f ts fs Hf _ IH]; intros l r Hl Hr.
    - by destruct l, r.
    - destruct l as [|x l], r as [|y r]; try done. destruct Hl as [Hx Hl], Hr as [Hy Hr].
      cbn [all_with map related]. rewrite andb_true_iff, Hf by done. by rewrite IH.
  Qed.

  Lemma deep_shallow T : deep E T = true → shallow E T = true.
  Proof. destruct T; cbn [deep]; intros H; by apply andb_true_iff in H as [? _]. Qed.

  Lemma op_honest T :
    deep E T = true →
    ∃ f, op_of E T = Some f ∧ ∀ x y, has_type T x → has_type T y → f x y = true ↔ same_value T x y.
  Proof.
    induction T as [c|c e IH|ts IH|ts IH|t IH|t _|t _|t _| |] using ty_induction; cbn [deep]; intros Hd;
      apply andb_true_iff in Hd as [Hs Hd]; try discriminate Hs.
    - cbn [shallow] in Hs. apply bool_decide_eq_true in Hs as [f Hf]. cbn [op_of]. rewrite Hf. cbn. eexists; split; [done|].
      intros x y Hx Hy. destruct x, y; try done. by apply (ho_class _ _ _ HE c).
    - cbn [shallow] in Hs. apply bool_decide_eq_true in Hs as [f Hf]. cbn [op_of]. rewrite Hf.
      destruct (e_values E c) eqn:Ev.
      + destruct (IH Hd) as (g&Hg&Hgs). rewrite Hg. cbn. eexists; split; [done|].
        intros x y Hx Hy. destruct x as [|s l| | | | | | | | |], y as [|s' l'| | | | | | | | |]; try done.
        assert (e_array E c = false) as Ha.
        { destruct (e_array E c) eqn:Ha; [|done]. apply (ho_array _ _ _ HE) in Ha. congruence. }
        rewrite (ho_eq _ _ _ HE c f _ _ _ Hf Ha). rewrite (all2_iff g e); [|done|done|done]. naive_solver.
      + apply negb_true_iff in Hd. exfalso.
        assert (e_values E c = true) by (apply (ho_values _ _ _ HE); [by eexists|done]). congruence.
    - cbn [op_of].
      assert (∃ fs, mapM (op_of E) ts = Some fs ∧
        Forall2 (λ t f, ∀ x y, has_type t x → has_type t y → f x y = true ↔ same_value t x y) ts fs) as (fs&Hm&Hfs).
      { clear Hs. induction IH as [|t ts Ht _ IHts]; [by exists []|]. cbn in Hd. apply andb_true_iff in Hd as [Hd1 Hd2].
        destruct (Ht Hd1) as (f&Hf&Hff). destruct (IHts Hd2) as (fs&Hm&Hfs). exists (f :: fs). cbn. rewrite Hf. cbn.
        rewrite Hm. cbn. split; [done|]. by constructor. }
      rewrite Hm. cbn. eexists; split; [done|]. intros x y Hx Hy. destruct x, y; try done. by apply all_with_iff.
    - cbn [op_of].
      assert (∃ fs, mapM (op_of E) ts = Some fs ∧
        Forall2 (λ t f, ∀ x y, has_type t x → has_type t y → f x y = true ↔ same_value t x y) ts fs) as (fs&Hm&Hfs).
      { clear Hs. induction IH as [|t ts Ht _ IHts]; [by exists []|]. cbn in Hd. apply andb_true_iff in Hd as [Hd1 Hd2].
        destruct (Ht Hd1) as (f&Hf&Hff). destruct (IHts Hd2) as (fs&Hm&Hfs). exists (f :: fs). cbn. rewrite Hf. cbn.
        rewrite Hm. cbn. split; [done|]. by constructor. }
      rewrite Hm. cbn. eexists; split; [done|]. intros x y Hx Hy.
      destruct x as [| | |i v| | | | | | |], y as [| | |i' v'| | | | | | |]; try done.
      cbn [Spec.same_value]. rewrite andb_true_iff, bool_decide_eq_true.
      split.
      + intros [<- H]. split; [done|]. destruct Hx as (P&HP&Px), Hy as (P'&HP'&Py).
        rewrite list_lookup_fmap in HP, HP'.
        destruct (ts !! i) as [t|] eqn:Et; [|done]. cbn in HP, HP'. injection HP as <-. injection HP' as <-.
        destruct (Forall2_lookup_l _ _ _ _ _ Hfs Et) as (f&Ef&Hf). rewrite Ef in H.
        exists (same_value t). rewrite list_lookup_fmap, Et. split; [done|]. by apply Hf.
      + intros (<-&R&HR&H). split; [done|]. destruct Hx as (P&HP&Px), Hy as (P'&HP'&Py).
        rewrite list_lookup_fmap in HP, HP'. rewrite list_lookup_fmap in HR.
        destruct (ts !! i) as [t|] eqn:Et; [|done]. cbn in HP, HP', HR. injection HP as <-. injection HP' as <-. injection HR as <-.
        destruct (Forall2_lookup_l _ _ _ _ _ Hfs Et) as (f&Ef&Hf). rewrite Ef. by apply Hf.
    - destruct (IH Hd) as (f&Hf&Hff). cbn [op_of]. rewrite Hf. cbn. eexists; split; [done|].
      intros x y Hx Hy. destruct x, y; try done. by apply Hff.
    - cbn [op_of]. eexists; split; [done|]. intros x y Hx Hy. destruct x, y; try done. cbn. apply bool_decide_eq_true.
    - cbn [op_of]. eexists; split; [done|]. intros x y Hx Hy. destruct x, y; try done. cbn. apply bool_decide_eq_true.
  Qed.

  (** ** Single steps *)

  Lemma passes_guarded cs x y : passes (guarded cs) x y ↔ Forall (λ c, passes c x y) cs.
  Proof.
    unfold passes, guarded. cbn [fst]. induction cs as [|c cs IH]; cbn; [done|].
    rewrite app_nil, IH, Forall_cons. done.
  Qed.

  Lemma passes_compare f x y : passes (compare_op f) x y ↔ f x y = true.
  Proof. unfold passes, compare_op. by destruct (f x y). Qed.

  Lemma passes_ops T x y :
    has_type T x → has_type T y →
    Forall (λ c, passes c x y) (op_steps (deep E T) (op_of E T)) ↔ (deep E T = true → same_value T x y).
  Proof.
    intros Hx Hy. destruct (deep E T) eqn:Hd; cbn; [|by split].
    destruct (op_honest T Hd) as (f&->&Hf). rewrite Forall_singleton, passes_compare, Hf by done. naive_solver.
  Qed.

  Lemma passes_elems k i l r :
    length l = length r → (check_elems k i l r).1 = [] ↔ Forall2 (λ x y, passes k x y) l r.
  Proof.
    revert r i. induction l as [|x l IH]; intros [|y r] i; try done. intros [= H].
    cbn [check_elems]. unfold passes at 1. rewrite Forall2_cons. rewrite <- (IH r (S i) H).
    unfold passes. destruct (k x y) as [fs b], (check_elems k (S i) l r) as [fs' b']. cbn [fst].
    by rewrite app_nil, inside_nil.
  Qed.

  Lemma passes_range k s l s' r :
    passes (check_range k) (VSeq s l) (VSeq s' r) ↔ Forall2 (λ x y, passes k x y) l r.
  Proof.
    unfold passes at 1, check_range, check_lists. case_decide as H; [by apply passes_elems|].
    split; [done|]. intros F. by apply Forall2_length in F.
  Qed.

  Lemma passes_test_elements ks i l r :
    length l = length ks → length r = length ks →
    test_elements ks i l r = [] ↔ related (map passes ks) l r.
  Proof.
    revert l r i. induction ks as [|k ks IH]; intros [|x l] [|y r] i; try done.
    cbn [length]. intros [= Hl] [= Hr]. cbn [test_elements map related].
    rewrite app_nil, inside_nil, IH by done. done.
  Qed.

  Lemma has_type_length ts l :
    related (map (λ t x (_ : val), has_type t x) ts) l l → length l = length ts.
  Proof. revert l. induction ts as [|t ts IH]; intros [|x l]; try done. intros [_ H]. cbn. f_equal. by apply IH. Qed.

  Lemma related_impl ts ks l r :
    Forall2 (λ t k, ∀ x y, has_type t x → has_type t y → passes k x y ↔ same_value t x y) ts ks →
    related (map (λ t x (_ : val), has_type t x) ts) l l →
    related (map (λ t x (_ : val), has_type t x) ts) r r →
    related (map passes ks) l r ↔ related (map same_value ts) l r.
  Proof.
    intros H. revert l r. induction H as [|t k ts ks Hk _ IH]; intros l r Hl Hr; [done|].
    destruct l as [|x l], r as [|y r]; try done. destruct Hl as [Hx Hl], Hr as [Hy Hr].
    cbn [map related]. rewrite Hk by done. by rewrite IH.
  Qed.

  (** ** The whole *)

  Definition decides (T : ty) (k : checkfn) : Prop :=
    ∀ x y, has_type T x → has_type T y → passes k x y ↔ same_value T x y.

  Lemma equality_tests T tests elems t k :
    tests Equality = Some (Some t) → decides T t →
    equality_body (same_node E T tests elems) = Some k → decides T k.
  Proof.
    intros Ht Hd. unfold equality_body. cbn [n_tests same_node n_deep n_op]. rewrite Ht. intros [= <-] x y Hx Hy.
    rewrite passes_guarded, Forall_app, passes_ops, Forall_singleton, (Hd x y Hx Hy) by done. naive_solver.
  Qed.

  Lemma call_some v f k : call v f = Some k → (v f).1 = true ∧ (v f).2 = Some k.
  Proof. unfold call. by destruct (v f) as [[] c]. Qed.

  Lemma mapM_calls (P : ty → checkfn → Prop) f ts ks :
    mapM (λ t, call (same E t) f) ts = Some ks →
    Forall (λ t, ∀ k, call (same E t) f = Some k → P t k) ts → Forall2 P ts ks.
  Proof.
    intros Hm%mapM_Some HP. induction Hm as [|t k ts ks Hk _ IH]; [constructor|].
    inversion HP; subst. constructor; [by auto|by auto].
  Qed.

  Lemma smart_ptr_passes t x y :
    has_type (TSmart t) x → has_type (TSmart t) y →
    passes (guarded (op_steps true (op_of E (TPtr t)))) x y ↔ same_value (TSmart t) x y.
  Proof.
    intros Hx Hy. rewrite passes_guarded. cbn. rewrite Forall_singleton, passes_compare.
    destruct x, y; try done. cbn. apply bool_decide_eq_true.
  Qed.

  Lemma smart_equality t v k :
    call (dispatch (same_node E (TSmart t) (smart_tests E t v) no_tests)) Equality = Some k →
    decides (TSmart t) k.
  Proof.
    intros [_ H]%call_some. cbn [dispatch snd] in H.
    destruct (e_report E (TPtr t)) eqn:Er.
    - eapply (equality_tests (TSmart t)); [| |exact H].
      + cbn. by rewrite Er.
      + intros x y. apply smart_ptr_passes.
    - revert H. unfold equality_body. cbn [n_tests same_node smart_tests]. by rewrite Er.
  Qed.

  Lemma observed_all ts ks :
    mapM (λ t, call (same E t) Equality) ts = Some ks →
    Forall (λ t, ∀ k, observed st E t → call (same E t) Equality = Some k → decides t k) ts →
    Forall id (map (observed st E) ts) → Forall2 decides ts ks.
  Proof.
    intros Em IH Ho. apply (mapM_calls decides _ _ _ Em). rewrite Forall_map in Ho.
    rewrite Forall_forall in IH. rewrite Forall_forall in Ho. apply Forall_forall. intros t Ht k Hk.
    apply IH; [done|by apply Ho|done].
  Qed.

  Lemma equality_decides T k : observed st E T → call (same E T) Equality = Some k → decides T k.
  Proof.
    revert k. induction T as [c|c e IH|ts IH|ts IH|t IH|t _|t _|t _| |] using ty_induction; cbn [same]; intros k Ho Hk;
      try (by apply smart_equality in Hk); apply call_some in Hk as [Ha Hk]; cbn [dispatch fst snd] in Ha, Hk.
    - (* a class *)
      unfold equality_body in Hk. unfold accepts_equality in Ha.
      cbn [n_same n_deep n_report n_tests n_elems n_op same_node no_tests given] in *. unfold client_tests in *.
      destruct (e_test E Equality (TClass c) (TClass c)) as [t|] eqn:Et; cbn [given fmap option_fmap option_map] in *.
      + apply (inj Some) in Hk as <-. intros x y Hx Hy.
        rewrite passes_guarded, Forall_app, passes_ops, Forall_singleton by done.
        unfold passes, tester. cbn [fst]. rewrite (ho_test _ _ _ HE _ _ _ _ Et) by done. naive_solver.
      + apply (inj Some) in Hk as <-. intros x y Hx Hy. rewrite passes_guarded, passes_ops by done.
        repeat rewrite orb_false_r in Ha. rewrite andb_true_l in Ha. apply andb_true_iff in Ha as [Hd _]. naive_solver.
    - (* a range *)
      unfold equality_body in Hk. unfold accepts_equality in Ha.
      cbn [n_same n_deep n_report n_tests n_elems n_op same_node] in *. unfold client_tests in *.
      destruct (e_test E Equality (TRange c e) (TRange c e)) as [t|] eqn:Et; cbn [given fmap option_fmap option_map] in *.
      + apply (inj Some) in Hk as <-. intros x y Hx Hy.
        rewrite passes_guarded, Forall_app, passes_ops, Forall_singleton by done.
        unfold passes, tester. cbn [fst]. rewrite (ho_test _ _ _ HE _ _ _ _ Et) by done. naive_solver.
      + unfold elems_of in *. destruct (same E e Equality) as [a b] eqn:Es. cbn [fst snd] in *.
        destruct a; cbn [given] in *.
        * destruct b as [ke|]; [|done]. apply (inj Some) in Hk as <-. intros x y Hx Hy.
          rewrite passes_guarded, Forall_app, passes_ops, Forall_singleton by done.
          destruct x as [|s l| | | | | | | | |], y as [|s' l'| | | | | | | | |]; try done.
          rewrite passes_range.
          cbn [observed] in Ho. rewrite Et in Ho. destruct Ho as [[? ?]|[Hst' Hoe] ]; [done|].
          assert (decides e ke) as Hke by (apply IH; [done|unfold call; by rewrite Es]).
          assert (Forall2 (λ x y, passes ke x y) l l' ↔ Forall2 (same_value e) l l') as Hl.
          { cbn in Hx, Hy. revert l' Hy. clear Ha. induction l as [|u l IHl]; intros [|v l'] Hy.
            - split; intros _; constructor.
            - split; intros H; inversion H.
            - split; intros H; inversion H.
            - rewrite !Forall2_cons. rewrite (Hke u v); [|apply Hx; by left|apply Hy; by left].
              rewrite IHl; [done| |]; intros z Hz; [apply Hx|apply Hy]; by right. }
          rewrite Hl. split; [|by intros [? ?]].
          intros [H1 H2]. split; [|done]. intros Hst. apply H1; [|done]. by apply Hst'.
        * apply (inj Some) in Hk as <-. intros x y Hx Hy. rewrite passes_guarded, passes_ops by done.
          repeat rewrite orb_false_r in Ha. rewrite andb_true_l in Ha. apply andb_true_iff in Ha as [Hd _]. naive_solver.
    - (* tuples *)
      destruct (mapM (λ t, call (same E t) Equality) ts) as [ks|] eqn:Em.
      + eapply (equality_tests (TTuple ts)); [| |exact Hk].
        * cbn beta. by rewrite Em.
        * assert (Forall2 decides ts ks) as Hks by (by apply (observed_all ts ks)).
          intros x y Hx Hy. destruct x as [| |l| | | | | | | |], y as [| |l'| | | | | | | |]; try done.
          unfold passes, test_tuple, tester. cbn [fst].
          rewrite passes_test_elements.
          -- by apply related_impl.
          -- cbn in Hx. rewrite (has_type_length _ _ Hx). by apply Forall2_length in Hks.
          -- cbn in Hy. rewrite (has_type_length _ _ Hy). by apply Forall2_length in Hks.
      + revert Hk. unfold equality_body. cbn [n_tests same_node]. by rewrite Em.
    - (* variants *)
      destruct (mapM (λ t, call (same E t) Equality) ts) as [ks|] eqn:Em.
      + eapply (equality_tests (TVariant ts)); [| |exact Hk].
        * cbn beta. by rewrite Em.
        * assert (Forall2 decides ts ks) as Hks by (by apply (observed_all ts ks)).
          intros x y Hx Hy. destruct x as [| | |i v| | | | | | |], y as [| | |i' v'| | | | | | |]; try done.
          unfold passes, test_variant, tester. cbn [fst]. case_decide as Hi.
          -- subst i'. destruct Hx as (P&HP&Px), Hy as (P'&HP'&Py). rewrite list_lookup_fmap in HP, HP'.
             destruct (ts !! i) as [t|] eqn:Et; [|done]. cbn in HP, HP'. injection HP as <-. injection HP' as <-.
             destruct (Forall2_lookup_l _ _ _ _ _ Hks Et) as (kk&Ek&Hkk).
             assert (∀ B (g : checkfn → B) d, match ks !! i with Some k0 => g k0 | None => d end = g kk) as Hm.
             { intros B g d. by etransitivity; [apply (f_equal (λ o, match o with Some k0 => g k0 | None => d end) Ek)|]. }
             rewrite (Hm _ (λ k0, inside SAlt (k0 v v').1)).
             rewrite inside_nil. cbn [Spec.same_value]. rewrite list_lookup_fmap, Et. cbn.
             specialize (Hkk v v' Px Py). unfold passes in Hkk. rewrite Hkk. naive_solver.
          -- split; [done|]. by intros [? _].
      + revert Hk. unfold equality_body. cbn [n_tests same_node]. by rewrite Em.
    - (* optionals *)
      destruct (call (same E t) Equality) as [kt|] eqn:Et.
      + eapply (equality_tests (TOptional t)); [| |exact Hk].
        * cbn beta. by rewrite Et.
        * intros x y Hx Hy. unfold passes, test_optional, tester. cbn [fst]. destruct x, y; try done.
          rewrite inside_nil. by apply IH.
      + revert Hk. unfold equality_body. cbn [n_tests same_node]. by rewrite Et.
    - (* pointers *)
      unfold equality_body in Hk. cbn in Hk. apply (inj Some) in Hk as <-. intros x y Hx Hy.
      rewrite passes_guarded, Forall_singleton, passes_compare. destruct x, y; try done. cbn. apply bool_decide_eq_true.
    - (* weak pointers *)
      destruct (call (dispatch (same_node E (TSmart t) (smart_tests E t (same E t)) no_tests)) Equality) as [kt|] eqn:Et.
      + eapply (equality_tests (TWeak t)); [| |exact Hk].
        * done.
        * apply smart_equality in Et. intros x y Hx Hy. specialize (Et x y Hx Hy). rewrite Et. by destruct x, y.
      + done.
    - done.
    - done.
  Qed.

  Lemma check_equality T k x y :
    observed st E T → check E Equality T T = Some k → has_type T x → has_type T y → passes k x y ↔ same_value T x y.
  Proof.
    unfold check. destruct T; cbn [mixed]; (rewrite decide_True by done); intros Ho Hk Hx Hy;
      by apply (equality_decides _ _ Ho Hk).
  Qed.

  (** ** Places *)

  Context (Hplaces : ∀ T t x y p w, e_test E Equality T T = Some t → has_type T x → has_type T y →
             (p, w) ∈ t x y → differ_at st T x y p).

  Definition located (T : ty) (k : checkfn) : Prop :=
    ∀ x y p w, has_type T x → has_type T y → (p, w) ∈ (k x y).1 → differ_at st T x y p.

  Lemma differ_here T x y : ¬ same_value T x y → differ_at st T x y [].
  Proof. intros H. by exists T, x, y. Qed.

  Lemma located_ops T :
    Forall (located T) (op_steps (deep E T) (op_of E T)).
  Proof.
    destruct (deep E T) eqn:Hd; cbn; [|done]. destruct (op_honest T Hd) as (f&->&Hf).
    apply Forall_singleton. intros x y p w Hx Hy. unfold compare_op.
    destruct (f x y) eqn:Ef; cbn; [by intros ?%elem_of_nil|]. intros [= -> ->]%elem_of_list_singleton.
    apply differ_here. rewrite <- Hf by done. by rewrite Ef.
  Qed.

  Lemma located_guarded T cs : Forall (located T) cs → located T (guarded cs).
  Proof.
    intros H x y p w Hx Hy. unfold guarded. cbn [fst]. induction H as [|c cs Hc _ IH]; cbn; [by intros ?%elem_of_nil|].
    intros [Hin|Hin]%elem_of_app; [by eapply Hc|by apply IH].
  Qed.

  Lemma inside_elem s fs p w : (p, w) ∈ inside s fs → ∃ p', p = s :: p' ∧ (p', w) ∈ fs.
  Proof.
    unfold inside. intros ([p' w']&[= -> ->]&Hin)%elem_of_list_fmap. by exists p'.
  Qed.

  Lemma check_elems_places k i l r p w :
    (p, w) ∈ (check_elems k i l r).1 →
    ∃ j x y p', p = SElem (i + j) :: p' ∧ l !! j = Some x ∧ r !! j = Some y ∧ (p', w) ∈ (k x y).1.
  Proof.
    revert r i. induction l as [|x l IH]; intros [|y r] i; cbn [check_elems fst]; try (by intros ?%elem_of_nil).
    destruct (k x y) as [fs b] eqn:Ek. destruct (check_elems k (S i) l r) as [fs' b'] eqn:Ec. cbn [fst].
    intros [Hin|Hin]%elem_of_app.
    - apply inside_elem in Hin as (p'&->&Hin). exists 0, x, y, p'. rewrite Nat.add_0_r. rewrite Ek. done.
    - specialize (IH r (S i)). rewrite Ec in IH. destruct (IH Hin) as (j&x'&y'&p'&->&?&?&?).
      exists (S j), x', y', p'. rewrite Nat.add_succ_r. done.
  Qed.

  Lemma located_range c e k : located e k → located (TRange c e) (check_range k).
  Proof.
    intros Hk x y p w Hx Hy. unfold check_range.
    destruct x as [|s l| | | | | | | | |], y as [|s' l'| | | | | | | | |]; try done. unfold check_lists.
    case_decide as Hlen.
    - intros (j&x&y&p'&->&Hl&Hr&Hin)%check_elems_places. cbn [Nat.add].
      assert (differ_at st e x y p') as (T'&x'&y'&H1&H2&H3).
      { eapply Hk; [| |done]; [apply Hx|apply Hy]; by eapply elem_of_list_lookup_2. }
      exists T', x', y'. cbn [part]. rewrite Hl, Hr. done.
    - cbn. intros [= -> ->]%elem_of_list_singleton. apply differ_here. intros [_ F]. by apply Forall2_length in F.
  Qed.

  Lemma test_elements_places ks i l r p w :
    (p, w) ∈ test_elements ks i l r →
    ∃ j k x y p', p = STup (i + j) :: p' ∧ ks !! j = Some k ∧ l !! j = Some x ∧ r !! j = Some y ∧ (p', w) ∈ (k x y).1.
  Proof.
    revert l r i. induction ks as [|k ks IH]; intros [|x l] [|y r] i; cbn [test_elements]; try (by intros ?%elem_of_nil).
    intros [Hin|Hin]%elem_of_app.
    - apply inside_elem in Hin as (p'&->&Hin). exists 0, k, x, y, p'. rewrite Nat.add_0_r. done.
    - destruct (IH _ _ _ Hin) as (j&k'&x'&y'&p'&->&?&?&?&?). exists (S j), k', x', y', p'. rewrite Nat.add_succ_r. done.
  Qed.

  Lemma has_type_lookup ts l j t x :
    related (map (λ t x (_ : val), has_type t x) ts) l l → ts !! j = Some t → l !! j = Some x → has_type t x.
  Proof.
    revert l j. induction ts as [|t' ts IH]; intros [|x' l] [|j]; try done.
    - by intros [? _] [= <-] [= <-].
    - intros [_ H]. intros H1 H2. by apply (IH l j).
  Qed.

  Lemma equality_tests_located T tests elems t k :
    tests Equality = Some (Some t) → located T t →
    equality_body (same_node E T tests elems) = Some k → located T k.
  Proof.
    intros Ht Hd. unfold equality_body. cbn [n_tests same_node n_deep n_op]. rewrite Ht. intros [= <-].
    apply located_guarded, Forall_app. split; [apply located_ops|by apply Forall_singleton].
  Qed.

  Lemma located_decides T f : decides T (guarded [compare_op f]) → located T (guarded [compare_op f]).
  Proof.
    intros H x y p w Hx Hy Hin. specialize (H x y Hx Hy). unfold passes in H.
    unfold guarded, compare_op in *. cbn [map concat fst] in *. destruct (f x y); cbn [fst app] in *.
    - by apply elem_of_nil in Hin.
    - apply elem_of_list_singleton in Hin as [= -> ->]. apply differ_here. naive_solver.
  Qed.

  Lemma smart_located t v k :
    call (dispatch (same_node E (TSmart t) (smart_tests E t v) no_tests)) Equality = Some k →
    located (TSmart t) k.
  Proof.
    intros [_ H]%call_some. cbn [dispatch snd] in H.
    destruct (e_report E (TPtr t)) eqn:Er.
    - eapply (equality_tests_located (TSmart t)); [| |exact H].
      + cbn. by rewrite Er.
      + apply located_decides. intros x y. apply smart_ptr_passes.
    - revert H. unfold equality_body. cbn [n_tests same_node smart_tests]. by rewrite Er.
  Qed.

  Lemma equality_located T k : call (same E T) Equality = Some k → located T k.
  Proof.
    revert k. induction T as [c|c e IH|ts IH|ts IH|t IH|t _|t _|t _| |] using ty_induction; cbn [same]; intros k Hk;
      try (by apply smart_located in Hk); apply call_some in Hk as [Ha Hk]; cbn [dispatch fst snd] in Ha, Hk.
    - unfold equality_body in Hk. cbn [n_tests n_elems n_deep n_op same_node no_tests] in Hk. unfold client_tests in Hk.
      destruct (e_test E Equality (TClass c) (TClass c)) as [t|] eqn:Et; cbn [fmap option_fmap option_map] in Hk;
        apply (inj Some) in Hk as <-; apply located_guarded.
      + apply Forall_app. split; [apply located_ops|]. apply Forall_singleton.
        intros x y p w Hx Hy. by apply (Hplaces _ _ _ _ _ _ Et).
      + apply located_ops.
    - unfold equality_body in Hk. cbn [n_tests n_elems n_deep n_op same_node] in Hk. unfold client_tests in Hk.
      destruct (e_test E Equality (TRange c e) (TRange c e)) as [t|] eqn:Et; cbn [fmap option_fmap option_map] in Hk.
      + apply (inj Some) in Hk as <-. apply located_guarded, Forall_app. split; [apply located_ops|].
        apply Forall_singleton. intros x y p w Hx Hy. by apply (Hplaces _ _ _ _ _ _ Et).
      + unfold elems_of in *. destruct (same E e Equality) as [a b] eqn:Es. cbn [fst snd] in *. destruct a.
        * destruct b as [ke|]; [|done]. apply (inj Some) in Hk as <-.
          apply located_guarded, Forall_app. split; [apply located_ops|]. apply Forall_singleton, located_range, IH.
          unfold call. by rewrite Es.
        * apply (inj Some) in Hk as <-. apply located_guarded, located_ops.
    - destruct (mapM (λ t, call (same E t) Equality) ts) as [ks|] eqn:Em.
      + eapply (equality_tests_located (TTuple ts)); [| |exact Hk].
        * cbn beta. by rewrite Em.
        * pose proof (mapM_calls located _ _ _ Em IH) as Hks.
          intros x y p w Hx Hy. destruct x as [| |l| | | | | | | |], y as [| |l'| | | | | | | |]; try done.
          unfold test_tuple, tester. cbn [fst]. intros (j&kj&x&y&p'&->&Hj&Hl&Hr&Hin)%test_elements_places. cbn [Nat.add].
          destruct (Forall2_lookup_r _ _ _ _ _ Hks Hj) as (t&Ht&Hkj).
          assert (differ_at st t x y p') as (T'&x'&y'&H1&H2&H3).
          { apply (Hkj x y p' w); [by apply (has_type_lookup ts l j)|by apply (has_type_lookup ts l' j)|done]. }
          exists T', x', y'. cbn [part]. rewrite Ht. cbn. rewrite Hl, Hr. done.
      + revert Hk. unfold equality_body. cbn [n_tests same_node]. by rewrite Em.
    - destruct (mapM (λ t, call (same E t) Equality) ts) as [ks|] eqn:Em.
      + eapply (equality_tests_located (TVariant ts)); [| |exact Hk].
        * cbn beta. by rewrite Em.
        * pose proof (mapM_calls located _ _ _ Em IH) as Hks.
          intros x y p w Hx Hy. destruct x as [| | |i v| | | | | | |], y as [| | |i' v'| | | | | | |]; try done.
          unfold test_variant, tester. cbn [fst]. case_decide as Hi.
          -- subst i'. destruct Hx as (P&HP&Px), Hy as (P'&HP'&Py). rewrite list_lookup_fmap in HP, HP'.
             destruct (ts !! i) as [t|] eqn:Et; [|done]. cbn in HP, HP'. injection HP as <-. injection HP' as <-.
             destruct (ks !! i) as [kk|] eqn:Ek; [|by intros ?%elem_of_nil].
             intros (p'&->&Hin)%inside_elem.
             destruct (Forall2_lookup_lr _ _ _ _ _ _ Hks Et Ek v v' p' w Px Py Hin) as (T'&x'&y'&H1&H2&H3).
             exists T', x', y'. cbn [part]. rewrite Et. done.
          -- intros [= -> ->]%elem_of_list_singleton. apply differ_here. by intros [? _].
      + revert Hk. unfold equality_body. cbn [n_tests same_node]. by rewrite Em.
    - destruct (call (same E t) Equality) as [kt|] eqn:Et.
      + eapply (equality_tests_located (TOptional t)); [| |exact Hk].
        * cbn beta. by rewrite Et.
        * intros x y p w Hx Hy. unfold test_optional, tester. cbn [fst].
          destruct x, y; try done; try (by intros ?%elem_of_nil);
            try (intros [= -> ->]%elem_of_list_singleton; apply differ_here; cbn; tauto).
          intros (p'&->&Hin)%inside_elem. destruct (IH _ eq_refl _ _ _ _ Hx Hy Hin) as (T'&x'&y'&H1&H2&H3).
          by exists T', x', y'.
      + revert Hk. unfold equality_body. cbn [n_tests same_node]. by rewrite Et.
    - unfold equality_body in Hk. cbn in Hk. apply (inj Some) in Hk as <-. apply located_decides. intros x y Hx Hy.
      rewrite passes_guarded, Forall_singleton, passes_compare. destruct x, y; try done. cbn. apply bool_decide_eq_true.
    - destruct (call (dispatch (same_node E (TSmart t) (smart_tests E t (same E t)) no_tests)) Equality) as [kt|] eqn:Et.
      + eapply (equality_tests_located (TWeak t)); [| |exact Hk].
        * done.
        * pose proof (smart_located _ _ _ Et) as Hl. apply smart_equality in Et.
          intros x y p w Hx Hy Hin. destruct (Hl x y p w Hx Hy Hin) as (T'&x'&y'&H1&H2&H3).
          destruct p as [|s p].
          -- apply differ_here. injection H1 as <- <-. injection H2 as <-. intros Hs. apply H3. by destruct x, y.
          -- exists T', x', y'. destruct s; try done; by destruct x, y.
      + done.
    - done.
    - done.
  Qed.

  Lemma check_equality_located T k x y p w :
    check E Equality T T = Some k → has_type T x → has_type T y → (p, w) ∈ (k x y).1 → differ_at st T x y p.
  Proof.
    unfold check. destruct T; cbn [mixed]; (rewrite decide_True by done); intros Hk Hx Hy;
      by apply (equality_located _ _ Hk).
  Qed.
End equality.
