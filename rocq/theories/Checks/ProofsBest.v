(** The other tags: equal values pass; the best check. *)
From stdpp Require Import list.
From Verif.Base Require Import Outcome Order ListLemmas.
From Verif.Checks Require Import Model Spec Proofs ProofsEquality.

Section best.
  Context (st : nat → bool) (heap : nat → val) (E : env) (HE : honest st heap E).
  Notation has_type := (has_type heap).
  Notation same_value := (same_value st).

  Lemma same_refl T x : has_type T x → same_value T x x.
  Proof.
    revert x. induction T as [c|c e IH|ts IH|ts IH|t IH|t _|t _|t _| |] using ty_induction; intros x Hx;
      destruct x as [n|s l|l|i v| |v| |a v|b| |t' v]; try done.
    - split; [done|]. cbn in Hx. induction l as [|x l IHl]; constructor.
      + apply IH, Hx. by left.
      + apply IHl. intros z Hz. apply Hx. by right.
    - cbn in *. revert l Hx. induction IH as [|t ts Ht _ IHts]; intros [|x l]; try done.
      intros [Hx Hl]. split; [by apply Ht|by apply IHts].
    - cbn in *. split; [done|]. destruct Hx as (P&HP&Px). rewrite list_lookup_fmap in HP.
      destruct (ts !! i) as [t|] eqn:Et; [|done]. injection HP as <-. exists (same_value t).
      rewrite list_lookup_fmap, Et. split; [done|]. eapply Forall_lookup_1 in IH; [|exact Et]. by apply IH.
    - by apply IH.
  Qed.

  (** ** Equal values pass *)

  Context (HL : lenient st heap E).

  Definition lets_pass (T : ty) (k : checkfn) : Prop :=
    ∀ x y, has_type T x → has_type T y → same_value T x y → passes k x y.

  Definition mild (T : ty) (f : flavour) : Prop := f = Simple ∨ f = Best true → deep E T = true.

  Definition tests_mild (T : ty) (tests : flavour → option (option checkfn)) : Prop :=
    ∀ f t, f ≠ Simple → f ≠ Best true → tests f = Some (Some t) → lets_pass T t.

  Definition elems_mild (T : ty) (elems : flavour → option (option checkfn)) : Prop :=
    ∀ f t, mild T f → elems f = Some (Some t) → lets_pass T t.

  Lemma lets_pass_guarded T cs : Forall (lets_pass T) cs → lets_pass T (guarded cs).
  Proof.
    intros H x y Hx Hy Hs. rewrite passes_guarded. eapply Forall_impl; [exact H|]. intros c Hc. by apply Hc.
  Qed.

  Lemma lets_pass_ops T b : (b = true → deep E T = true) → Forall (lets_pass T) (op_steps b (op_of E T)).
  Proof.
    intros Hb. destruct b; cbn; [|done]. destruct (op_honest st heap E HE T (Hb eq_refl)) as (f&->&Hf).
    apply Forall_singleton. intros x y Hx Hy Hs. rewrite passes_compare. by apply Hf.
  Qed.

  Lemma equality_body_mild T tests elems k :
    tests_mild T tests → elems_mild T elems →
    equality_body (same_node E T tests elems) = Some k → lets_pass T k.
  Proof.
    intros Ht He. unfold equality_body. cbn [n_tests n_elems n_deep n_op same_node].
    destruct (tests Equality) as [[t|]|] eqn:Et; [intros Hk|done|].
    - apply (inj Some) in Hk as <-. apply lets_pass_guarded, Forall_app. split; [by apply lets_pass_ops|].
      apply Forall_singleton. by apply (Ht Equality).
    - destruct (elems Equality) as [[r|]|] eqn:Er; [intros Hk|done|intros Hk]; apply (inj Some) in Hk as <-;
        apply lets_pass_guarded; [|by apply lets_pass_ops].
      apply Forall_app. split; [by apply lets_pass_ops|]. apply Forall_singleton. apply (He Equality); [|done]. by intros [?|?].
  Qed.

  Lemma simple_body_mild T tests elems k :
    deep E T = true → elems_mild T elems →
    simple_body (same_node E T tests elems) = Some k → lets_pass T k.
  Proof.
    intros Hd He. unfold simple_body. cbn [n_shallow n_elems n_deep n_op same_node].
    destruct (shallow E T); [|done]. destruct (op_of E T) as [f|] eqn:Eo; [|done].
    assert (lets_pass T (compare_op f)) as Hf.
    { pose proof (lets_pass_ops T true (λ _, Hd)) as H. rewrite Eo in H. cbn [op_steps] in H. inversion H; subst. assumption. }
    destruct (elems Simple) as [[r|]|] eqn:Er; [intros Hk|done|intros Hk]; apply (inj Some) in Hk as <-; apply lets_pass_guarded.
    - apply Forall_cons. split; [done|]. apply Forall_singleton. apply (He Simple); [by intros _|done].
    - by apply Forall_singleton.
  Qed.

  Lemma equivalence_body_mild T tests elems k :
    tests_mild T tests → elems_mild T elems →
    equivalence_body (same_node E T tests elems) = Some k → lets_pass T k.
  Proof.
    intros Ht He. unfold equivalence_body. cbn [n_tests n_elems same_node].
    destruct (tests Equivalence) as [[t|]|] eqn:Et; [intros Hk|done|].
    - apply (inj Some) in Hk as <-. apply lets_pass_guarded, Forall_singleton. by apply (Ht Equivalence).
    - destruct (elems Equivalence) as [[r|]|] eqn:Er; [intros Hk|done|].
      + apply (inj Some) in Hk as <-. apply (He Equivalence); [|done]. by intros [?|?].
      + by apply equality_body_mild.
  Qed.

  Lemma weak_body_mild T tests elems k :
    tests_mild T tests → elems_mild T elems →
    weak_body (same_node E T tests elems) = Some k → lets_pass T k.
  Proof.
    intros Ht He. unfold weak_body. cbn [n_tests n_elems same_node].
    destruct (tests Weak) as [[t|]|] eqn:Et; [intros Hk|done|].
    - apply (inj Some) in Hk as <-. apply lets_pass_guarded, Forall_singleton. by apply (Ht Weak).
    - destruct (elems Weak) as [[r|]|] eqn:Er; [intros Hk|done|].
      + apply (inj Some) in Hk as <-. apply (He Weak); [|done]. by intros [?|?].
      + by apply equivalence_body_mild.
  Qed.

  Lemma best_branch_simple m n : best_branch m n = Some BSimple → n_deep n = true.
  Proof.
    unfold best_branch. intros H. repeat case_match; try done.
    match goal with H : n_same n && n_deep n && n_report n = true |- _ => apply andb_true_iff in H as [H _]; by apply andb_true_iff in H as [_ H] end.
  Qed.

  Lemma best_branch_minimal m n : best_branch m n = Some BMinimal → m = true.
  Proof.
    unfold best_branch. intros H. repeat case_match; try done.
    match goal with H : m && given (n_cross n) = true |- _ => by apply andb_true_iff in H as [H _] end.
  Qed.

  Lemma best_body_mild m T tests elems k :
    tests_mild T tests → elems_mild T elems → mild T (Best m) →
    best_body m (same_node E T tests elems) = Some k → lets_pass T k.
  Proof.
    intros Ht He Hm. unfold best_body. destruct (best_branch m (same_node E T tests elems)) as [[]|] eqn:Eb;
      [| | | | | | |done]; cbn [n_tests n_elems n_same n_deep n_op n_cross same_node].
    - destruct (tests (Best false)) as [[t|]|] eqn:Et; cbn [body]; [intros Hk|done|done].
      apply (inj Some) in Hk as <-. apply lets_pass_guarded, Forall_app. split; [by apply lets_pass_ops|].
      apply Forall_singleton. by apply (Ht (Best false)).
    - by apply equality_body_mild.
    - by apply equivalence_body_mild.
    - by apply weak_body_mild.
    - destruct (elems (Best false)) as [[t|]|] eqn:Et; cbn [body]; [intros Hk|done|done].
      apply (inj Some) in Hk as <-. apply (He (Best false)); [|done]. by intros [?|?].
    - apply best_branch_simple in Eb. by apply simple_body_mild.
    - apply best_branch_minimal in Eb as ->. assert (deep E T = true) as Hd by (apply Hm; by right).
      destruct (shallow E T); cbn [body]; [|done]. intros Hk.
      pose proof (lets_pass_ops T true (λ _, Hd)) as H.
      destruct (op_of E T); [|done]. apply (inj Some) in Hk as <-. by apply lets_pass_guarded.
  Qed.

  Lemma dispatch_mild T tests elems f k :
    tests_mild T tests → elems_mild T elems → mild T f →
    call (dispatch (same_node E T tests elems)) f = Some k → lets_pass T k.
  Proof.
    intros Ht He Hm [_ Hk]%call_some. destruct f as [| | | |m]; cbn [dispatch snd] in Hk.
    - by eapply equality_body_mild.
    - eapply simple_body_mild; [|done|done]. apply Hm. by left.
    - by eapply equivalence_body_mild.
    - by eapply weak_body_mild.
    - by eapply best_body_mild.
  Qed.

  Lemma no_elems_mild T : elems_mild T no_tests.
  Proof. by intros f t _. Qed.

  Lemma client_mild T : tests_mild T (client_tests E T T).
  Proof.
    intros f t _ _. unfold client_tests. destruct (e_test E f T T) as [u|] eqn:Eu; [|done]. cbn. intros H. injection H as <-.
    intros x y Hx Hy Hs. unfold passes, tester. cbn [fst]. by apply (HL f T).
  Qed.

  Lemma deep_range c e : deep E (TRange c e) = true → deep E e = true.
  Proof.
    cbn [deep]. intros [Hs Hd]%andb_true_iff. cbn [shallow] in Hs. apply bool_decide_eq_true in Hs.
    destruct (e_values E c) eqn:Ev; [done|]. apply negb_true_iff in Hd.
    rewrite (ho_values _ _ _ HE) in Ev by done. done.
  Qed.

  Lemma range_mild c e :
    (∀ f k, mild e f → call (same E e) f = Some k → lets_pass e k) →
    elems_mild (TRange c e) (elems_of (same E e)).
  Proof.
    intros IH f t Hm. unfold elems_of. destruct (same E e f) as [a b] eqn:Es. cbn [fst snd].
    destruct a; [|done]. destruct b as [ke|]; cbn; [|done]. intros [= <-].
    assert (lets_pass e ke) as Hke.
    { apply (IH f); [|unfold call; by rewrite Es]. intros Hf. by apply (deep_range c), Hm. }
    intros x y Hx Hy Hs. destruct x as [|s l| | | | | | | | |], y as [|s' l'| | | | | | | | |]; try done.
    rewrite passes_range. cbn in Hx, Hy. destruct Hs as [_ Hs].
    induction Hs as [|u v l l' Huv _ IHl]; constructor.
    - apply Hke; [apply Hx|apply Hy|done]; by left.
    - apply IHl; intros z Hz; [apply Hx|apply Hy]; by right.
  Qed.

  Lemma tuple_mild f ts ks :
    mapM (λ t, call (same E t) f) ts = Some ks →
    Forall (λ t, ∀ k, call (same E t) f = Some k → lets_pass t k) ts → lets_pass (TTuple ts) (test_tuple ks).
  Proof.
    intros Em IH. pose proof (mapM_calls E lets_pass _ _ _ Em IH) as Hks. clear Em IH.
    intros x y Hx Hy Hs. destruct x as [| |l| | | | | | | |], y as [| |l'| | | | | | | |]; try done.
    unfold passes, test_tuple, tester. cbn [fst]. cbn in Hx, Hy, Hs.
    rewrite passes_test_elements.
    - revert l l' Hx Hy Hs. induction Hks as [|t k ts ks Hk _ IH]; intros [|u l] [|v l'] Hx Hy Hs; try done.
      destruct Hx as [Hu Hx], Hy as [Hv Hy], Hs as [Huv Hs]. split; [by apply Hk|by apply IH].
    - rewrite (has_type_length _ _ _ Hx). by apply Forall2_length in Hks.
    - rewrite (has_type_length _ _ _ Hy). by apply Forall2_length in Hks.
  Qed.

  Lemma variant_mild f ts ks :
    mapM (λ t, call (same E t) f) ts = Some ks →
    Forall (λ t, ∀ k, call (same E t) f = Some k → lets_pass t k) ts → lets_pass (TVariant ts) (test_variant ks).
  Proof.
    intros Em IH. pose proof (mapM_calls E lets_pass _ _ _ Em IH) as Hks. clear Em IH.
    intros x y Hx Hy Hs. destruct x as [| | |i v| | | | | | |], y as [| | |i' v'| | | | | | |]; try done.
    destruct Hs as (<-&R&HR&Hs). unfold passes, test_variant, tester. cbn [fst]. rewrite decide_True by done.
    destruct Hx as (P&HP&Px), Hy as (P'&HP'&Py). rewrite list_lookup_fmap in HP, HP'. rewrite list_lookup_fmap in HR.
    destruct (ts !! i) as [t|] eqn:Et; [|done]. cbn in HP, HP', HR. injection HP as <-. injection HP' as <-. injection HR as <-.
    destruct (ks !! i) as [kk|] eqn:Ek; [|done]. apply inside_nil.
    by apply (Forall2_lookup_lr _ _ _ _ _ _ Hks Et Ek v v').
  Qed.

  Lemma pointees_mild (T t : ty) k :
    (T = TPtr t ∨ T = TSmart t ∨ T = TWeak t) → lets_pass t k → lets_pass T (test_pointees k).
  Proof.
    intros HT Hk x y Hx Hy Hs. unfold passes, test_pointees, tester. cbn [fst].
    assert (has_type (TPtr t) x ∧ has_type (TPtr t) y ∧ same_value (TPtr t) x y) as (Hx'&Hy'&Hs').
    { by destruct HT as [-> | [-> | ->] ]. }
    clear HT Hx Hy Hs. destruct x as [| | | | | | |a v| | |], y as [| | | | | | |a' v'| | |]; try done.
    destruct Hx' as [-> Hx], Hy' as [-> Hy]. cbn in Hs'. subst a'. apply inside_nil. apply Hk; [done|done|]. by apply same_refl.
  Qed.

  Lemma smart_tests_mild t :
    (∀ f k, mild t f → call (same E t) f = Some k → lets_pass t k) →
    tests_mild (TSmart t) (smart_tests E t (same E t)).
  Proof.
    intros IH f k Hf1 Hf2. destruct f; cbn [smart_tests]; try done.
    - destruct (e_report E (TPtr t)); [|done]. intros H. apply (inj Some), (inj Some) in H as <-.
      intros x y Hx Hy Hs. by apply (smart_ptr_passes st heap E t).
    - destruct (call (same E t) (Best false)) as [kt|] eqn:Et; cbn; [|done]. intros [= <-].
      apply (pointees_mild _ t); [by right; left|]. apply (IH (Best false)); [by intros [?|?]|done].
  Qed.

  Lemma same_mild T f k : mild T f → call (same E T) f = Some k → lets_pass T k.
  Proof.
    revert f k. induction T as [c|c e IH|ts IH|ts IH|t IH|t IH|t IH|t IH| |] using ty_induction; cbn [same]; intros f k Hm;
      apply dispatch_mild; try apply no_elems_mild; try exact Hm.
    - apply client_mild.
    - apply client_mild.
    - by apply range_mild.
    - intros g t Hg1 Hg2. destruct (mapM (λ t, call (same E t) g) ts) as [ks|] eqn:Em; cbn; [|done]. intros [= <-].
      eapply tuple_mild; [exact Em|]. eapply Forall_impl; [exact IH|]. intros u Hu k'. apply Hu. by intros [?|?].
    - intros g t Hg1 Hg2. destruct (mapM (λ t, call (same E t) g) ts) as [ks|] eqn:Em; cbn; [|done]. intros [= <-].
      eapply variant_mild; [exact Em|]. eapply Forall_impl; [exact IH|]. intros u Hu k'. apply Hu. by intros [?|?].
    - intros g u Hg1 Hg2. destruct (call (same E t) g) as [kt|] eqn:Et; cbn; [|done]. intros [= <-].
      intros x y Hx Hy Hs. unfold passes, test_optional, tester. cbn [fst]. destruct x, y; try done.
      apply inside_nil. apply (IH g kt); try done. by intros [?|?].
    - intros g u Hg1 Hg2. destruct g; try done. destruct (call (same E t) (Best false)) as [kt|] eqn:Et; cbn; [|done].
      intros [= <-]. apply (pointees_mild _ t); [by left|]. apply (IH (Best false)); [by intros [?|?]|done].
    - by apply smart_tests_mild.
    - intros g u Hg1 Hg2. destruct g; try done; intros [= Hc];
        (apply dispatch_mild in Hc; [|by apply smart_tests_mild|apply no_elems_mild|by intros [?|?] ]);
        intros x y Hx Hy Hs; apply Hc; try done; by destruct x, y.
    - intros g u Hg1 Hg2. destruct g; try done. intros [= <-]. intros x y Hx Hy Hs. unfold passes, test_function, tester. cbn [fst].
      destruct x, y; try done. cbn in Hs. subst. by rewrite eqb_reflx.
    - done.
  Qed.

  Lemma call_accepted v f k : (v f).1 = true → (v f).2 = Some k → call v f = Some k.
  Proof. unfold call. by intros ->. Qed.

  (** ** The best check of an ordinary type is one for equality *)

  Notation decides := (decides st heap).

  Lemma best_tests T tests elems t k :
    tests (Best false) = Some (Some t) → decides T t →
    best_body false (same_node E T tests elems) = Some k → decides T k.
  Proof.
    intros Ht Hd. unfold best_body, best_branch. cbn [n_tests n_same n_deep n_op same_node]. rewrite Ht. cbn [given body].
    intros Hk. apply (inj Some) in Hk as <-. intros x y Hx Hy. cbn [andb].
    rewrite passes_guarded, Forall_app, (passes_ops st heap E HE), Forall_singleton, (Hd x y Hx Hy) by done. naive_solver.
  Qed.

  Lemma simple_decides T tests elems k :
    deep E T = true → elems_mild T elems → simple_body (same_node E T tests elems) = Some k → decides T k.
  Proof.
    intros Hd He Hk x y Hx Hy. split; [|intros Hs; by eapply simple_body_mild].
    revert Hk. unfold simple_body. cbn [n_shallow n_elems n_deep n_op same_node].
    destruct (shallow E T); [|done]. destruct (op_honest st heap E HE T Hd) as (f&->&Hf).
    destruct (elems Simple) as [[r|]|]; [intros Hk|done|intros Hk]; apply (inj Some) in Hk as <-.
    - rewrite passes_guarded, Forall_cons, passes_compare, Hf by done. by intros [? _].
    - rewrite passes_guarded, Forall_singleton, passes_compare, Hf by done. done.
  Qed.

  Lemma smart_best t k :
    best_body false (same_node E (TSmart t) (smart_tests E t (same E t)) no_tests) = Some k → decides (TSmart t) k.
  Proof.
    intros Hk. apply (smart_equality st heap E HE t (same E t)). unfold call. cbn [dispatch fst snd].
    unfold accepts_equality. cbn [n_tests n_same same_node smart_tests given andb].
    rewrite orb_true_r. cbn [orb]. exact Hk.
  Qed.

  Lemma best_decides T k : ordinary st E T → call (same E T) (Best false) = Some k → decides T k.
  Proof.
    revert k. induction T as [c|c e IH|ts IH|ts IH|t IH|t _|t _|t _| |] using ty_induction; intros k Ho Hk; try done.
    - (* a class *)
      pose proof Hk as Hk0. cbn [same] in Hk. apply call_some in Hk as [Ha Hk]. cbn [dispatch fst snd] in Ha, Hk.
      cbn [ordinary] in Ho.
      assert (∀ f, f ≠ Equality → e_test E f (TClass c) (TClass c) = None) as Hn.
      { intros f Hf. destruct (e_test E f (TClass c) (TClass c)) as [t|] eqn:Et; [|done]. destruct Hf. apply Ho. by eexists. }
      unfold best_body in Hk. destruct (best_branch false _) as [b|] eqn:Eb; [|done].
      unfold best_branch in Eb. cbn [n_tests n_same n_elems n_deep n_report same_node] in Eb. unfold client_tests in Eb.
      rewrite !(Hn (Best false)) in Eb by done. cbn [given fmap option_fmap option_map andb] in Eb.
      destruct (e_test E Equality (TClass c) (TClass c)) as [t|] eqn:Et; cbn [given fmap option_fmap option_map] in Eb.
      + injection Eb as <-. apply (equality_decides st heap E HE); [done|]. cbn [same]. apply call_accepted; [|exact Hk].
        cbn [dispatch fst]. unfold accepts_equality, client_tests. cbn [n_tests n_same same_node]. rewrite Et.
        cbn [given fmap option_fmap option_map andb]. by rewrite orb_true_r.
      + rewrite (Hn Equivalence) in Eb by done. rewrite (Hn Weak) in Eb by done. cbn [given fmap option_fmap option_map no_tests] in Eb.
        destruct (deep E (TClass c) && e_report E (TClass c)) eqn:Ed; [|done]. injection Eb as <-.
        apply andb_true_iff in Ed as [Hd _]. eapply simple_decides; [done|apply no_elems_mild|exact Hk].
    - (* a range *)
      cbn [same] in Hk. apply call_some in Hk as [Ha Hk]. cbn [dispatch fst snd] in Ha, Hk.
      cbn [ordinary] in Ho. destruct Ho as (Ho&Hst&Hoe).
      assert (∀ f, f ≠ Equality → e_test E f (TRange c e) (TRange c e) = None) as Hn.
      { intros f Hf. destruct (e_test E f (TRange c e) (TRange c e)) as [t|] eqn:Et; [|done]. destruct Hf. apply Ho. by eexists. }
      unfold best_body in Hk. destruct (best_branch false _) as [b|] eqn:Eb; [|done].
      unfold best_branch in Eb. cbn [n_tests n_same n_elems n_deep n_report same_node] in Eb. unfold client_tests in Eb.
      rewrite !(Hn (Best false)) in Eb by done. cbn [given fmap option_fmap option_map andb] in Eb.
      destruct (e_test E Equality (TRange c e) (TRange c e)) as [t|] eqn:Et; cbn [given fmap option_fmap option_map] in Eb.
      + injection Eb as <-. apply (equality_decides st heap E HE); [left; rewrite Et; by eexists|]. cbn [same]. apply call_accepted; [|exact Hk].
        cbn [dispatch fst]. unfold accepts_equality, client_tests. cbn [n_tests n_same same_node]. rewrite Et.
        cbn [given fmap option_fmap option_map andb]. by rewrite orb_true_r.
      + rewrite (Hn Equivalence) in Eb by done. rewrite (Hn Weak) in Eb by done. cbn [given fmap option_fmap option_map] in Eb.
        destruct (elems_of (same E e) (Best false)) as [r|] eqn:Ee; cbn [given] in Eb.
        * injection Eb as <-. cbn [n_elems same_node] in Hk. rewrite Ee in Hk. cbn [body] in Hk. subst r.
          unfold elems_of in Ee. destruct (same E e (Best false)) as [a b] eqn:Es. cbn [fst snd] in Ee.
          destruct a; [|done]. destruct b as [ke|]; [|done]. injection Ee as <-.
          assert (decides e ke) as Hke by (apply IH; [done|unfold call; by rewrite Es]).
          intros x y Hx Hy. destruct x as [|s l| | | | | | | | |], y as [|s' l'| | | | | | | | |]; try done.
          rewrite passes_range. cbn in Hx, Hy. cbn [Spec.same_value].
          assert (Forall2 (λ x y, passes ke x y) l l' ↔ Forall2 (same_value e) l l') as Hl.
          { revert l' Hy. clear Ha. induction l as [|u l IHl]; intros [|v l'] Hy.
            - split; intros _; constructor.
            - split; intros H; inversion H.
            - split; intros H; inversion H.
            - rewrite !Forall2_cons. rewrite (Hke u v); [|apply Hx; by left|apply Hy; by left].
              rewrite IHl; [done| |]; intros z Hz; [apply Hx|apply Hy]; by right. }
          rewrite Hl. split; [|by intros [_ ?] ]. intros H. split; [|done]. intros Hc. apply Hst in Hc. by destruct Hc.
        * destruct (deep E (TRange c e) && e_report E (TRange c e)) eqn:Ed; [|done]. injection Eb as <-.
          apply andb_true_iff in Ed as [Hd _]. eapply simple_decides; [done| |exact Hk].
          apply range_mild. intros f k'. apply same_mild.
    - (* tuples *)
      cbn [same] in Hk. apply call_some in Hk as [Ha Hk]. cbn [dispatch fst snd] in Ha, Hk.
      destruct (mapM (λ t, call (same E t) (Best false)) ts) as [ks|] eqn:Em.
      + eapply (best_tests (TTuple ts)); [| |exact Hk].
        * cbn beta. by rewrite Em.
        * assert (Forall2 decides ts ks) as Hks.
          { eapply (mapM_calls E); [exact Em|]. cbn [ordinary] in Ho. rewrite Forall_map in Ho.
            rewrite Forall_forall in IH. rewrite Forall_forall in Ho. apply Forall_forall. intros t Ht k' Hk'. by apply IH; [|apply Ho|]. }
          intros x y Hx Hy. destruct x as [| |l| | | | | | | |], y as [| |l'| | | | | | | |]; try done.
          unfold passes, test_tuple, tester. cbn [fst].
          rewrite passes_test_elements.
          -- by eapply related_impl.
          -- cbn in Hx. rewrite (has_type_length _ _ _ Hx). by apply Forall2_length in Hks.
          -- cbn in Hy. rewrite (has_type_length _ _ _ Hy). by apply Forall2_length in Hks.
      + revert Hk. unfold best_body, best_branch. cbn [n_tests same_node given]. by rewrite Em.
    - (* variants *)
      cbn [same] in Hk. apply call_some in Hk as [Ha Hk]. cbn [dispatch fst snd] in Ha, Hk.
      destruct (mapM (λ t, call (same E t) (Best false)) ts) as [ks|] eqn:Em.
      + eapply (best_tests (TVariant ts)); [| |exact Hk].
        * cbn beta. by rewrite Em.
        * assert (Forall2 decides ts ks) as Hks.
          { eapply (mapM_calls E); [exact Em|]. cbn [ordinary] in Ho. rewrite Forall_map in Ho.
            rewrite Forall_forall in IH. rewrite Forall_forall in Ho. apply Forall_forall. intros t Ht k' Hk'. by apply IH; [|apply Ho|]. }
          intros x y Hx Hy. destruct x as [| | |i v| | | | | | |], y as [| | |i' v'| | | | | | |]; try done.
          unfold passes, test_variant, tester. cbn [fst]. case_decide as Hi.
          -- subst i'. destruct Hx as (P&HP&Px), Hy as (P'&HP'&Py). rewrite list_lookup_fmap in HP, HP'.
             destruct (ts !! i) as [t|] eqn:Et; [|done]. cbn in HP, HP'. injection HP as <-. injection HP' as <-.
             destruct (ks !! i) as [kk|] eqn:Ek.
             ++ rewrite inside_nil. cbn [Spec.same_value]. rewrite list_lookup_fmap, Et. cbn.
                pose proof (Forall2_lookup_lr _ _ _ _ _ _ Hks Et Ek v v' Px Py) as Hkk.
                unfold passes in Hkk. rewrite Hkk. naive_solver.
             ++ exfalso. apply lookup_lt_Some in Et. apply lookup_ge_None in Ek. apply Forall2_length in Hks.
                unfold checkfn in *. lia.
          -- split; [done|]. by intros [? _].
      + revert Hk. unfold best_body, best_branch. cbn [n_tests same_node given]. by rewrite Em.
    - (* optionals *)
      cbn [same] in Hk. apply call_some in Hk as [Ha Hk]. cbn [dispatch fst snd] in Ha, Hk.
      destruct (call (same E t) (Best false)) as [kt|] eqn:Et.
      + eapply (best_tests (TOptional t)); [| |exact Hk].
        * cbn beta. by rewrite Et.
        * intros x y Hx Hy. unfold passes, test_optional, tester. cbn [fst]. destruct x, y; try done.
          rewrite inside_nil. by apply IH.
      + revert Hk. unfold best_body, best_branch. cbn [n_tests same_node given]. by rewrite Et.
    - (* smart pointers *)
      cbn [same] in Hk. apply call_some in Hk as [Ha Hk]. cbn [dispatch fst snd] in Ha, Hk. by apply smart_best.
    - (* weak pointers *)
      apply (equality_decides st heap E HE); [done|]. exact Hk.
  Qed.

  (** ** Which checks compile *)

  Lemma mixed_same T : mixed E T T = same E T.
  Proof. destruct T; cbn [mixed]; by rewrite decide_True by done. Qed.

  Lemma check_mild f T k x y :
    check E f T T = Some k → mild T f → has_type T x → has_type T y → same_value T x y → passes k x y.
  Proof. unfold check. rewrite mixed_same. intros Hk Hm. by apply (same_mild T f). Qed.

  Lemma check_best T k x y :
    ordinary st E T → check E (Best false) T T = Some k → has_type T x → has_type T y →
    passes k x y ↔ same_value T x y.
  Proof. unfold check. rewrite mixed_same. intros Ho Hk. by apply best_decides. Qed.

  Definition steady (n : node) : Prop :=
    ∀ g m, given (n_elems n g) = true → (∀ m', g ≠ Best m') → given (n_elems n (Best m)) = true.

  Lemma best_found n m : steady n → accepts_best m n = true → is_Some (best_branch m n).
  Proof.
    intros Hs Ha. unfold best_branch. unfold accepts_best, accepts_weak, accepts_equivalence, accepts_equality, accepts_simple in Ha.
    destruct (given (n_tests n (Best m))); [by eexists|].
    destruct (n_same n && given (n_tests n Equality)) eqn:E1; [by eexists|].
    destruct (given (n_tests n Equivalence)); [by eexists|].
    destruct (given (n_tests n Weak)); [by eexists|].
    destruct (given (n_elems n (Best m))) eqn:E2; [by eexists|].
    assert (∀ g, (∀ m', g ≠ Best m') → given (n_elems n g) = false) as Hg.
    { intros g Hg. destruct (given (n_elems n g)) eqn:Eg; [|done]. by rewrite (Hs g m Eg Hg) in E2. }
    rewrite (Hg Equality), (Hg Simple), (Hg Equivalence), (Hg Weak) in Ha by done.
    destruct (n_same n), (n_deep n), (n_report n), (given (n_tests n Equality)); cbn in *; try done; try (by eexists);
      destruct (m && given (n_cross n)); cbn in *; try done; by eexists.
  Qed.

  Lemma dispatch_steady n g m : (dispatch n g).1 = true → (∀ m', g ≠ Best m') → (dispatch n (Best m)).1 = true.
  Proof.
    intros H Hg. destruct g as [| | | |m']; [| | | |by destruct (Hg m')]; cbn [dispatch fst] in *; unfold accepts_best;
      rewrite H, ?orb_true_r; done.
  Qed.

  Lemma same_dispatch T : ∃ n, same E T = dispatch n.
  Proof. destruct T; cbn [same]; by eexists. Qed.

  Lemma elems_steady v g m :
    (∃ n, v = dispatch n) → given (elems_of v g) = true → (∀ m', g ≠ Best m') → given (elems_of v (Best m)) = true.
  Proof.
    intros (n&->) Hg Hm. unfold elems_of in *. destruct (dispatch n g).1 eqn:Eg; [|done].
    by rewrite (dispatch_steady n g m Eg Hm).
  Qed.

  Lemma same_found T : best_is_found (same E T).
  Proof.
    destruct T; cbn [same]; eexists; (split; [reflexivity|]); intros m; apply best_found; try (by intros ? ?).
    intros g m'. cbn [n_elems same_node]. apply elems_steady, same_dispatch.
  Qed.

  Lemma mixed_found T U : best_is_found (mixed E T U).
  Proof.
    revert U. induction T as [c|c e IH|ts _|ts _|t _|t _|t _|t _| |] using ty_induction; intros U; cbn [mixed];
      (case_decide; [apply same_found|]); try (eexists; (split; [reflexivity|]); intros m; apply best_found; by intros ? ?).
    destruct U as [|c' e'| | | | | | | |]; eexists; (split; [reflexivity|]); intros m; apply best_found; try (by intros ? ?).
    intros g m'. cbn [n_elems]. apply elems_steady. destruct (IH e') as (n&Hn&_). by exists n.
  Qed.

  Lemma simple_compiles T :
    flat T → deep E T = true → is_Some (same E T Simple).2.
  Proof.
    induction T as [c|c e IH|ts _|ts _|t _|t _|t _|t _| |] using ty_induction; intros Hf Hd; try done.
    - cbn [same dispatch snd]. unfold simple_body. cbn [n_shallow n_op n_elems same_node no_tests].
      rewrite (deep_shallow _ _ Hd). destruct (op_honest st heap E HE _ Hd) as (f&->&_). by eexists.
    - cbn [same dispatch snd]. unfold simple_body. cbn [n_shallow n_op n_elems same_node].
      rewrite (deep_shallow _ _ Hd). destruct (op_honest st heap E HE _ Hd) as (f&->&_).
      destruct (IH Hf (deep_range _ _ Hd)) as [k Hk]. unfold elems_of. rewrite Hk.
      destruct (same E e Simple).1; by eexists.
  Qed.

  Lemma flat_compiles T f :
    flat T → f ≠ Simple → f ≠ Best true → (same E T f).1 = true → is_Some (same E T f).2.
  Proof.
    revert f. induction T as [c|c e IH|ts _|ts _|t _|t _|t _|t _| |] using ty_induction; intros f Hf Hs Hb Ha; try done.
    - cbn [same] in *. destruct f as [| | | |[]]; try done; cbn [dispatch fst snd] in *.
      + unfold equality_body. cbn [n_tests n_elems same_node no_tests]. unfold client_tests.
        destruct (e_test E Equality _ _); by eexists.
      + unfold equivalence_body, equality_body. cbn [n_tests n_elems same_node no_tests]. unfold client_tests.
        destruct (e_test E Equivalence _ _); [by eexists|]. destruct (e_test E Equality _ _); by eexists.
      + unfold weak_body, equivalence_body, equality_body. cbn [n_tests n_elems same_node no_tests]. unfold client_tests.
        destruct (e_test E Weak _ _); [by eexists|].
        destruct (e_test E Equivalence _ _); [by eexists|]. destruct (e_test E Equality _ _); by eexists.
      + unfold best_body. destruct (best_branch false _) as [b|] eqn:Eb.
        * pose proof (best_branch_simple false (same_node E (TClass c) (client_tests E (TClass c) (TClass c)) no_tests)) as Hsim.
          pose proof (best_branch_minimal false (same_node E (TClass c) (client_tests E (TClass c) (TClass c)) no_tests)) as Hmin.
          destruct b; cbn [n_tests n_elems n_cross same_node no_tests body].
          -- unfold best_branch in Eb. cbn [n_tests n_same n_elems n_deep n_report same_node no_tests] in Eb.
             destruct (client_tests E (TClass c) (TClass c) (Best false)) as [[t|]|] eqn:Et.
             ++ by eexists.
             ++ unfold client_tests in Et. by destruct (e_test E (Best false) _ _).
             ++ exfalso. cbn [given] in Eb. repeat case_match; done.
          -- unfold equality_body. cbn [n_tests n_elems same_node no_tests]. unfold client_tests.
             destruct (e_test E Equality _ _); by eexists.
          -- unfold equivalence_body, equality_body. cbn [n_tests n_elems same_node no_tests]. unfold client_tests.
             destruct (e_test E Equivalence _ _); [by eexists|]. destruct (e_test E Equality _ _); by eexists.
          -- unfold weak_body, equivalence_body, equality_body. cbn [n_tests n_elems same_node no_tests]. unfold client_tests.
             destruct (e_test E Weak _ _); [by eexists|].
             destruct (e_test E Equivalence _ _); [by eexists|]. destruct (e_test E Equality _ _); by eexists.
          -- exfalso. unfold best_branch in Eb. cbn [n_elems same_node no_tests given] in Eb. repeat case_match; done.
          -- by apply (simple_compiles (TClass c) Hf), Hsim.
          -- by apply Hmin in Eb.
        * exfalso. apply best_found in Ha as [b Hbb]; [congruence|]. by intros ? ?.
    - assert (∀ g, g ≠ Simple → g ≠ Best true → ∀ r, elems_of (same E e) g = Some r → is_Some r) as He.
      { intros g Hg1 Hg2 r. unfold elems_of. destruct (same E e g).1 eqn:Eg; [|done]. intros [= <-].
        destruct (IH g Hf Hg1 Hg2 Eg) as [k ->]. by eexists. }
      assert (is_Some (equality_body (same_node E (TRange c e) (client_tests E (TRange c e) (TRange c e)) (elems_of (same E e))))) as Heq.
      { unfold equality_body. cbn [n_tests n_elems same_node]. unfold client_tests.
        destruct (e_test E Equality _ _); [by eexists|]. destruct (elems_of (same E e) Equality) as [r|] eqn:Er; [|by eexists].
        destruct (He Equality ltac:(done) ltac:(done) r Er) as [k ->]. by eexists. }
      assert (is_Some (equivalence_body (same_node E (TRange c e) (client_tests E (TRange c e) (TRange c e)) (elems_of (same E e))))) as Hev.
      { unfold equivalence_body. cbn [n_tests n_elems same_node]. unfold client_tests at 1.
        destruct (e_test E Equivalence _ _); [by eexists|]. destruct (elems_of (same E e) Equivalence) as [r|] eqn:Er; [|done].
        by apply (He Equivalence). }
      assert (is_Some (weak_body (same_node E (TRange c e) (client_tests E (TRange c e) (TRange c e)) (elems_of (same E e))))) as Hwk.
      { unfold weak_body. cbn [n_tests n_elems same_node]. unfold client_tests at 1.
        destruct (e_test E Weak _ _); [by eexists|]. destruct (elems_of (same E e) Weak) as [r|] eqn:Er; [|done].
        by apply (He Weak). }
      cbn [same] in *. destruct f as [| | | |[]]; try done; cbn [dispatch fst snd] in *.
      unfold best_body. destruct (best_branch false _) as [b|] eqn:Eb.
      + pose proof (best_branch_simple false (same_node E (TRange c e) (client_tests E (TRange c e) (TRange c e)) (elems_of (same E e)))) as Hsim.
        pose proof (best_branch_minimal false (same_node E (TRange c e) (client_tests E (TRange c e) (TRange c e)) (elems_of (same E e)))) as Hmin.
        destruct b; cbn [n_tests n_elems n_cross same_node no_tests body]; try done.
        -- unfold best_branch in Eb. cbn [n_tests n_same n_elems n_deep n_report same_node no_tests] in Eb.
           destruct (client_tests E (TRange c e) (TRange c e) (Best false)) as [[t|]|] eqn:Et.
           ++ by eexists.
           ++ unfold client_tests in Et. by destruct (e_test E (Best false) _ _).
           ++ exfalso. cbn [given] in Eb. repeat case_match; done.
        -- destruct (elems_of (same E e) (Best false)) as [r|] eqn:Er; cbn [body].
           ++ by apply (He (Best false)).
           ++ exfalso. unfold best_branch in Eb. cbn [n_elems same_node] in Eb. rewrite Er in Eb. cbn [given] in Eb. repeat case_match; done.
        -- by apply (simple_compiles (TRange c e) Hf), Hsim.
        -- by apply Hmin in Eb.
      + exfalso. apply best_found in Ha as [b Hbb]; [congruence|]. intros g m'. cbn [n_elems same_node].
        apply elems_steady, same_dispatch.
  Qed.

  Lemma check_compiles T f :
    flat T → f ≠ Simple → f ≠ Best true → accepts E f T T = true → is_Some (check E f T T).
  Proof.
    unfold accepts, check, call. rewrite mixed_same. intros Hf Hs Hb Ha. rewrite Ha. by apply flat_compiles.
  Qed.
End best.

(** ** Values of different types *)

Section different.
  Context (E : env).

  Lemma different_ranges f c e c' e' k :
    f = Equivalence ∨ f = Weak → TRange c e ≠ TRange c' e' →
    (∀ g, e_test E g (TRange c e) (TRange c' e') = None) →
    check E f (TRange c e) (TRange c' e') = Some k →
    ∃ g ke, (g = f ∨ g = Equivalence) ∧ check E g e e' = Some ke ∧
      ∀ s l s' l', passes k (VSeq s l) (VSeq s' l') ↔ Forall2 (λ x y, passes ke x y) l l'.
  Proof.
    intros Hf Hn Ht. unfold check at 1. cbn [mixed]. rewrite decide_False by done. intros [Ha Hk]%call_some.
    assert (∀ g, client_tests E (TRange c e) (TRange c' e') g = None) as Hc by (intros g; unfold client_tests; by rewrite Ht).
    assert (∀ g r, elems_of (mixed E e e') g = Some r → r = Some k → g = f ∨ g = Equivalence →
      ∃ g ke, (g = f ∨ g = Equivalence) ∧ check E g e e' = Some ke ∧
        ∀ s l s' l', passes k (VSeq s l) (VSeq s' l') ↔ Forall2 (λ x y, passes ke x y) l l') as Hr.
    { intros g r. unfold elems_of. destruct (mixed E e e' g) as [a b] eqn:Em. cbn [fst snd]. destruct a; [|done].
      intros H. apply (inj Some) in H as <-. destruct b as [ke|]; [|done]. intros H Hg. apply (inj Some) in H as <-.
      exists g, ke. split; [done|]. split; [unfold check, call; by rewrite Em|]. intros. apply passes_range. }
    destruct Hf as [-> | ->]; cbn [dispatch fst snd] in Ha, Hk.
    - unfold equivalence_body in Hk. unfold accepts_equivalence, accepts_equality in Ha.
      cbn [n_tests n_elems n_same] in *. rewrite Hc in Hk. rewrite !Hc in Ha.
      destruct (elems_of (mixed E e e') Equivalence) as [r|] eqn:Er; [|done]. apply (Hr Equivalence r); [done|done|by right].
    - unfold weak_body, equivalence_body in Hk. unfold accepts_weak, accepts_equivalence, accepts_equality in Ha.
      cbn [n_tests n_elems n_same] in *. rewrite !Hc in Hk. rewrite !Hc in Ha.
      destruct (elems_of (mixed E e e') Weak) as [r|] eqn:Er; [apply (Hr Weak r); [done|done|by left]|].
      destruct (elems_of (mixed E e e') Equivalence) as [r|] eqn:Er'; [|done]. apply (Hr Equivalence r); [done|done|by right].
  Qed.

  Lemma any_holds f U k x y :
    f = Equivalence ∨ f = Weak ∨ f = Best false → U ≠ TAny → check E f TAny U = Some k →
    ∃ ku, check E (Best false) U U = Some ku ∧ (passes k x y ↔ ∃ v, x = VAny U v ∧ passes ku v y).
  Proof.
    intros Hf Hn. unfold check at 1. cbn [mixed]. rewrite decide_False by done. intros [Ha Hk]%call_some.
    assert ((λ t, guarded [t]) <$> (test_any U <$> call (same E U) (Best false)) = Some k) as Hk'.
    { destruct Hf as [-> | [-> | ->] ]; cbn [dispatch fst snd] in Ha, Hk;
        unfold best_body, best_branch, weak_body, equivalence_body in Hk;
        cbn [n_tests n_elems n_same given andb no_tests] in Hk;
        unfold equivalence_body in Hk; cbn [n_tests] in Hk;
        destruct (call (same E U) (Best false)); exact Hk. }
    clear Hk. unfold check. rewrite mixed_same. destruct (call (same E U) (Best false)) as [ku|]; [|done].
    exists ku. split; [done|]. apply (inj Some) in Hk' as <-.
    rewrite passes_guarded, Forall_singleton. unfold passes at 1, test_any, tester. cbn [fst].
    destruct x as [n|s l|l|i v| |v| |a v|b| |t' v]; try (split; [done|]; by intros (?&?&_)).
    case_decide as Ht; [|split; [done|]; intros (?&?&_); congruence].
    subst. rewrite inside_nil. unfold passes. naive_solver.
  Qed.
End different.

Lemma accepts_monotone E T U :
  (accepts E Equality T U = true → accepts E Equivalence T U = true) ∧
  (accepts E Equivalence T U = true → accepts E Weak T U = true) ∧
  (∀ m f, f ∈ [Equality; Simple; Equivalence; Weak] → accepts E f T U = true → accepts E (Best m) T U = true).
Proof.
  unfold accepts. destruct (mixed_found E T U) as (n&->&_). cbn [dispatch fst].
  unfold accepts_best, accepts_weak, accepts_equivalence, accepts_simple, accepts_equality.
  repeat split; intros *; rewrite ?elem_of_cons, ?elem_of_nil; try intros [-> |[-> |[-> |[-> |[]]]]];
    cbn [dispatch fst]; unfold accepts_best, accepts_weak, accepts_equivalence, accepts_simple, accepts_equality;
    rewrite ?orb_true_iff, ?andb_true_iff; tauto.
Qed.
