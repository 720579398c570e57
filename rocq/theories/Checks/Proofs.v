(** Checks return what they report; checks for equality find exactly the
    differences. *)
From stdpp Require Import list.
From Verif.Base Require Import Outcome Order ListLemmas.
From Verif.Checks Require Import Model Spec.

(** Induction on types, through lists of types. *)
Lemma ty_induction (P : ty → Prop) :
  (∀ c, P (TClass c)) → (∀ c e, P e → P (TRange c e)) →
  (∀ ts, Forall P ts → P (TTuple ts)) → (∀ ts, Forall P ts → P (TVariant ts)) →
  (∀ t, P t → P (TOptional t)) → (∀ t, P t → P (TPtr t)) → (∀ t, P t → P (TSmart t)) →
  (∀ t, P t → P (TWeak t)) → P TFunction → P TAny → ∀ T, P T.
Proof.
  intros Hc Hr Ht Hv Ho Hp Hs Hw Hf Ha. fix go 1. intros [c|c e|ts|ts|t|t|t|t| |].
  - apply Hc.
  - by apply Hr.
  - apply Ht. induction ts; constructor; [apply go|done].
  - apply Hv. induction ts; constructor; [apply go|done].
  - by apply Ho.
  - by apply Hp.
  - by apply Hs.
  - by apply Hw.
  - done.
  - done.
Qed.

(** ** What is returned *)

Definition consistent (k : checkfn) : Prop := ∀ x y, (k x y).2 = true ↔ (k x y).1 = [].

Lemma no_failures_iff fs : no_failures fs = true ↔ fs = [].
Proof. by destruct fs. Qed.

Lemma inside_nil s fs : inside s fs = [] ↔ fs = [].
Proof. by destruct fs. Qed.

Lemma guarded_consistent cs : consistent (guarded cs).
Proof. intros x y. apply no_failures_iff. Qed.

Lemma check_elems_consistent k l r i :
  consistent k → (check_elems k i l r).2 = true ↔ (check_elems k i l r).1 = [].
Proof.
  intros Hk. revert r i. induction l as [|x l IH]; intros [|y r] i; try done.
  cbn [check_elems]. specialize (Hk x y). destruct (k x y) as [fs b]. specialize (IH r (S i)).
  destruct (check_elems k (S i) l r) as [fs' b']. cbn [fst snd] in *.
  rewrite andb_true_iff, Hk, IH, app_nil, inside_nil. done.
Qed.

Lemma check_range_consistent k : consistent k → consistent (check_range k).
Proof.
  intros Hk x y. unfold check_range. destruct x, y; try done. unfold check_lists.
  case_decide; [|done]. by apply check_elems_consistent.
Qed.

Definition all_consistent (v : verdict) : Prop := ∀ f k, (v f).2 = Some k → consistent k.

Section returns.
  Context (E : env).

  Definition elems_consistent (el : flavour → option (option checkfn)) : Prop :=
    ∀ f k, el f = Some (Some k) → consistent k.

  Lemma equality_body_consistent n k : equality_body n = Some k → consistent k.
  Proof.
    unfold equality_body. destruct (n_tests n Equality) as [[t|]|]; [intros [= <-]| done |].
    - apply guarded_consistent.
    - destruct (n_elems n Equality) as [[r|]|]; [intros [= <-]|done|intros [= <-]]; apply guarded_consistent.
  Qed.

  Lemma simple_body_consistent n k : simple_body n = Some k → consistent k.
  Proof.
    unfold simple_body. destruct (n_shallow n); [|done]. destruct (n_op n); [|done].
    destruct (n_elems n Simple) as [[r|]|]; [intros [= <-]|done|intros [= <-]]; apply guarded_consistent.
  Qed.

  Lemma equivalence_body_consistent n k :
    elems_consistent (n_elems n) → equivalence_body n = Some k → consistent k.
  Proof.
    intros He. unfold equivalence_body. destruct (n_tests n Equivalence) as [[t|]|]; [intros [= <-]| done |].
    - apply guarded_consistent.
    - destruct (n_elems n Equivalence) as [[r|]|] eqn:El; [intros [= <-]|done|].
      + by apply (He _ _ El).
      + apply equality_body_consistent.
  Qed.

  Lemma weak_body_consistent n k :
    elems_consistent (n_elems n) → weak_body n = Some k → consistent k.
  Proof.
    intros He. unfold weak_body. destruct (n_tests n Weak) as [[t|]|]; [intros [= <-]| done |].
    - apply guarded_consistent.
    - destruct (n_elems n Weak) as [[r|]|] eqn:El; [intros [= <-]|done|].
      + by apply (He _ _ El).
      + by apply equivalence_body_consistent.
  Qed.

  Lemma best_body_consistent m n k :
    elems_consistent (n_elems n) → best_body m n = Some k → consistent k.
  Proof.
    intros He. unfold best_body. destruct (best_branch m n) as [[]|]; [| | | | | | |done].
    - destruct (body (n_tests n (Best false))); [intros [= <-]|done]. apply guarded_consistent.
    - apply equality_body_consistent.
    - by apply equivalence_body_consistent.
    - by apply weak_body_consistent.
    - destruct (n_elems n (Best false)) as [[r|]|] eqn:El; cbn [body]; [intros [= <-]|done|done]. by apply (He _ _ El).
    - apply simple_body_consistent.
    - destruct (body (n_cross n)); [intros [= <-]|done]. apply guarded_consistent.
  Qed.

  Lemma dispatch_consistent n : elems_consistent (n_elems n) → all_consistent (dispatch n).
  Proof.
    intros He [| | | |m] k; cbn [dispatch snd].
    - apply equality_body_consistent.
    - apply simple_body_consistent.
    - by apply equivalence_body_consistent.
    - by apply weak_body_consistent.
    - by apply best_body_consistent.
  Qed.

  Lemma elems_of_consistent v : all_consistent v → elems_consistent (elems_of v).
  Proof.
    intros Hv f k. unfold elems_of. specialize (Hv f). destruct (v f) as [[] [c|]]; cbn; try done.
    intros [= <-]. by apply check_range_consistent, Hv.
  Qed.

  Lemma no_elems_consistent : elems_consistent no_tests.
  Proof. by intros f k. Qed.

  Lemma same_consistent T : all_consistent (same E T).
  Proof.
    induction T using ty_induction; cbn [same]; apply dispatch_consistent;
      try apply no_elems_consistent; by apply elems_of_consistent.
  Qed.

  Lemma mixed_consistent T U : all_consistent (mixed E T U).
  Proof.
    revert U. induction T using ty_induction; intros U; cbn [mixed]; case_decide; try apply same_consistent;
      destruct U; apply dispatch_consistent; try apply no_elems_consistent; by apply elems_of_consistent.
  Qed.

  Lemma check_returns f T U k x y : check E f T U = Some k → (k x y).2 = true ↔ (k x y).1 = [].
  Proof.
    unfold check, call. intros H. pose proof (mixed_consistent T U f) as Hc.
    destruct (mixed E T U f) as [[] c]; [|done]. by apply Hc.
  Qed.
End returns.
