(** C69: checks for equality of values.
    C70: the other checks of values. *)
From stdpp Require Import list.
From Verif.Base Require Import Outcome Order ListLemmas.
From Verif.Checks Require Import Model Spec Proofs ProofsEquality ProofsBest Instances.

Notation int := (TClass 0).
Notation vector := (TRange 0).

(** ** C69 *)

(** What a check returns is whether it has reported anything. *)
Theorem C69_returns :
  ∀ E f T U k x y, check E f T U = Some k → (k x y).2 = true ↔ (k x y).1 = [].
Proof. exact check_returns. Qed.
Print Assumptions C69_returns.

Example C69_returns_ex :
  ∃ k, check sample Weak (vector int) (vector int) = Some k ∧
    k (VSeq 0 [VAtom 1; VAtom 2]) (VSeq 0 [VAtom 1; VAtom 3]) = ([([SElem 1], WOp)], false) ∧
    k (VSeq 0 [VAtom 1]) (VSeq 0 [VAtom 1; VAtom 3]) = ([([], WSize)], false) ∧
    k (VSeq 0 [VAtom 1]) (VSeq 0 [VAtom 1]) = ([], true).
Proof. eexists. split; [reflexivity|]. by vm_compute. Qed.

(** A check for equality reports something exactly if the values differ. *)
Theorem C69_equality :
  ∀ st heap E, honest st heap E →
  ∀ T k x y, observed st E T → check E Equality T T = Some k →
    has_type heap T x → has_type heap T y → passes k x y ↔ same_value st T x y.
Proof. exact check_equality. Qed.
Print Assumptions C69_equality.

(** ... and only at places where they do. *)
Theorem C69_places :
  ∀ st heap E, honest st heap E →
    (∀ T t x y p w, e_test E Equality T T = Some t → has_type heap T x → has_type heap T y →
       (p, w) ∈ t x y → differ_at st T x y p) →
  ∀ T k x y p w, check E Equality T T = Some k → has_type heap T x → has_type heap T y →
    (p, w) ∈ (k x y).1 → differ_at st T x y p.
Proof. exact check_equality_located. Qed.
Print Assumptions C69_places.

Example C69_equality_ex :
  honest named sample_heap sample ∧
  let T := vector (TTuple [int; TOptional (TRange 3 int)]) in
  let x := VSeq 0 [VTup [VAtom 1; VNone]; VTup [VAtom 2; VSome (VSeq 7 [VAtom 5])]] in
  let y := VSeq 0 [VTup [VAtom 1; VNone]; VTup [VAtom 2; VSome (VSeq 8 [VAtom 5])]] in
  observed named sample T ∧ has_type sample_heap T x ∧ has_type sample_heap T y ∧
  ∃ k, check sample Equality T T = Some k ∧ passes k x x ∧ ¬ passes k x y ∧
    ([SElem 1; STup 1; SSome], WOp) ∈ (k x y).1 ∧ same_value named T x x ∧ ¬ same_value named T x y.
Proof.
  split; [exact sample_honest|]. cbv zeta.
  split. { right. split; [done|]. cbn. apply Forall_cons. split; [done|]. apply Forall_singleton. right. by split. }
  split. { cbn. intros v Hv. repeat (apply elem_of_cons in Hv as [->|Hv]; [cbn; try done|]); [|by apply elem_of_nil in Hv].
           split; [done|]. split; [|done]. intros u Hu. by apply elem_of_list_singleton in Hu as ->. }
  split. { cbn. intros v Hv. repeat (apply elem_of_cons in Hv as [->|Hv]; [cbn; try done|]); [|by apply elem_of_nil in Hv].
           split; [done|]. split; [|done]. intros u Hu. by apply elem_of_list_singleton in Hu as ->. }
  eexists. split; [reflexivity|]. split; [by vm_compute|]. split; [by vm_compute|].
  split; [apply (bool_decide_unpack _); by vm_compute|].
  split; [by repeat constructor|].
  cbn. intros [_ H]. inversion H as [|? ? ? ? _ H']; subst. inversion H' as [|? ? ? ? H'' _]; subst.
  destruct H'' as (_&(H''&_)&_). specialize (H'' eq_refl). done.
Qed.

Example C69_places_ex :
  ∃ k, check sample Equality (vector (TClass 4)) (vector (TClass 4)) = Some k ∧
    k (VSeq 0 [VAtom 1; VAtom 2; VAtom 3]) (VSeq 0 [VAtom 1; VAtom 4; VAtom 5])
      = ([([SElem 1], WUser 0); ([SElem 2], WUser 0)], false).
Proof. eexists. split; [reflexivity|]. by vm_compute. Qed.

Example C69_places_meets :
  ∀ T t x y p w, e_test sample Equality T T = Some t → has_type sample_heap T x → has_type sample_heap T y →
    (p, w) ∈ t x y → differ_at named T x y p.
Proof. exact sample_places. Qed.

(** ** C70 *)

(** Values which are the same pass, whatever the tag, unless the operator of an
    array is involved. *)
Theorem C70_same_partial :
  ∀ st heap E, honest st heap E → lenient st heap E →
  ∀ f T k x y, check E f T T = Some k →
    (f = Simple ∨ f = Best true → deep E T = true) →
    has_type heap T x → has_type heap T y → same_value st T x y → passes k x y.
Proof. exact check_mild. Qed.
Print Assumptions C70_same_partial.

Example C70_same_ex :
  honest named sample_heap sample ∧ lenient named sample_heap sample ∧
  (let T := vector (TTuple [TClass 2; int]) in
   (is_Some (check sample (Best false) T T) ∧ deep sample T = true ∧
    same_value named T (VSeq 0 [VTup [VAtom 11; VAtom 2]]) (VSeq 0 [VTup [VAtom 11; VAtom 2]]))).
Proof.
  split; [exact sample_honest|]. split; [exact sample_lenient|]. cbv zeta.
  split; [by vm_compute; eexists|]. split; [done|]. by repeat constructor.
Qed.

(** With [simple_equality], arrays with the same elements are reported: their
    addresses are compared. *)
Theorem C70_same_refuted :
  ∃ st heap E, honest st heap E ∧ lenient st heap E ∧
  ∃ T k x y, check E Simple T T = Some k ∧ has_type heap T x ∧ has_type heap T y ∧
    same_value st T x y ∧ (k x y).1 = [([], WOp)].
Proof.
  exists named, sample_heap, sample. split; [exact sample_honest|]. split; [exact sample_lenient|].
  exists (TRange 2 int). eexists. exists (VSeq 100 [VAtom 1]), (VSeq 200 [VAtom 1]).
  split; [reflexivity|]. split; [by intros ? ->%elem_of_list_singleton|]. split; [by intros ? ->%elem_of_list_singleton|].
  split; [by repeat constructor|]. by vm_compute.
Qed.
Print Assumptions C70_same_refuted.

(** For ordinary types, the best available check is one for equality. *)
Theorem C70_best_partial :
  ∀ st heap E, honest st heap E → lenient st heap E →
  ∀ T k x y, ordinary st E T → check E (Best false) T T = Some k →
    has_type heap T x → has_type heap T y → passes k x y ↔ same_value st T x y.
Proof. exact check_best. Qed.
Print Assumptions C70_best_partial.

Example C70_best_ex :
  let T := TTuple [vector (TClass 4); TVariant [int; TOptional int]] in
  ordinary named sample T ∧
  ∃ k, check sample (Best false) T T = Some k ∧
    k (VTup [VSeq 0 [VAtom 1]; VAlt 1 (VSome (VAtom 3))]) (VTup [VSeq 0 [VAtom 2]; VAlt 1 (VSome (VAtom 4))])
    = ([([STup 0; SElem 0], WUser 0); ([STup 1], WOp); ([STup 1; SAlt], WOp); ([STup 1; SAlt; SSome], WOp)], false).
Proof.
  cbv zeta. split.
  - assert (∀ f T, is_Some (e_test sample f T T) → (f = Equality ∨ T = TClass 2)) as H.
    { intros f T [t Ht]. destruct T as [[|[|[|[|[|c]]]]]| | | | | | | | |], f; try discriminate; tauto. }
    assert (∀ T, T ≠ TClass 2 → ∀ f, is_Some (e_test sample f T T) → f = Equality) as H'.
    { intros T HT f Hf. by destruct (H f T Hf). }
    cbn [ordinary map]. apply Forall_cons. split.
    { split; [exact (H' (vector (TClass 4)) ltac:(done))|]. split; [done|exact (H' (TClass 4) ltac:(done))]. }
    apply Forall_singleton. cbn [ordinary map id]. apply Forall_cons. split; [exact (H' int ltac:(done))|].
    apply Forall_singleton. exact (H' int ltac:(done)).
  - eexists. split; [reflexivity|]. by vm_compute.
Qed.

(** Otherwise it may miss what the check for equality finds: for a range with
    state of its own only the elements are compared; *)
Theorem C70_best_range_refuted :
  ∃ st heap E, honest st heap E ∧ lenient st heap E ∧
  ∃ T k k' x y, observed st E T ∧ check E (Best false) T T = Some k ∧ check E Equality T T = Some k' ∧
    has_type heap T x ∧ has_type heap T y ∧ passes k x y ∧ ¬ passes k' x y.
Proof.
  exists named, sample_heap, sample. split; [exact sample_honest|]. split; [exact sample_lenient|].
  exists (TRange 3 int). eexists. eexists. exists (VSeq 1 [VAtom 1]), (VSeq 2 [VAtom 1]).
  split; [right; by split|]. split; [reflexivity|]. split; [reflexivity|].
  split; [by intros ? ->%elem_of_list_singleton|]. split; [by intros ? ->%elem_of_list_singleton|].
  split; by vm_compute.
Qed.
Print Assumptions C70_best_range_refuted.

(** for raw pointers the objects pointed to, not the pointers; *)
Theorem C70_best_pointer_refuted :
  ∃ st heap E, honest st heap E ∧ lenient st heap E ∧
  ∃ T k k' x y, check E (Best false) (TPtr T) (TPtr T) = Some k ∧ check E Equality (TPtr T) (TPtr T) = Some k' ∧
    has_type heap (TPtr T) x ∧ has_type heap (TPtr T) y ∧ passes k x y ∧ ¬ passes k' x y.
Proof.
  exists named, sample_heap, sample. split; [exact sample_honest|]. split; [exact sample_lenient|].
  exists int. eexists. eexists. exists (VPtr 1 (VAtom 1)), (VPtr 4 (VAtom 1)).
  split; [reflexivity|]. split; [reflexivity|]. split; [by vm_compute|]. split; [by vm_compute|].
  split; by vm_compute.
Qed.
Print Assumptions C70_best_pointer_refuted.

(** for a class with [==] and a tester for equivalence, like
    [std::filesystem::path], what the tester looks at. *)
Theorem C70_best_class_refuted :
  ∃ st heap E, honest st heap E ∧ lenient st heap E ∧
  ∃ c k k' x y, check E (Best false) (TClass c) (TClass c) = Some k ∧ check E Equality (TClass c) (TClass c) = Some k' ∧
    has_type heap (TClass c) x ∧ has_type heap (TClass c) y ∧ passes k x y ∧ ¬ passes k' x y.
Proof.
  exists named, sample_heap, sample. split; [exact sample_honest|]. split; [exact sample_lenient|].
  exists 2. eexists. eexists. exists (VAtom 3), (VAtom 13).
  split; [reflexivity|]. split; [reflexivity|]. split; [done|]. split; [done|].
  split; by vm_compute.
Qed.
Print Assumptions C70_best_class_refuted.

(** The last branch of the best available check, which does not compile, is
    never reached. *)
Theorem C70_branch :
  ∀ E T U, best_is_found (mixed E T U).
Proof. exact mixed_found. Qed.
Print Assumptions C70_branch.

(** What can be checked for equality can be checked for equivalence; this for weak equivalence; all these by the best available check. *)
Theorem C70_accepts : ∀ E T U,
  (accepts E Equality T U = true → accepts E Equivalence T U = true) ∧
  (accepts E Equivalence T U = true → accepts E Weak T U = true) ∧
  (∀ m f, f ∈ [Equality; Simple; Equivalence; Weak] → accepts E f T U = true → accepts E (Best m) T U = true).
Proof. exact accepts_monotone. Qed.
Print Assumptions C70_accepts.

Example C70_accepts_ex :
  accepts sample Equality (vector int) (vector int) = true ∧ accepts sample Weak (vector int) (vector int) = true ∧
  accepts sample Equality TFunction TFunction = false ∧ accepts sample Weak TFunction TFunction = true.
Proof. by vm_compute. Qed.

(** For classes and ranges of them, what the constraints accept does compile. *)
Theorem C70_compiles_partial :
  ∀ st heap E, honest st heap E →
  ∀ T f, flat T → f ≠ Simple → f ≠ Best true →
    accepts E f T T = true → is_Some (check E f T T).
Proof. exact check_compiles. Qed.
Print Assumptions C70_compiles_partial.

Example C70_compiles_ex :
  flat (vector (TRange 1 (TClass 4))) ∧
  accepts sample (Best false) (vector (TRange 1 (TClass 4))) (vector (TRange 1 (TClass 4))) = true ∧
  accepts sample Equality (vector (TClass 1)) (vector (TClass 1)) = false.
Proof. by vm_compute. Qed.

(** In general it need not: [simple_equality] of spans; pairs with something
    which cannot be compared; a vector of things which can be compared but not
    printed, although minimal reporting is asked for. *)
Theorem C70_compiles_refuted :
  ∃ st heap E, honest st heap E ∧
    (∃ T, flat T ∧ accepts E Simple T T = true ∧ check E Simple T T = None) ∧
    (∃ T U, accepts E Equality (TTuple [T; U]) (TTuple [T; U]) = true ∧ check E Equality (TTuple [T; U]) (TTuple [T; U]) = None) ∧
    (∃ T, flat T ∧ is_Some (check E (Best true) T T) ∧
          accepts E (Best true) (vector T) (vector T) = true ∧ check E (Best true) (vector T) (vector T) = None).
Proof.
  exists named, sample_heap, sample. split; [exact sample_honest|]. split; [by exists (TRange 1 int)|].
  split; [by exists int, (TClass 1)|]. exists (TClass 3). split; [done|]. split; [by vm_compute; eexists|]. by vm_compute.
Qed.
Print Assumptions C70_compiles_refuted.

(** Ranges of different types are equivalent if they have the same length and
    the elements are equivalent. *)
Theorem C70_ranges :
  ∀ E f c e c' e' k, f = Equivalence ∨ f = Weak → TRange c e ≠ TRange c' e' →
    (∀ g, e_test E g (TRange c e) (TRange c' e') = None) →
    check E f (TRange c e) (TRange c' e') = Some k →
    ∃ g ke, (g = f ∨ g = Equivalence) ∧ check E g e e' = Some ke ∧
      ∀ s l s' l', passes k (VSeq s l) (VSeq s' l') ↔ Forall2 (λ x y, passes ke x y) l l'.
Proof. exact different_ranges. Qed.
Print Assumptions C70_ranges.

Example C70_ranges_ex :
  ∃ k, check sample Equivalence (vector int) (TRange 3 int) = Some k ∧
    passes k (VSeq 0 [VAtom 1; VAtom 2]) (VSeq 9 [VAtom 1; VAtom 2]) ∧
    (k (VSeq 0 [VAtom 1; VAtom 2]) (VSeq 9 [VAtom 1; VAtom 3])).1 = [([SElem 1], WOp)].
Proof. eexists. split; [reflexivity|]. by vm_compute. Qed.

(** A [std::any] is equivalent to a value if it holds one of that type which
    passes the best available check. *)
Theorem C70_any :
  ∀ E f U k x y, f = Equivalence ∨ f = Weak ∨ f = Best false → U ≠ TAny → check E f TAny U = Some k →
    ∃ ku, check E (Best false) U U = Some ku ∧ (passes k x y ↔ ∃ v, x = VAny U v ∧ passes ku v y).
Proof. exact any_holds. Qed.
Print Assumptions C70_any.

Example C70_any_ex :
  ∃ k, check sample Equivalence TAny (vector int) = Some k ∧
    passes k (VAny (vector int) (VSeq 0 [VAtom 1])) (VSeq 0 [VAtom 1]) ∧
    (k (VAny int (VAtom 1)) (VSeq 0 [VAtom 1])).1 = [([], WHeld)] ∧
    (k VEmptyAny (VSeq 0 [VAtom 1])).1 = [([], WEmpty)].
Proof. eexists. split; [reflexivity|]. by vm_compute. Qed.
