(** C65: arithmetic on points and displacements.
    C66: the operators offered for them. *)
From stdpp Require Import list.
From Verif.Base Require Import Outcome Order ListLemmas.
From Verif.Coordinates Require Import Model Spec Proofs ProofsLaws Instances.

(** ** C65 *)

(** What an operator returns: the combination entry by entry, as handed back by
    the validator, in the right class. *)
Theorem C65_values :
  ∀ V D k (ar : arith V) v op l r fuel x,
    validator_ok D v → sized D l → sized D r → 2 ≤ fuel →
    is_Some (resolve k op (type_of l) (type_of r)) →
    ¬ left_shift k op (type_of l) (type_of r) →
    eval fuel k ar v op l r = Some (Ok x) ↔
      ∃ raw c, combine ar op l r raw ∧ passes (in_charge v (gives_point k op l r)) raw c ∧
               holds (gives_point k op l r) x c.
Proof. intros V. exact values_ok. Qed.
Print Assumptions C65_values.

Example C65_values_ex :
  validator_ok 1 half_line ∧
  is_Some (resolve half_line_kind Add TCoord TDisp) ∧ ¬ left_shift half_line_kind Add TCoord TDisp ∧
  eval 2 half_line_kind int_arith half_line Add (VCoord [3%Z]) (VDisp [(-1)%Z]) = Some (Ok (VCoord [2%Z])) ∧
  eval 2 half_line_kind int_arith half_line Sub (VCoord [3%Z]) (VCoord [5%Z]) = Some (Ok (VDisp [(-2)%Z])) ∧
  eval 2 vector_kind int_arith identity_validator Mul (VScalar 2%Z) (VCoord [3%Z; 4%Z]) = Some (Ok (VDisp [6%Z; 8%Z])).
Proof.
  split; [apply half_line_ok|]. split; [by eexists|]. split; [by intros (_&?&_)|]. by vm_compute.
Qed.

(** When it throws: only what the validator throws. *)
Theorem C65_throws :
  ∀ V D k (ar : arith V) v op l r fuel e,
    validator_ok D v → sized D l → sized D r → 2 ≤ fuel →
    is_Some (resolve k op (type_of l) (type_of r)) →
    ¬ left_shift k op (type_of l) (type_of r) →
    eval fuel k ar v op l r = Some (Throw e) ↔
      ∃ raw, combine ar op l r raw ∧ refuses (in_charge v (gives_point k op l r)) raw e.
Proof. intros V. exact values_throw. Qed.
Print Assumptions C65_throws.

(** Otherwise the arithmetic is undefined for some entry. *)
Theorem C65_outcomes :
  ∀ V D k (ar : arith V) v op l r fuel o,
    validator_ok D v → sized D l → sized D r → 2 ≤ fuel →
    ¬ left_shift k op (type_of l) (type_of r) →
    eval fuel k ar v op l r = Some o →
    (∃ x, o = Ok x) ∨ (∃ e, o = Throw e) ∨ (o = UB ∧ ∀ raw, ¬ combine ar op l r raw).
Proof. intros V. exact values_other. Qed.
Print Assumptions C65_outcomes.

Example C65_throws_ex :
  eval 2 half_line_kind int_arith half_line Add (VCoord [3%Z]) (VDisp [(-4)%Z]) = Some (Throw DomainError) ∧
  eval 2 affine_kind int_arith identity_validator Add (VCoord [2147483647%Z]) (VDisp [1%Z]) = Some UB ∧
  eval 2 module_kind int_arith identity_validator Div (VCoord [1%Z]) (VSpan [0%Z]) = Some UB.
Proof. by vm_compute. Qed.

Theorem C65_negation :
  ∀ V D k (ar : arith V) v l x,
    validator_ok D v → sized D l →
    eval_neg k ar v l = Some (Ok x) ↔
      offers_neg k (type_of l) = true ∧
      ∃ a raw c, (l = VCoord a ∨ l = VDisp a) ∧ transformed (a_neg ar) a raw ∧
                 passes (in_charge v (is_point k l)) raw c ∧ holds (is_point k l) x c.
Proof. intros V. exact neg_ok. Qed.
Print Assumptions C65_negation.

Example C65_negation_ex :
  eval_neg vector_kind int_arith identity_validator (VCoord [3%Z; (-4)%Z]) = Some (Ok (VDisp [(-3)%Z; 4%Z])) ∧
  eval_neg affine_kind int_arith identity_validator (VCoord [3%Z]) = None ∧
  eval_neg half_line_kind int_arith half_line (VCoord [3%Z]) = Some (Throw DomainError).
Proof. by vm_compute. Qed.

(** A compound assignment which does not succeed leaves its object alone. *)
Theorem C65_assign_strong :
  ∀ V fuel k (ar : arith V) v op l r o x,
    eval_assign fuel k ar v op l r = Some (o, x) → o ≠ Ok tt → x = l.
Proof. intros V. exact assign_fails_strong. Qed.
Print Assumptions C65_assign_strong.

(** It does what the operator does. *)
Theorem C65_assign_value :
  ∀ V fuel k (ar : arith V) v op l r a,
    resolve_assign k op (type_of l) (type_of r) = Some a → assign_compiles k a (type_of l) = true →
    (∀ x, eval fuel k ar v op l r = Some (Ok x) → eval_assign fuel k ar v op l r = Some (Ok tt, x)) ∧
    (∀ e, eval fuel k ar v op l r = Some (Throw e) → eval_assign fuel k ar v op l r = Some (Throw e, l)).
Proof. intros V. exact assign_runs. Qed.
Print Assumptions C65_assign_value.

Example C65_assign_ex :
  resolve_assign half_line_kind Add TCoord TDisp = Some PlusDisp ∧
  assign_compiles half_line_kind PlusDisp TCoord = true ∧
  eval_assign 2 half_line_kind int_arith half_line Add (VCoord [3%Z]) (VDisp [1%Z]) = Some (Ok tt, VCoord [4%Z]) ∧
  eval_assign 2 half_line_kind int_arith half_line Sub (VCoord [3%Z]) (VDisp [4%Z])
    = Some (Throw DomainError, VCoord [3%Z]).
Proof. by vm_compute. Qed.

(** Every object made from given values holds what the validator has handed
    back, whatever has been done to it. *)
Theorem C65_acceptable_partial :
  ∀ V D k (ar : arith V) v x,
    validator_ok D v → made D k ar v x → sized D x ∧ ∀ c, x = VCoord c → acceptable k v c.
Proof. intros V. exact made_ok. Qed.
Print Assumptions C65_acceptable_partial.

Theorem C65_checked_partial :
  ∀ V D k (ar : arith V) v c,
    validator_ok D v → idempotent v → k_free k = false → made D k ar v (VCoord c) → passes v c c.
Proof. intros V. exact made_accepts. Qed.
Print Assumptions C65_checked_partial.

Example C65_acceptable_ex :
  made 1 half_line_kind int_arith half_line (VCoord [4%Z]) ∧ idempotent half_line ∧ only_checks half_line.
Proof.
  split; [|split; [apply half_line_idempotent|apply half_line_only_checks]].
  eapply (made_assign _ _ _ _ 2 Add (VCoord [3%Z]) (VDisp [1%Z]) (Ok tt)).
  - eapply (made_single _ _ _ _ 3%Z); by vm_compute.
  - by constructor.
  - by vm_compute.
Qed.

(** The default constructor: zeros which the validator has not seen. *)
Theorem C65_acceptable_refuted :
  ∃ D (k : kind) (v : validator Z),
    validator_ok D v ∧ kind_ok k ∧ ¬ acceptable k v (make_default int_arith D).
Proof.
  exists 2, affine_kind, at_least_five. split; [apply at_least_five_ok|]. split; [done|].
  intros [?|[raw H]]; [done|]. inversion H as [f ? ? Hf Hr|]. subst.
  cbn in Hf. injection Hf as <-. destruct (forallb _ raw) eqn:E; [|done]. injection Hr as ->. by vm_compute in E.
Qed.
Print Assumptions C65_acceptable_refuted.

(** Fewer values than dimensions are taken without complaint. *)
Theorem C65_pack_refuted :
  ∃ D (ts c : list Z), 1 < D ∧ length ts < D ∧
    make_pack int_arith identity_validator D ts = Some (Ok c) ∧ c = ts ++ [0%Z].
Proof. exists 3, [1%Z; 2%Z], [1%Z; 2%Z; 0%Z]. split; [lia|]. split; [cbn; lia|]. by vm_compute. Qed.
Print Assumptions C65_pack_refuted.

(** Laws. *)
Theorem C65_difference :
  ∀ V D k (ar : arith V) v p q d n,
    validator_ok D v → only_checks v → group_like ar → k_free k = false → length p = D → length q = D → 2 ≤ n →
    passes v q q →
    eval n k ar v Sub (VCoord q) (VCoord p) = Some (Ok d) →
    eval n k ar v Add (VCoord p) d = Some (Ok (VCoord q)).
Proof. intros V. exact law_difference. Qed.
Print Assumptions C65_difference.

Theorem C65_shift_difference :
  ∀ V D k (ar : arith V) v p d q n,
    validator_ok D v → only_checks v → group_like ar → k_free k = false → length p = D → length d = D → 2 ≤ n →
    eval n k ar v Add (VCoord p) (VDisp d) = Some (Ok q) →
    eval n k ar v Sub q (VCoord p) = Some (Ok (VDisp d)).
Proof. intros V. exact law_shift_difference. Qed.
Print Assumptions C65_shift_difference.

Theorem C65_shift_undone :
  ∀ V D k (ar : arith V) v p d q n,
    validator_ok D v → only_checks v → group_like ar → k_free k = false → length p = D → length d = D → 2 ≤ n →
    passes v p p →
    eval n k ar v Add (VCoord p) (VDisp d) = Some (Ok q) →
    eval n k ar v Sub q (VDisp d) = Some (Ok (VCoord p)).
Proof. intros V. exact law_undo. Qed.
Print Assumptions C65_shift_undone.

Theorem C65_associative_partial :
  ∀ V D k (ar : arith V) v p d e q r u n,
    validator_ok D v → only_checks v → group_like ar → k_free k = false →
    length p = D → length d = D → length e = D → 2 ≤ n →
    eval n k ar v Add (VCoord p) (VDisp d) = Some (Ok q) →
    eval n k ar v Add q (VDisp e) = Some (Ok r) →
    eval n k ar v Add (VDisp d) (VDisp e) = Some (Ok u) →
    eval n k ar v Add (VCoord p) u = Some (Ok r).
Proof. intros V. exact law_assoc. Qed.
Print Assumptions C65_associative_partial.

(** The other direction fails: the point on the way may not exist. *)
Theorem C65_associative_refuted :
  ∃ (p d e : list Z) u r,
    eval 2 half_line_kind int_arith half_line Add (VDisp d) (VDisp e) = Some (Ok u) ∧
    eval 2 half_line_kind int_arith half_line Add (VCoord p) u = Some (Ok r) ∧
    eval 2 half_line_kind int_arith half_line Add (VCoord p) (VDisp d) = Some (Throw DomainError).
Proof. exists [1%Z], [(-2)%Z], [3%Z], (VDisp [1%Z]), (VCoord [2%Z]). by vm_compute. Qed.
Print Assumptions C65_associative_refuted.

Theorem C65_commutative :
  ∀ V D k (ar : arith V) v d e u n,
    validator_ok D v → group_like ar → length d = D → length e = D → 2 ≤ n →
    eval n k ar v Add (VDisp d) (VDisp e) = Some (Ok u) →
    eval n k ar v Add (VDisp e) (VDisp d) = Some (Ok u).
Proof. intros V. exact law_comm. Qed.
Print Assumptions C65_commutative.

Theorem C65_displacement_undone :
  ∀ V D k (ar : arith V) v d e u n,
    validator_ok D v → group_like ar → length d = D → length e = D → 2 ≤ n →
    eval n k ar v Add (VDisp d) (VDisp e) = Some (Ok u) →
    eval n k ar v Sub u (VDisp e) = Some (Ok (VDisp d)).
Proof. intros V. exact law_disp_undo. Qed.
Print Assumptions C65_displacement_undone.

Theorem C65_distributive :
  ∀ V D k (ar : arith V) v d e s u a b t n,
    validator_ok D v → distributive ar → length d = D → length e = D → 2 ≤ n →
    eval n k ar v Add (VDisp d) (VDisp e) = Some (Ok u) →
    eval n k ar v Mul u (VScalar s) = Some (Ok t) →
    eval n k ar v Mul (VDisp d) (VScalar s) = Some (Ok a) →
    eval n k ar v Mul (VDisp e) (VScalar s) = Some (Ok b) →
    eval n k ar v Add a b = Some (Ok t).
Proof. intros V. exact law_distrib. Qed.
Print Assumptions C65_distributive.

Theorem C65_scalar_left :
  ∀ V D k (ar : arith V) v l s n m,
    validator_ok D v → sized D l → is_class (type_of l) = true → 2 ≤ n → 2 ≤ m →
    eval n k ar v Mul (VScalar s) l = eval m k ar v Mul l (VScalar s).
Proof. intros V. exact law_scalar_left. Qed.
Print Assumptions C65_scalar_left.

Example C65_laws_ex :
  group_like int_value_arith ∧ distributive int_value_arith ∧ group_like big_arith ∧ distributive big_arith ∧ only_checks half_line ∧ passes half_line [5%Z] [5%Z] ∧
  k_free half_line_kind = false ∧
  eval 2 half_line_kind big_arith half_line Sub (VCoord [5%Z]) (VCoord [7%Z]) = Some (Ok (VDisp [(-2)%Z])) ∧
  eval 2 half_line_kind big_arith half_line Add (VCoord [7%Z]) (VDisp [(-2)%Z]) = Some (Ok (VCoord [5%Z])) ∧
  eval 2 half_line_kind big_arith half_line Mul (VDisp [(-2)%Z]) (VScalar 3%Z) = Some (Ok (VDisp [(-6)%Z])).
Proof.
  split; [apply int_value_group|]. split; [apply int_value_distributive|].
  split; [apply big_group|]. split; [apply big_distributive|]. split; [apply half_line_only_checks|].
  split; [by eapply passes_single|]. by vm_compute.
Qed.

(** ** C66 *)

(** Apart from division by a span, an operator is offered exactly when the
    expression makes sense. *)
Theorem C66_offered_partial :
  ∀ k op l r,
    kind_ok k → nameable l → nameable r → (op = Div → r ≠ TSpan) →
    is_Some (resolve k op l r) ↔ makes_sense k op l r.
Proof. exact resolve_makes_sense. Qed.
Print Assumptions C66_offered_partial.

Theorem C66_unambiguous : ∀ k op l r, length (candidates k op l r) ≤ 1.
Proof. exact candidates_at_most_one. Qed.
Print Assumptions C66_unambiguous.

(** What is returned is of the right type. *)
Theorem C66_returns :
  ∀ k op l r c d,
    kind_ok k → nameable l → nameable r → resolve k op l r = Some (c, d) → returns c d = result_type k op l r.
Proof. exact returns_result_type. Qed.
Print Assumptions C66_returns.

(** Negation is offered for signed values, where there is an origin. *)
Theorem C66_negation :
  ∀ k t, kind_ok k → t = TCoord ∨ t = TDisp →
    offers_neg k t = true ↔ k_unsigned k = false ∧ (t = TDisp ∨ k_origin k = true).
Proof. exact offers_neg_iff. Qed.
Print Assumptions C66_negation.

Example C66_returns_ex :
  result_type affine_kind Sub TCoord TCoord = TDisp ∧ result_type affine_kind Add TCoord TDisp = TCoord ∧
  result_type half_line_kind Add TCoord TCoord = TCoord ∧ result_type vector_kind Add TCoord TCoord = TDisp ∧
  offers_neg affine_kind TCoord = false ∧ offers_neg affine_kind TDisp = true.
Proof. by vm_compute. Qed.

Example C66_offered_ex :
  kind_ok affine_kind ∧ kind_ok vector_kind ∧
  resolve affine_kind Add TCoord TCoord = None ∧
  resolve affine_kind Sub TCoord TCoord = Some (SubSame, TCoord) ∧
  resolve vector_kind Add TCoord TCoord = Some (AddDisp, TDisp) ∧
  resolve half_line_kind Add TCoord TCoord = Some (AddSame, TCoord) ∧
  resolve module_kind Div TCoord TScalar = None.
Proof. by vm_compute. Qed.

(** Division by a span is offered over rings which are not fields. *)
Theorem C66_offered_refuted :
  ∃ k l, kind_ok k ∧ is_Some (resolve k Div l TSpan) ∧ ¬ makes_sense k Div l TSpan ∧
         resolve k Div l TScalar = None ∧
         eval 2 k int_arith identity_validator Div (VCoord [7%Z]) (VSpan [2%Z]) = Some (Ok (VDisp [3%Z])).
Proof. exists module_kind, TCoord. split; [done|]. split; [by eexists|]. split; [by intros [_ ?]|]. by vm_compute. Qed.
Print Assumptions C66_offered_refuted.

(** A displacement on the left of a point: offered, but never returns. *)
Theorem C66_left_shift_refuted :
  ∃ k, kind_ok k ∧ makes_sense k Add TDisp TCoord ∧ is_Some (resolve k Add TDisp TCoord) ∧
       ∀ fuel a b, eval fuel k int_arith half_line Add (VDisp a) (VCoord b) = Some NoFuel.
Proof.
  exists half_line_kind. split; [done|]. split; [done|]. split; [by eexists|].
  intros fuel a b. by apply left_shift_never.
Qed.
Print Assumptions C66_left_shift_refuted.

(** Assignment operators: offered when they make sense (except division of
    affine coordinates), and then they compile (except the sum of points). *)
Theorem C66_assign_offered_partial :
  ∀ k op l r,
    kind_ok k → nameable r → l = TCoord ∨ l = TDisp →
    ¬ (op = Div ∧ l = TCoord ∧ k_origin k = false) →
    is_Some (resolve_assign k op l r) ↔ assign_makes_sense k op l r.
Proof. exact assign_offered_iff. Qed.
Print Assumptions C66_assign_offered_partial.

Theorem C66_assign_compiles_partial :
  ∀ k op l r a,
    kind_ok k → nameable r → l = TCoord ∨ l = TDisp → resolve_assign k op l r = Some a →
    ¬ (op = Add ∧ l = TCoord ∧ r = TCoord ∧ k_free k = false) →
    ¬ (op = Div ∧ l = TCoord ∧ k_origin k = false) →
    assign_compiles k a l = true.
Proof. exact assign_offered_compiles. Qed.
Print Assumptions C66_assign_compiles_partial.

Example C66_assign_ex :
  resolve_assign vector_kind Add TCoord TCoord = Some PlusDisp ∧ assign_compiles vector_kind PlusDisp TCoord = true ∧
  resolve_assign vector_kind Div TCoord TScalar = Some OverScalar ∧ assign_compiles vector_kind OverScalar TCoord = true ∧
  resolve_assign affine_kind Mul TCoord TScalar = None.
Proof. by vm_compute. Qed.

(** Adding a point to a point in place is offered where there is an origin, but
    the body does not compile; likewise dividing an affine point in place. *)
Theorem C66_assign_refuted :
  (∃ k a, kind_ok k ∧ assign_makes_sense k Add TCoord TCoord ∧
          resolve_assign k Add TCoord TCoord = Some a ∧ assign_compiles k a TCoord = false) ∧
  (∃ k a, kind_ok k ∧ ¬ assign_makes_sense k Div TCoord TScalar ∧
          resolve_assign k Div TCoord TScalar = Some a ∧ assign_compiles k a TCoord = false).
Proof.
  split.
  - exists half_line_kind, PlusBase. split; [done|]. by vm_compute.
  - exists affine_kind, OverScalar. split; [done|]. split; [by intros [? _]|]. by vm_compute.
Qed.
Print Assumptions C66_assign_refuted.
