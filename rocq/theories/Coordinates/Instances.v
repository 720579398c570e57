(** Value types, spaces and validators used to show that the hypotheses of the
    theorems can be met. *)
From stdpp Require Import list.
From Verif.Base Require Import Outcome Order ListLemmas.
From Verif.Coordinates Require Import Model Spec.

(** ** Examples of value types, spaces and validators *)

(** [int]: 32 bits, overflow undefined. *)
Definition int32 (z : Z) : option Z :=
  if decide (- 2 ^ 31 ≤ z < 2 ^ 31)%Z then Some z else None.

Definition int_arith : arith Z :=
  Arith 0%Z (λ x y, int32 (x + y)) (λ x y, int32 (x - y)) (λ x y, int32 (x * y))
    (λ x y, if decide (y = 0%Z) then None else int32 (Z.quot x y)) (λ x, int32 (- x)).

(** [half_line_validator] (Spaces.hpp L710-731). *)
Definition half_line : validator Z :=
  Validator false None (Some (λ x, if decide (x < 0)%Z then Throw DomainError else Ok x)).

(** An [interval_validator] for values of at least five (L733-772). *)
Definition at_least_five : validator Z :=
  Validator false
    (Some (λ l, if forallb (λ x, bool_decide (5 ≤ x)%Z) l then Ok l else Throw DomainError))
    (Some (λ x, if decide (5 ≤ x)%Z then Ok x else Throw DomainError)).

Definition half_line_kind := Kind true false true false.
Definition affine_kind := Kind false false true false.
Definition vector_kind := Kind true true true false.
Definition module_kind := Kind true true false false.

Lemma half_line_ok : validator_ok 1 half_line.
Proof.
  split; try done.
  - left. split; [done|]. by eexists.
  - intros g x [= <-]. destruct (decide _); eauto.
Qed.

Lemma at_least_five_ok D : validator_ok D at_least_five.
Proof.
  split; try done.
  - right. by eexists.
  - intros f l l' [= <-]. by destruct (forallb _ l); intros [= <-].
  - intros f l [= <-]. destruct (forallb _ l); eauto.
  - intros g x [= <-]. destruct (decide _); eauto.
  - intros f g x _ [= <-] [= <-]. cbn [forallb]. rewrite andb_true_r.
    destruct (decide (5 ≤ x)%Z) as [H|H].
    + rewrite bool_decide_true by done. split; intros ?; split; naive_solver.
    + rewrite bool_decide_false by done. split; intros ?; split; naive_solver.
Qed.

(** Integers without bounds. *)
Definition big_arith : arith Z :=
  Arith 0%Z (λ x y, Some (x + y)%Z) (λ x y, Some (x - y)%Z) (λ x y, Some (x * y)%Z)
    (λ x y, if decide (y = 0%Z) then None else Some (Z.quot x y)) (λ x, Some (- x)%Z).

Lemma big_group : group_like big_arith.
Proof.
  split; cbn; intros; simplify_eq; try split; f_equal; lia.
Qed.

Lemma big_distributive : distributive big_arith.
Proof. intros x y z s a b t; cbn; intros; simplify_eq. f_equal. lia. Qed.

(** [int] restricted to the values it can represent. *)
Definition int_value := dsig (λ z : Z, - 2 ^ 31 ≤ z < 2 ^ 31)%Z.

Definition represent (z : Z) : option int_value :=
  match decide (- 2 ^ 31 ≤ z < 2 ^ 31)%Z with
  | left H => Some (dexist z H)
  | right _ => None
  end.

Lemma zero_representable : (- 2 ^ 31 ≤ 0 < 2 ^ 31)%Z.
Proof. done. Qed.

Definition int_value_arith : arith int_value :=
  Arith (dexist 0%Z zero_representable) (λ x y, represent (`x + `y)) (λ x y, represent (`x - `y))
    (λ x y, represent (`x * `y))
    (λ x y, if decide (`y = 0%Z) then None else represent (Z.quot (`x) (`y))) (λ x, represent (- `x)).

Lemma represent_some z (y : int_value) : represent z = Some y ↔ `y = z.
Proof.
  unfold represent. destruct (decide _) as [H|H].
  - split; [by intros [= <-]|]. intros <-. f_equal. by apply dsig_eq.
  - split; [done|]. intros <-. destruct H. exact (proj2_dsig y).
Qed.

Lemma represent_eq z z' : z = z' → represent z = represent z'.
Proof. by intros ->. Qed.

Lemma int_value_group : group_like int_value_arith.
Proof.
  split; cbn -[Z.pow].
  - intros x y z. rewrite !represent_some. lia.
  - intros x y z. rewrite !represent_some. lia.
  - intros x y z a b. rewrite !represent_some. intros ? ?. apply represent_eq. lia.
  - intros x y. apply represent_eq. lia.
Qed.

Lemma int_value_distributive : distributive int_value_arith.
Proof. intros x y z s a b t. cbn -[Z.pow]. rewrite !represent_some. intros -> -> -> ->. lia. Qed.

Lemma half_line_only_checks : only_checks half_line.
Proof.
  intros raw c H. inversion H as [? ? ? Hf|g x y _ Hg Hx]; [done|]. simplify_eq.
  cbn in Hg. injection Hg as <-. by destruct (decide _); simplify_eq.
Qed.

Lemma half_line_idempotent : idempotent half_line.
Proof. intros raw c H. by rewrite (half_line_only_checks raw c H) at 1. Qed.

