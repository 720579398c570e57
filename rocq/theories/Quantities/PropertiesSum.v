From stdpp Require Import list.
From Coq Require Import ZArith QArith Qcanon.
From Verif.Base Require Import Outcome ListLemmas.
From Verif.Products Require Import Model Spec.
From Verif.Quantities Require Import Model ModelSum Spec SpecSum ProofsExpr ProofsSum ProofsWitness ProofsSumWitness.

(** C103: sums of physical quantities, and dimensional homogeneity. *)
Section statements.
  Context (no_unit : nat) (validator_of : nat -> validator) (ev eh : nat) (vec half : nat -> bool).
  Context (dims : nat -> nat) (other : list Qc -> res (list Qc)) (origin : nat -> bool) (base_of : nat -> option nat).
  Local Notation times := (times no_unit validator_of ev eh vec half dims other).
  Local Notation plus := (plus validator_of ev eh vec half dims other origin base_of).
  Local Notation value_of := (value_of no_unit validator_of ev eh vec half dims other origin base_of).
  Local Notation magnitude := (magnitude no_unit validator_of eh half dims).

  Theorem C103_value env e k r : validator_of no_unit = HalfLine -> dims eh = 1%nat -> distinct_spaces ev eh vec half -> base_of eh = None -> bases half dims base_of ->
    Forall (fun q => magnitude q.1 q.2) env -> in_scope (length env) e -> value_of env e = Gives k r ->
    r = Ok [number env e] /\ magnitude k [number env e] /\ homogeneous no_unit env e /\ forall n, dimension no_unit (unit_of k) n = dimensions no_unit env e n.
  Proof. intros H1 H2 H3 H4 H5 H6. exact (term_value no_unit validator_of ev eh vec half dims other origin base_of H1 H2 H3 H4 H5 env H6 e k r). Qed.

  Theorem C103_units σ env e k x : validator_of no_unit = HalfLine -> dims eh = 1%nat -> distinct_spaces ev eh vec half -> base_of eh = None -> bases half dims base_of ->
    (forall n, (0 < σ n)%Qc) -> σ no_unit = 1%Qc -> Forall (fun q => magnitude q.1 q.2) env -> in_scope (length env) e ->
    value_of env e = Gives k (Ok [x]) -> value_of (rescaled σ <$> env) e = Gives k (Ok [(x * scale_of σ (factors (unit_of k)))%Qc]).
  Proof. intros H1 H2 H3 H4 H5. exact (term_rescaled no_unit validator_of ev eh vec half dims other origin base_of H1 H2 H3 H4 H5 σ env e k x). Qed.

  Theorem C103_same_type k x y : validator_of no_unit = HalfLine -> dims eh = 1%nat -> distinct_spaces ev eh vec half -> base_of eh = None -> bases half dims base_of ->
    magnitude k [x] -> magnitude k [y] -> plus k [x] k [y] = Gives k (Ok [(x + y)%Qc]).
  Proof. intros H1 H2 H3 H4 H5. exact (same_type no_unit validator_of ev eh vec half dims other origin base_of H1 H2 H3 H4 H5 k x y). Qed.

  Theorem C103_other_space n m b u v x y : validator_of no_unit = HalfLine -> dims eh = 1%nat -> distinct_spaces ev eh vec half -> base_of eh = None -> bases half dims base_of ->
    magnitude (Kind (Single (Base n)) u v) [x] -> magnitude (Kind (Single (Base m)) u v) [y] -> n <> m -> base_of n = Some b -> base_of m = Some b ->
    plus (Kind (Single (Base n)) u v) [x] (Kind (Single (Base m)) u v) [y] = Gives (Kind (Single (Base b)) u v) (Ok [(x + y)%Qc]).
  Proof. intros H1 H2 H3 H4 H5. exact (other_space no_unit validator_of ev eh vec half dims other origin base_of H1 H2 H3 H4 H5 n m b u v x y). Qed.

  Theorem C103_commutative k x l y : validator_of no_unit = HalfLine -> dims eh = 1%nat -> distinct_spaces ev eh vec half -> base_of eh = None -> bases half dims base_of ->
    magnitude k [x] -> magnitude l [y] -> plus k [x] l [y] = plus l [y] k [x].
  Proof. intros H1 H2 H3 H4 H5. exact (plus_comm no_unit validator_of ev eh vec half dims other origin base_of H1 H2 H3 H4 H5 k x l y). Qed.

  Theorem C103_associative k x l y m z : validator_of no_unit = HalfLine -> dims eh = 1%nat -> distinct_spaces ev eh vec half -> base_of eh = None -> bases half dims base_of ->
    magnitude k [x] -> magnitude l [y] -> magnitude m [z] ->
    apply plus (plus k [x] l [y]) (Gives m (Ok [z])) = apply plus (Gives k (Ok [x])) (plus l [y] m [z]).
  Proof. intros H1 H2 H3 H4 H5. exact (plus_assoc no_unit validator_of ev eh vec half dims other origin base_of H1 H2 H3 H4 H5 k x l y m z). Qed.

  Theorem C103_distributive_partial k x l y z : validator_of no_unit = HalfLine -> dims eh = 1%nat -> distinct_spaces ev eh vec half -> base_of eh = None -> bases half dims base_of ->
    magnitude k [x] -> magnitude l [y] -> magnitude l [z] ->
    apply times (Gives k (Ok [x])) (plus l [y] l [z]) = apply plus (times k [x] l [y]) (times k [x] l [z]).
  Proof. intros H1 H2 H3 H4 H5. exact (distributive no_unit validator_of ev eh vec half dims other origin base_of H1 H2 H3 H4 H5 k x l y z). Qed.
End statements.

Theorem C103_areas_refuted :
  exists no_unit validator_of ev eh vec half dims other origin base_of env a b k l x y,
    validator_of no_unit = HalfLine /\ dims eh = 1%nat /\ distinct_spaces ev eh vec half /\ base_of eh = None /\ bases half dims base_of /\
    Forall (fun q => magnitude no_unit validator_of eh half dims q.1 q.2) env /\
    value_of no_unit validator_of ev eh vec half dims other origin base_of env a = Gives k (Ok [x]) /\
    value_of no_unit validator_of ev eh vec half dims other origin base_of env b = Gives l (Ok [y]) /\
    unit_of k = unit_of l /\ checked k = checked l /\
    Forall2 (fun t u => exists n m, t = Base n /\ u = Base m /\ base_of n = base_of m /\ base_of n <> None) (factors (space k)) (factors (space l)) /\
    value_of no_unit validator_of ev eh vec half dims other origin base_of env (Sum a b) = NotOffered.
Proof. exact areas_not_added. Qed.

Theorem C103_distributive_refuted :
  exists no_unit validator_of ev eh vec half dims other origin base_of env a b c k x,
    validator_of no_unit = HalfLine /\ dims eh = 1%nat /\ distinct_spaces ev eh vec half /\ base_of eh = None /\ bases half dims base_of /\
    Forall (fun q => magnitude no_unit validator_of eh half dims q.1 q.2) env /\
    value_of no_unit validator_of ev eh vec half dims other origin base_of env (Product a (Sum b c)) = Gives k (Ok [x]) /\
    value_of no_unit validator_of ev eh vec half dims other origin base_of env (Sum (Product a b) (Product a c)) = NotOffered.
Proof. exact not_distributive. Qed.

(** *** The hypotheses can be met *)
(** (width + height) / time + (length + width) / time: metres per second *)
Definition Sums_speed : term := Sum (Quotient (Sum (Of 0) (Of 1)) (Of 3)) (Quotient (Sum (Of 2) (Of 0)) (Of 3)).
Example C103_value_example :
  Forall (fun q => magnitude 0 Witness_validator 1 Sums_half Sums_dims q.1 q.2) Sums_env /\ in_scope (length Sums_env) Sums_speed /\
  Sums_value Sums_env Sums_speed = Gives Witness_speed (Ok [Q2Qc (15 # 2)]) /\
  Sums_value Sums_env (Sum (Of 0) (Of 3)) = NotOffered.
Proof.
  split; [exact Sums_magnitudes|]. split; [cbn; lia|]. split; [|by vm_compute].
  assert (Sums_value Sums_env Sums_speed = Gives Witness_speed (Ok [((Q2Qc 3 + Q2Qc 4) / Q2Qc 2 + (Q2Qc 5 + Q2Qc 3) / Q2Qc 2)%Qc])) as -> by (vm_compute; reflexivity).
  do 3 f_equal; by apply Qc_is_canon.
Qed.
Example C103_units_example : (forall n, (0 < (if Nat.eqb n 1 then Q2Qc (1 # 1000) else 1))%Qc) /\ bases Sums_half Sums_dims Sums_base /\ distinct_spaces 0 1 Witness_vec Sums_half.
Proof. split; [intros n; by destruct (Nat.eqb n 1)|]. split; [exact Sums_bases|exact Sums_distinct]. Qed.
Example C103_other_space_example :
  Sums_plus Sums_width [Q2Qc 3] Sums_height [Q2Qc 4] = Gives Witness_length (Ok [(Q2Qc 3 + Q2Qc 4)%Qc]) /\
  Sums_plus Sums_width [Q2Qc 3] Sums_width [Q2Qc 4] = Gives Sums_width (Ok [(Q2Qc 3 + Q2Qc 4)%Qc]).
Proof. split; vm_compute; reflexivity. Qed.
Example C103_associative_example :
  apply Sums_plus (Sums_plus Sums_width [Q2Qc 3] Sums_width [Q2Qc 4]) (Gives Sums_height (Ok [Q2Qc 5])) = Gives Witness_length (Ok [(Q2Qc 3 + Q2Qc 4 + Q2Qc 5)%Qc]).
Proof. vm_compute. reflexivity. Qed.
Example C103_distributive_example :
  exists k x, Sums_value Sums_env (Product (Of 2) (Sum (Of 0) (Of 0))) = Gives k (Ok [x]) /\ Sums_value Sums_env (Sum (Product (Of 2) (Of 0)) (Product (Of 2) (Of 0))) = Gives k (Ok [x]).
Proof.
  exists (Kind (Composite [Base 2; Base 6]) (Composite [Base 1; Base 1]) HalfLine), (Q2Qc 5 * (Q2Qc 3 + Q2Qc 3))%Qc. split; [vm_compute; reflexivity|].
  assert (Sums_value Sums_env (Sum (Product (Of 2) (Of 0)) (Product (Of 2) (Of 0))) = Gives (Kind (Composite [Base 2; Base 6]) (Composite [Base 1; Base 1]) HalfLine) (Ok [(Q2Qc 5 * Q2Qc 3 + Q2Qc 5 * Q2Qc 3)%Qc])) as -> by (vm_compute; reflexivity).
  do 3 f_equal; by apply Qc_is_canon.
Qed.

Print Assumptions C103_value.
Print Assumptions C103_units.
Print Assumptions C103_same_type.
Print Assumptions C103_other_space.
Print Assumptions C103_commutative.
Print Assumptions C103_associative.
Print Assumptions C103_distributive_partial.
Print Assumptions C103_areas_refuted.
Print Assumptions C103_distributive_refuted.
