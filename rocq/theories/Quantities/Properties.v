From stdpp Require Import list.
From Coq Require Import ZArith QArith Qcanon.
From Verif.Base Require Import Outcome ListLemmas.
From Verif.Products Require Import Model Spec.
From Verif.Quantities Require Import Model Spec Proofs ProofsExpr ProofsWitness.

(** C102: products and quotients of physical quantities. *)
Section statements.
  Context (no_unit : nat) (validator_of : nat -> validator) (ev eh : nat) (vec half : nat -> bool).
  Context (dims : nat -> nat) (other : list Qc -> res (list Qc)).
  Local Notation times := (times no_unit validator_of ev eh vec half dims other).
  Local Notation over := (over no_unit validator_of ev eh vec half dims other).
  Local Notation under := (under no_unit validator_of ev eh vec half dims other).
  Local Notation eval := (eval no_unit validator_of ev eh vec half dims other).
  Local Notation legal_unit := (legal_unit no_unit validator_of).
  Local Notation magnitude := (magnitude no_unit validator_of eh half dims).

  Theorem C102_product k x l y m r :
    legal_unit (unit_of k) -> legal_unit (unit_of l) -> suits (checked k) x -> suits (checked l) y -> times k [x] l [y] = Gives m r ->
    r = Ok [(x * y)%Qc] /\ suits (checked m) (x * y)%Qc /\
    forall n, dimension no_unit (unit_of m) n = (dimension no_unit (unit_of k) n + dimension no_unit (unit_of l) n)%Z.
  Proof. exact (times_spec no_unit validator_of ev eh vec half dims other k x l y m r). Qed.

  Theorem C102_commutative k x l y : legal_unit (unit_of k) -> legal_unit (unit_of l) ->
    harmonious (factors (space k) ++ factors (space l)) -> reduced (factors (space k)) -> reduced (factors (space l)) ->
    times k [x] l [y] = times l [y] k [x].
  Proof. exact (times_comm no_unit validator_of ev eh vec half dims other k x l y). Qed.

  Theorem C102_quotient k xs l y m r :
    legal_unit (unit_of k) -> legal_unit (unit_of l) -> Forall (suits (checked k)) xs -> suits (checked l) y -> y <> 0%Qc -> over k xs l [y] = Gives m r ->
    r = Ok ((fun x => x / y)%Qc <$> xs) /\ Forall (suits (checked m)) ((fun x => x / y)%Qc <$> xs) /\
    forall n, dimension no_unit (unit_of m) n = (dimension no_unit (unit_of k) n - dimension no_unit (unit_of l) n)%Z.
  Proof. exact (over_spec no_unit validator_of ev eh vec half dims other k xs l y m r). Qed.

  Theorem C102_reciprocal c l y m r :
    legal_unit (unit_of l) -> suits (checked l) y -> y <> 0%Qc -> checked l <> Other -> under c l [y] = Gives m r ->
    (r = Ok [(c / y)%Qc] /\ suits (checked m) (c / y)%Qc \/ r = Throw DomainError /\ checked l = HalfLine /\ (c < 0)%Qc) /\
    forall n, dimension no_unit (unit_of m) n = (- dimension no_unit (unit_of l) n)%Z.
  Proof. exact (under_spec no_unit validator_of ev eh vec half dims other c l y m r). Qed.

  Theorem C102_reciprocal_throws c l y m r :
    suits (checked l) y -> y <> 0%Qc -> checked l = HalfLine -> (c < 0)%Qc -> under c l [y] = Gives m r -> r = Throw DomainError.
  Proof. exact (under_throws no_unit validator_of ev eh vec half dims other c l y m r). Qed.

  Theorem C102_expression env e : validator_of no_unit = HalfLine -> dims eh = 1%nat -> distinct_spaces ev eh vec half ->
    Forall (fun q => magnitude q.1 q.2) env -> scoped (length env) e ->
    eval env e = IllFormed \/
    exists k, eval env e = Gives k (Ok [worth (fun i => occurs_to i e) env]) /\ magnitude k [worth (fun i => occurs_to i e) env] /\
      forall n, dimension no_unit (unit_of k) n = exponents no_unit (fun i => occurs_to i e) env n.
  Proof. intros H1 H2 H3 H4. exact (expression_value no_unit validator_of ev eh vec half dims other H1 H2 H3 env H4 e). Qed.

  Theorem C102_same env e f k l r r' : validator_of no_unit = HalfLine -> dims eh = 1%nat -> distinct_spaces ev eh vec half ->
    Forall (fun q => magnitude q.1 q.2) env -> scoped (length env) e -> scoped (length env) f -> same_monomial e f ->
    eval env e = Gives k r -> eval env f = Gives l r' -> space k = space l /\ unit_of k = unit_of l /\ r = r'.
  Proof. intros H1 H2 H3 H4. exact (expression_same no_unit validator_of ev eh vec half dims other H1 H2 H3 env H4 e f k l r r'). Qed.

  Theorem C102_formed_partial env e : validator_of no_unit = HalfLine -> dims eh = 1%nat -> distinct_spaces ev eh vec half ->
    Forall (fun q => magnitude q.1 q.2) env -> scoped (length env) e ->
    (forall e', e' ∈ nodes e -> exists n, exponents no_unit (fun i => occurs_to i e') env n <> 0%Z) ->
    exists k r, eval env e = Gives k r.
  Proof. intros H1 H2 H3 H4. exact (expression_formed no_unit validator_of ev eh vec half dims other H1 H2 H3 env H4 e). Qed.

  Theorem C102_units σ env e k x : validator_of no_unit = HalfLine -> dims eh = 1%nat -> distinct_spaces ev eh vec half ->
    (forall n, (0 < σ n)%Qc) -> σ no_unit = 1%Qc -> Forall (fun q => magnitude q.1 q.2) env -> scoped (length env) e ->
    eval env e = Gives k (Ok [x]) -> eval (rescaled σ <$> env) e = Gives k (Ok [(x * scale_of σ (factors (unit_of k)))%Qc]).
  Proof. intros H1 H2 H3 H4 H5 H6 H7. exact (rescale_expression no_unit validator_of ev eh vec half dims other H1 H2 H3 σ H4 H5 env e H6 H7 k x). Qed.

  Theorem C102_ratio k x l y : validator_of no_unit = HalfLine -> dims eh = 1%nat -> distinct_spaces ev eh vec half ->
    magnitude k [x] -> magnitude l [y] -> space k = space l -> unit_of k = unit_of l ->
    ((forall t u, t ∈ factors (unit_of k) -> u ∈ factors (unit_of k) -> name t = name u) ->
       exists v, over k [x] l [y] = Gives (Kind (Single (Base eh)) (Single (Base no_unit)) v) (Ok [(x / y)%Qc])) /\
    (~ (forall t u, t ∈ factors (unit_of k) -> u ∈ factors (unit_of k) -> name t = name u) -> over k [x] l [y] = IllFormed).
  Proof. intros H1 H2 H3. exact (ratio no_unit validator_of ev eh vec half dims other H1 H2 H3 k x l y). Qed.
End statements.
Print Assumptions C102_product.
Print Assumptions C102_commutative.
Print Assumptions C102_quotient.
Print Assumptions C102_reciprocal.
Print Assumptions C102_reciprocal_throws.
Print Assumptions C102_expression.
Print Assumptions C102_same.
Print Assumptions C102_formed_partial.
Print Assumptions C102_units.
Print Assumptions C102_ratio.

(** A product is offered of a vector of more than one dimension and a number with a unit, yet it is ill-formed. *)
Theorem C102_offered_refuted :
  exists no_unit validator_of ev eh vec half dims other k xs l y,
    distinct_spaces ev eh vec half /\ legal_unit no_unit validator_of (unit_of k) /\ legal_unit no_unit validator_of (unit_of l) /\
    multiplicable validator_of ev eh vec half dims k l = true /\ length xs = D dims k /\ D dims l = 1%nat /\
    times no_unit validator_of ev eh vec half dims other k xs l [y] = IllFormed /\
    exists m, over no_unit validator_of ev eh vec half dims other k xs l [y] = Gives m (Ok ((fun x => x / y)%Qc <$> xs)).
Proof. exact offered_ill_formed. Qed.
Print Assumptions C102_offered_refuted.

(** The ratio of two quantities in the same space and with the same unit is not always a number. *)
Theorem C102_ratio_refuted :
  exists no_unit validator_of ev eh vec half dims other k x y,
    validator_of no_unit = HalfLine /\ dims eh = 1%nat /\ distinct_spaces ev eh vec half /\
    magnitude no_unit validator_of eh half dims k [x] /\ magnitude no_unit validator_of eh half dims k [y] /\
    over no_unit validator_of ev eh vec half dims other k [x] k [y] = IllFormed.
Proof. exact speeds_ill_formed. Qed.
Print Assumptions C102_ratio_refuted.

(** ** Examples *)
(** A length divided by a time is a speed; the speed times a mass, divided by the time, is a force. *)
Example C102_force :
  distinct_spaces 0 1 Witness_vec Witness_half /\
  Forall (fun q => magnitude 0 Witness_validator 1 Witness_half Witness_dims q.1 q.2) Witness_env /\
  scoped (length Witness_env) Witness_force /\
  (forall e', e' ∈ nodes Witness_force -> exists n, exponents 0 (fun i => occurs_to i e') Witness_env n <> 0%Z) /\
  same_monomial Witness_force Witness_force' /\
  Witness_eval Witness_env Witness_force = Gives (Kind (Composite [Base 2; Base 3; Dual (Base 4); Dual (Base 4)]) (Composite [Base 1; Base 2; Dual (Base 3); Dual (Base 3)]) HalfLine) (Ok [Q2Qc (15 # 2)]).
Proof. exact force_example. Qed.

Example C102_single :
  legal_unit 0 Witness_validator (unit_of Witness_length) /\ legal_unit 0 Witness_validator (unit_of Witness_time) /\
  (exists m, times 0 Witness_validator 0 1 Witness_vec Witness_half Witness_dims Ok Witness_length [Q2Qc 3] Witness_time [Q2Qc 2] = Gives m (Ok [Q2Qc 6])) /\
  (exists m, over 0 Witness_validator 0 1 Witness_vec Witness_half Witness_dims Ok Witness_length [Q2Qc 3] Witness_time [Q2Qc 2] = Gives m (Ok [Q2Qc (3 # 2)])) /\
  (exists m, under 0 Witness_validator 0 1 Witness_vec Witness_half Witness_dims Ok (Q2Qc (-1)) Witness_time [Q2Qc 2] = Gives m (Throw DomainError)) /\
  (exists m, under 0 Witness_validator 0 1 Witness_vec Witness_half Witness_dims Ok (Q2Qc 1) Witness_time [Q2Qc 2] = Gives m (Ok [Q2Qc (1 # 2)])).
Proof. exact single_example. Qed.

(** In minutes and kilometres. *)
Example C102_scaled :
  let σ n := match n with 1%nat => Q2Qc (1 # 1000) | 3%nat => Q2Qc (1 # 60) | _ => 1%Qc end in
  σ 0%nat = 1%Qc /\ scale_of σ [Base 1; Dual (Base 3); Dual (Base 3)] = Q2Qc (18 # 5) /\
  (rescaled σ <$> Witness_env) = [(Witness_length, [Q2Qc (3 # 200)]); (Witness_mass, [Q2Qc 2]); (Witness_time, [Q2Qc (1 # 30)])].
Proof. exact scaled_example. Qed.
