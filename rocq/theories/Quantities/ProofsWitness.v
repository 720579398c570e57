From stdpp Require Import list sorting.
From Coq Require Import ZArith QArith Qcanon.
From Verif.Base Require Import Outcome ListLemmas.
From Verif.Products Require Import Model Spec Proofs ProofsUnits.
From Verif.Quantities Require Import Model Spec Proofs ProofsExpr.

(** Spaces: 0 and 1 are euclidean, 2 lengths, 3 masses, 4 times, 5 a vector space of dimension 2.  Units: 0 is none, 1 metres,
    2 kilograms, 3 seconds. *)
Definition Witness_vec (n : nat) : bool := Nat.eqb n 5.
Definition Witness_half (n : nat) : bool := existsb (Nat.eqb n) [2; 3; 4]%nat.
Definition Witness_dims (n : nat) : nat := if Nat.eqb n 5 then 2 else 1.
Definition Witness_validator (n : nat) : validator := HalfLine.
Definition Witness_length : kind := Kind (Single (Base 2)) (Single (Base 1)) HalfLine.
Definition Witness_mass : kind := Kind (Single (Base 3)) (Single (Base 2)) HalfLine.
Definition Witness_time : kind := Kind (Single (Base 4)) (Single (Base 3)) HalfLine.
Definition Witness_plane : kind := Kind (Single (Base 5)) (Single (Base 1)) Identity.
Definition Witness_speed : kind := Kind (Composite [Base 2; Dual (Base 4)]) (Composite [Base 1; Dual (Base 3)]) HalfLine.
Definition Witness_env : list (kind * list Qc) := [(Witness_length, [Q2Qc 15]); (Witness_mass, [Q2Qc 2]); (Witness_time, [Q2Qc 2])].
(** (length / time) * mass / time, and mass / time * (length / time) *)
Definition Witness_force : expr := Div (Mul (Div (Var 0) (Var 2)) (Var 1)) (Var 2).
Definition Witness_force' : expr := Mul (Div (Var 1) (Var 2)) (Div (Var 0) (Var 2)).
Definition Witness_eval := eval 0 Witness_validator 0 1 Witness_vec Witness_half Witness_dims Ok.

Lemma Witness_distinct : distinct_spaces 0 1 Witness_vec Witness_half.
Proof.
  split; [done|]. split; [done|]. split; [done|]. intros n. unfold Witness_half, Witness_vec. cbn. destruct (Nat.eqb_spec n 5) as [-> |]; [done|done].
Qed.
Lemma single_reduced t : reduced [t].
Proof. split; [repeat constructor|]. intros a b -> %elem_of_list_singleton -> %elem_of_list_singleton. done. Qed.
Lemma single_magnitude s u x : Witness_half s = true -> s <> 1%nat -> Witness_dims s = 1%nat -> u <> 0%nat -> (0 < x)%Qc ->
  magnitude 0 Witness_validator 1 Witness_half Witness_dims (Kind (Single (Base s)) (Single (Base u)) HalfLine) [x].
Proof.
  intros Hs Hn Hd Hu Hx. split; cbn; try done.
  - split; [constructor; [by right|done]|]. split; [apply single_reduced|done].
  - by right.
  - by constructor.
  - by right.
  - by constructor.
  - by exists x.
Qed.
Lemma speed_reduced n m : (n < m)%nat -> reduced [Base n; Dual (Base m)].
Proof.
  intros H. split.
  - constructor; [repeat constructor|]. constructor; [cbn; lia|constructor].
  - intros a b. rewrite !elem_of_cons, !elem_of_nil. intros [-> |[-> |[]]] [-> |[-> |[]]]; cbn; try done; lia.
Qed.
Lemma speed_magnitude x : (0 < x)%Qc -> magnitude 0 Witness_validator 1 Witness_half Witness_dims Witness_speed [x].
Proof.
  intros Hx. split; cbn; try done.
  - split; [|split; [apply speed_reduced; lia|done]]. constructor; [by right|]. constructor; [by right|done].
  - split; [lia|]. split; [|apply speed_reduced; lia]. constructor; [done|]. by constructor.
  - repeat constructor.
  - split; [lia|]. split; [|apply speed_reduced; lia]. constructor; [done|]. by constructor.
  - repeat constructor.
  - by exists x.
Qed.

Lemma speeds_ill_formed :
  exists no_unit validator_of ev eh vec half dims other k x y,
    validator_of no_unit = HalfLine /\ dims eh = 1%nat /\ distinct_spaces ev eh vec half /\
    magnitude no_unit validator_of eh half dims k [x] /\ magnitude no_unit validator_of eh half dims k [y] /\
    over no_unit validator_of ev eh vec half dims other k [x] k [y] = IllFormed.
Proof.
  exists 0%nat, Witness_validator, 0%nat, 1%nat, Witness_vec, Witness_half, Witness_dims, Ok, Witness_speed, (Q2Qc 1), (Q2Qc 2).
  split; [done|]. split; [done|]. split; [exact Witness_distinct|]. split; [by apply speed_magnitude|]. split; [by apply speed_magnitude|]. by vm_compute.
Qed.

Lemma offered_ill_formed :
  exists no_unit validator_of ev eh vec half dims other k xs l y,
    distinct_spaces ev eh vec half /\ legal_unit no_unit validator_of (unit_of k) /\ legal_unit no_unit validator_of (unit_of l) /\
    multiplicable validator_of ev eh vec half dims k l = true /\ length xs = D dims k /\ D dims l = 1%nat /\
    times no_unit validator_of ev eh vec half dims other k xs l [y] = IllFormed /\
    exists m, over no_unit validator_of ev eh vec half dims other k xs l [y] = Gives m (Ok ((fun x => x / y)%Qc <$> xs)).
Proof.
  exists 0%nat, Witness_validator, 0%nat, 1%nat, Witness_vec, Witness_half, Witness_dims, Ok, Witness_plane, [Q2Qc 6; Q2Qc 4], Witness_mass, (Q2Qc 2).
  split; [exact Witness_distinct|]. split; [split; [by right|by eexists]|]. split; [split; [by right|by eexists]|].
  split; [done|]. split; [done|]. split; [done|]. split; [by vm_compute|]. eexists. vm_compute. reflexivity.
Qed.

Lemma force_example :
  distinct_spaces 0 1 Witness_vec Witness_half /\
  Forall (fun q => magnitude 0 Witness_validator 1 Witness_half Witness_dims q.1 q.2) Witness_env /\
  scoped (length Witness_env) Witness_force /\
  (forall e', e' ∈ nodes Witness_force -> exists n, exponents 0 (fun i => occurs_to i e') Witness_env n <> 0%Z) /\
  same_monomial Witness_force Witness_force' /\
  Witness_eval Witness_env Witness_force = Gives (Kind (Composite [Base 2; Base 3; Dual (Base 4); Dual (Base 4)]) (Composite [Base 1; Base 2; Dual (Base 3); Dual (Base 3)]) HalfLine) (Ok [Q2Qc (15 # 2)]).
Proof.
  split; [exact Witness_distinct|]. split; [|split; [|split; [|split]]].
  - constructor; [by apply single_magnitude|]. constructor; [by apply single_magnitude|]. constructor; [by apply single_magnitude|done].
  - cbn. lia.
  - intros e'. cbn. rewrite !elem_of_cons, elem_of_nil. intros [-> |[-> |[-> |[]]]]; exists 3%nat; by vm_compute.
  - intros i. cbn. destruct (i =? 0)%nat, (i =? 1)%nat, (i =? 2)%nat; lia.
  - vm_compute. reflexivity.
Qed.

Lemma single_example :
  legal_unit 0 Witness_validator (unit_of Witness_length) /\ legal_unit 0 Witness_validator (unit_of Witness_time) /\
  (exists m, times 0 Witness_validator 0 1 Witness_vec Witness_half Witness_dims Ok Witness_length [Q2Qc 3] Witness_time [Q2Qc 2] = Gives m (Ok [Q2Qc 6])) /\
  (exists m, over 0 Witness_validator 0 1 Witness_vec Witness_half Witness_dims Ok Witness_length [Q2Qc 3] Witness_time [Q2Qc 2] = Gives m (Ok [Q2Qc (3 # 2)])) /\
  (exists m, under 0 Witness_validator 0 1 Witness_vec Witness_half Witness_dims Ok (Q2Qc (-1)) Witness_time [Q2Qc 2] = Gives m (Throw DomainError)) /\
  (exists m, under 0 Witness_validator 0 1 Witness_vec Witness_half Witness_dims Ok (Q2Qc 1) Witness_time [Q2Qc 2] = Gives m (Ok [Q2Qc (1 # 2)])).
Proof.
  split; [split; [by right|by eexists]|]. split; [split; [by right|by eexists]|].
  split; [|split; [|split]]; eexists; vm_compute; reflexivity.
Qed.

Lemma scaled_example :
  let σ n := match n with 1%nat => Q2Qc (1 # 1000) | 3%nat => Q2Qc (1 # 60) | _ => 1%Qc end in
  σ 0%nat = 1%Qc /\ scale_of σ [Base 1; Dual (Base 3); Dual (Base 3)] = Q2Qc (18 # 5) /\
  (rescaled σ <$> Witness_env) = [(Witness_length, [Q2Qc (3 # 200)]); (Witness_mass, [Q2Qc 2]); (Witness_time, [Q2Qc (1 # 30)])].
Proof.
  cbv zeta. split; [done|]. split; [by apply Qc_is_canon|]. unfold Witness_env, rescaled. cbn [fmap list_fmap fst snd].
  repeat (f_equal; try (by apply Qc_is_canon)).
Qed.
