From stdpp Require Import list sorting.
From Coq Require Import ZArith QArith Qcanon.
From Verif.Base Require Import Outcome ListLemmas.
From Verif.Products Require Import Model Spec Proofs ProofsUnits.
From Verif.Quantities Require Import Model ModelSum Spec SpecSum Proofs ProofsExpr ProofsSum ProofsWitness.

(** As in ProofsWitness.v, with widths (6) and heights (7), whose base are the lengths (2). *)
Definition Sums_half (n : nat) : bool := existsb (Nat.eqb n) [2; 3; 4; 6; 7]%nat.
Definition Sums_dims (n : nat) : nat := 1.
Definition Sums_base (n : nat) : option nat :=
  match n with 2 | 6 | 7 => Some 2 | 3 => Some 3 | _ => None end%nat.
Definition Sums_width : kind := Kind (Single (Base 6)) (Single (Base 1)) HalfLine.
Definition Sums_height : kind := Kind (Single (Base 7)) (Single (Base 1)) HalfLine.
Definition Sums_rectangle : kind := Kind (Composite [Base 6; Base 7]) (Composite [Base 1; Base 1]) HalfLine.
Definition Sums_square : kind := Kind (Composite [Base 2; Base 2]) (Composite [Base 1; Base 1]) HalfLine.
Definition Sums_env : list (kind * list Qc) :=
  [(Sums_width, [Q2Qc 3]); (Sums_height, [Q2Qc 4]); (Witness_length, [Q2Qc 5]); (Witness_time, [Q2Qc 2])].
Definition Sums_value := value_of 0 Witness_validator 0 1 Witness_vec Sums_half Sums_dims Ok (fun _ => false) Sums_base.
Definition Sums_plus := plus Witness_validator 0 1 Witness_vec Sums_half Sums_dims Ok (fun _ => false) Sums_base.

Lemma Sums_distinct : distinct_spaces 0 1 Witness_vec Sums_half.
Proof.
  split; [done|]. split; [done|]. split; [done|]. intros n. unfold Sums_half, Witness_vec. cbn. destruct (Nat.eqb_spec n 5) as [-> |]; [done|done].
Qed.
Lemma Sums_bases : bases Sums_half Sums_dims Sums_base.
Proof. intros n b _. destruct n as [|[|[|[|[|[|[|[|n]]]]]]]]; cbn; try done; intros [= <-]; done. Qed.
Lemma Sums_single s u x : Sums_half s = true -> s <> 1%nat -> u <> 0%nat -> (0 < x)%Qc ->
  magnitude 0 Witness_validator 1 Sums_half Sums_dims (Kind (Single (Base s)) (Single (Base u)) HalfLine) [x].
Proof.
  intros Hs Hn Hu Hx. split; cbn; try done.
  - split; [constructor; [by right|done]|]. split; [apply single_reduced|done].
  - by right.
  - by constructor.
  - by right.
  - by constructor.
  - by exists x.
Qed.
Lemma Sums_magnitudes : Forall (fun q => magnitude 0 Witness_validator 1 Sums_half Sums_dims q.1 q.2) Sums_env.
Proof. repeat (apply Forall_cons_2; [by apply Sums_single|]). by apply Forall_nil_2. Qed.

(** Two kinds of areas *)
Lemma areas_not_added :
  exists no_unit validator_of ev eh vec half dims other origin base_of env a b k l x y,
    validator_of no_unit = HalfLine /\ dims eh = 1%nat /\ distinct_spaces ev eh vec half /\ base_of eh = None /\ bases half dims base_of /\
    Forall (fun q => magnitude no_unit validator_of eh half dims q.1 q.2) env /\
    value_of no_unit validator_of ev eh vec half dims other origin base_of env a = Gives k (Ok [x]) /\
    value_of no_unit validator_of ev eh vec half dims other origin base_of env b = Gives l (Ok [y]) /\
    unit_of k = unit_of l /\ checked k = checked l /\
    Forall2 (fun t u => exists n m, t = Base n /\ u = Base m /\ base_of n = base_of m /\ base_of n <> None) (factors (space k)) (factors (space l)) /\
    value_of no_unit validator_of ev eh vec half dims other origin base_of env (Sum a b) = NotOffered.
Proof.
  exists 0%nat, Witness_validator, 0%nat, 1%nat, Witness_vec, Sums_half, Sums_dims, Ok, (fun _ => false), Sums_base, Sums_env,
    (Product (Of 0) (Of 1)), (Product (Of 2) (Of 2)), Sums_rectangle, Sums_square, (Q2Qc 3 * Q2Qc 4)%Qc, (Q2Qc 5 * Q2Qc 5)%Qc.
  split; [done|]. split; [done|]. split; [exact Sums_distinct|]. split; [done|]. split; [exact Sums_bases|]. split; [exact Sums_magnitudes|].
  split; [vm_compute; reflexivity|]. split; [vm_compute; reflexivity|]. split; [done|]. split; [done|]. split; [|vm_compute; reflexivity].
  constructor; [by exists 6%nat, 2%nat|]. constructor; [by exists 7%nat, 2%nat|constructor].
Qed.
Lemma not_distributive :
  exists no_unit validator_of ev eh vec half dims other origin base_of env a b c k x,
    validator_of no_unit = HalfLine /\ dims eh = 1%nat /\ distinct_spaces ev eh vec half /\ base_of eh = None /\ bases half dims base_of /\
    Forall (fun q => magnitude no_unit validator_of eh half dims q.1 q.2) env /\
    value_of no_unit validator_of ev eh vec half dims other origin base_of env (Product a (Sum b c)) = Gives k (Ok [x]) /\
    value_of no_unit validator_of ev eh vec half dims other origin base_of env (Sum (Product a b) (Product a c)) = NotOffered.
Proof.
  exists 0%nat, Witness_validator, 0%nat, 1%nat, Witness_vec, Sums_half, Sums_dims, Ok, (fun _ => false), Sums_base, Sums_env,
    (Of 2), (Of 0), (Of 1), Sums_square, (Q2Qc 5 * (Q2Qc 3 + Q2Qc 4))%Qc.
  split; [done|]. split; [done|]. split; [exact Sums_distinct|]. split; [done|]. split; [exact Sums_bases|]. split; [exact Sums_magnitudes|].
  split; [vm_compute; reflexivity|]. vm_compute. reflexivity.
Qed.
