(** Vocabulary for C102. *)
From stdpp Require Import list.
From Coq Require Import ZArith QArith Qcanon.
From Verif.Base Require Import Outcome.
From Verif.Products Require Import Model Spec.
From Verif.Quantities Require Import Model.

(** What a validator is there for *)
Definition suits (v : validator) (x : Qc) : Prop := match v with HalfLine => (0 <= x)%Qc | _ => True end.

(** Whole powers *)
Definition to_the (x : Qc) (z : Z) : Qc := match z with Z0 => 1%Qc | Zpos p => Qcpower x (Pos.to_nat p) | Zneg p => (/ Qcpower x (Pos.to_nat p))%Qc end.

(** The power with which a quantity occurs in an expression *)
Fixpoint occurs_to (i : nat) (e : expr) : Z :=
  match e with
  | Var j => if Nat.eqb i j then 1 else 0
  | Mul a b => occurs_to i a + occurs_to i b
  | Div a b => occurs_to i a - occurs_to i b
  end.
Definition same_monomial (e f : expr) : Prop := forall i, occurs_to i e = occurs_to i f.

(** The number of which one unit consists of in terms of other ones, if [σ n] is that for the unit [n] *)
Fixpoint scale_of (σ : nat -> Qc) (ts : list ty) : Qc :=
  match ts with
  | [] => 1%Qc
  | t :: ts' => (to_the (σ (name t)) (power t) * scale_of σ ts')%Qc
  end.

(** The quantities with given powers, multiplied with each other *)
Fixpoint worth (f : nat -> Z) (env : list (kind * list Qc)) : Qc :=
  match env with
  | [] => 1%Qc
  | (_, xs) :: env' => (foldr Qcmult 1%Qc ((fun x => to_the x (f 0%nat)) <$> xs) * worth (fun i => f (S i)) env')%Qc
  end.
(** The exponent of the unit [n] in this product *)
Fixpoint exponents (no_unit : nat) (f : nat -> Z) (env : list (kind * list Qc)) (n : nat) : Z :=
  match env with
  | [] => 0%Z
  | (k, _) :: env' => (f 0%nat * dimension no_unit (unit_of k) n + exponents no_unit (fun i => f (S i)) env' n)%Z
  end.

(** The quantities of an expression are given. *)
Fixpoint scoped (m : nat) (e : expr) : Prop :=
  match e with Var i => (i < m)%nat | Mul a b | Div a b => scoped m a /\ scoped m b end.
(** The products and quotients of which an expression consists *)
Fixpoint nodes (e : expr) : list expr :=
  match e with Var i => [] | Mul a b | Div a b => e :: nodes a ++ nodes b end.

Section quantities.
  Context (no_unit : nat) (validator_of : nat -> validator).
  Context (ev eh : nat) (vec half : nat -> bool).
  Context (dims : nat -> nat).

  (** A quantity such as a length or a mass, or a product or quotient of such: the space is made of half lines, the unit of units for
      these; it may be checked or not; it is positive. *)
  Record magnitude (k : kind) (xs : list Qc) : Prop := {
    magnitude_space : half_space eh half (space k);
    magnitude_proper : proper_unit eh (space k);
    magnitude_dims : Forall (fun t => dims (name t) = 1%nat) (factors (space k));
    magnitude_unit : proper_unit no_unit (unit_of k);
    magnitude_units : Forall (fun t => validator_of (name t) = HalfLine) (factors (unit_of k));
    magnitude_checked : checked k <> Other;
    magnitude_value : exists x, xs = [x] /\ (0 < x)%Qc
  }.

  (** A unit which is well-formed *)
  Definition legal_unit (a : product_ty) : Prop := proper_unit no_unit a /\ is_Some (unit_validator validator_of a).

  (** In other units *)
  Definition rescaled (σ : nat -> Qc) (q : kind * list Qc) : kind * list Qc := (q.1, (fun x => x * scale_of σ (factors (unit_of q.1)))%Qc <$> q.2).
End quantities.
