(** Vocabulary for C61 and C62. *)
From stdpp Require Import list sorting.
From Coq Require Import ZArith.
From Verif.Products Require Import Model.

(** The space or unit from which a factor is made, and the power of it which the factor is. *)
Fixpoint name (t : ty) : nat := match t with Base n => n | Ads u | Dual u => name u end.
Definition power (t : ty) : Z := if is_dual t then (-1)%Z else 1%Z.
(** The displacements of a space, or the dual of these. *)
Definition displacement (t : ty) : bool := match t with Ads _ | Dual (Ads _) => true | _ => false end.

(** T, the displacements of T, the dual of T, the dual of the displacements. *)
Definition simple (t : ty) : bool :=
  match t with Base _ | Ads (Base _) | Dual (Base _) | Dual (Ads (Base _)) => true | _ => false end.

Definition factors (a : product_ty) : list ty := match a with Single t => [t] | Composite ts => ts end.

(** The exponent of [n] in a product. *)
Fixpoint exponent (n : nat) (ts : list ty) : Z :=
  match ts with
  | [] => 0%Z
  | t :: ts' => ((if Nat.eqb (name t) n then power t else 0) + exponent n ts')%Z
  end.

(** In order of the names, and each name with one kind of factor only. *)
Definition reduced (ts : list ty) : Prop :=
  StronglySorted (fun a b => name a <= name b) ts /\
  forall a b, a ∈ ts -> b ∈ ts -> name a = name b -> a = b.

(** ** Units *)
Section units.
  Context (no_unit : nat).
  (** A unit other than [no_unit_t], or the dual of one. *)
  Definition proper_factor (t : ty) : Prop :=
    match t with Base n | Dual (Base n) => n <> no_unit | _ => False end.
  (** The units to which products of units lead. *)
  Definition proper_unit (a : product_ty) : Prop :=
    match a with
    | Single t => t = Base no_unit \/ proper_factor t
    | Composite ts => 2 <= length ts /\ Forall proper_factor ts /\ reduced ts
    end.
  (** The dimension: the exponents of all units. *)
  Definition dimension (a : product_ty) (n : nat) : Z :=
    if Nat.eqb n no_unit then 0%Z else exponent n (factors a).
End units.

(** ** Spaces *)
(** Types of different names for which there is no comparator, or a wrong one. *)
Definition clash (a b : ty) : bool :=
  negb (Nat.eqb (name a) (name b)) &&
  match a, b with
  | Ads _, Dual (Ads _) | Dual (Ads _), Ads _ => true
  | Dual (Base _), Dual (Ads _) | Dual (Ads _), Dual (Base _) => true
  | _, _ => false
  end.
Definition displaced (n : nat) (ts : list ty) : Prop :=
  exists t, t ∈ ts /\ name t = n /\ displacement t = true.
(** No such factors, neither among the given ones nor among those left over: displacements in the
    denominator go with displacements in the denominator, and spaces in the numerator. *)
Definition harmonious (ts : list ty) : Prop :=
  (forall t, t ∈ ts -> simple t = true) /\
  (forall a b, a ∈ ts -> b ∈ ts -> clash a b = false) /\
  (forall n m, n <> m -> displaced n ts -> (exponent n ts < 0)%Z ->
     ((exponent m ts < 0)%Z -> displaced m ts) /\ ((0 < exponent m ts)%Z -> ~ displaced m ts)).

Section spaces.
  Context (ev eh : nat) (vec half : nat -> bool).
  (** The half lines, vector spaces and others are different spaces. *)
  Definition distinct_spaces : Prop :=
    ev <> eh /\ vec eh = false /\ half ev = false /\ forall n, half n = true -> vec n = false.
  Definition vector_space (a : product_ty) : Prop := exists t, t ∈ factors a /\ free ev vec t = true.

  (** Products of half lines only. *)
  Definition half_factor (t : ty) : Prop :=
    match t with Base n | Dual (Base n) => n = eh \/ half n = true | _ => False end.
  Definition half_space (a : product_ty) : Prop :=
    Forall half_factor (factors a) /\ reduced (factors a) /\ factors a <> [].
End spaces.
