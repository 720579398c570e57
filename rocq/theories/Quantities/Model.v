(** Model of the products and quotients of physical values in Source/sequoia/Physics/PhysicalValues.hpp.

    Types are terms as in Products/Model.v: there is one field, one arena and one kind of basis; spaces are vector spaces, half
    lines, or affine; the origins are those which go with the spaces.  Values are rational numbers.  Division by zero is undefined. *)
From stdpp Require Import list.
From Coq Require Import ZArith QArith Qcanon.
From Verif.Base Require Import Outcome.
From Verif.Products Require Import Model.

(** The type of a physical value, L464-L498: the value space, the unit, and the validator. *)
Record kind := Kind { space : product_ty; unit_of : product_ty; checked : validator }.

(** What an expression is: no operator is offered; the one which is offered is ill-formed; it is of some type, with an outcome when it
    is evaluated. *)
Inductive outcome := NotOffered | IllFormed | Gives (k : kind) (r : res (list Qc)).

Definition parts (a : product_ty) : list ty := match a with Single t => [t] | Composite ts => ts end.

Section quantities.
  Context (no_unit : nat) (validator_of : nat -> validator).
  Context (ev eh : nat) (vec half : nat -> bool).
  (** The dimensions of the spaces, and what validators do which are neither the identity nor that of half lines *)
  Context (dims : nat -> nat) (other : list Qc -> res (list Qc)).

  (** Spaces.hpp L981-L1012 *)
  Fixpoint dims_of (t : ty) : nat := match t with Base n => dims n | Ads u | Dual u => dims_of u end.
  (** L489-L490; for a composite space the largest dimension, L133 *)
  Definition D (k : kind) : nat := foldr max 0%nat (dims_of <$> parts (space k)).

  (** [vector_space]: that of the space, or of one of the factors (L124-L134) *)
  Definition vector (k : kind) : bool := existsb (free ev vec) (parts (space k)).
  (** [affine_space], Spaces.hpp L528 *)
  Definition affine (k : kind) : bool := vector k || negb (forallb (half_line eh half) (parts (space k))).
  (** [Unit::validator_type], L111 *)
  Definition unit_validator (a : product_ty) : option validator :=
    match a with
    | Single t => Some (validator_of_factor validator_of t)
    | Composite ts => reduced_validator (validator_of_factor validator_of <$> ts)
    end.
  (** L492-L494 *)
  Definition absolute (k : kind) : bool :=
    Nat.eqb (D k) 1 && negb (affine k) && match unit_validator (unit_of k) with Some HalfLine => true | _ => false end.

  (** L500-L505 *)
  Definition composable (k l : kind) : bool := (absolute k || vector k) && (absolute l || vector l).
  (** L507-L511 *)
  Definition multiplicable (k l : kind) : bool := composable k l && (Nat.eqb (D k) 1 || Nat.eqb (D l) 1).
  (** L513-L519 *)
  Definition divisible (k l : kind) : bool := composable k l && Nat.eqb (D l) 1.

  (** [has_consistent_validator], L215-L218, which the class requires (L471-L473) *)
  Definition consistent (k : kind) : bool := negb (affine k) || match checked k with Identity => true | _ => false end.

  (** [physical_value_product], L405-L422 *)
  Definition product_kind (k l : kind) : option kind :=
    s ← space_product ev eh vec half (space k) (space l);
    u ← reduce_product no_unit validator_of (unit_of k) (unit_of l);
    v ← reduce_two (checked k) (checked l);
    let m := Kind s u v in
    if consistent m then Some m else None.

  (** The constructors validate, L523-L530; Spaces.hpp L710-L727. *)
  Definition validate (v : validator) (xs : list Qc) : res (list Qc) :=
    match v with
    | Identity => Ok xs
    | HalfLine => if forallb (fun x => if Qclt_le_dec x 0 then false else true) xs then Ok xs else Throw DomainError
    | Other => other xs
    end.

  (** operator*, L600-L615: [value()] is offered for one dimension only (Spaces.hpp L1443). *)
  Definition times (k : kind) (xs : list Qc) (l : kind) (ys : list Qc) : outcome :=
    if multiplicable k l then
      match product_kind k l with
      | None => IllFormed
      | Some m =>
        if Nat.eqb (D k) 1 && Nat.eqb (D l) 1 then
          match xs, ys with
          | [x], [y] => Gives m (validate (checked m) [(x * y)%Qc])
          | _, _ => Gives m UB
          end
        else IllFormed
      end
    else NotOffered.

  (** The type by which is divided, L624, L643 *)
  Definition dual_kind (l : kind) : kind := Kind (dual_of_space (space l)) (dual_of_unit no_unit (unit_of l)) (checked l).

  (** operator/, L617-L638 *)
  Definition over (k : kind) (xs : list Qc) (l : kind) (ys : list Qc) : outcome :=
    if divisible k l then
      match product_kind k (dual_kind l) with
      | None => IllFormed
      | Some m =>
        match ys with
        | [y] => Gives m (if decide (y = 0%Qc) then UB else validate (checked m) ((fun x => (x / y)%Qc) <$> xs))
        | _ => Gives m UB
        end
      end
    else NotOffered.

  (** operator/ with a number on the left, L640-L646 *)
  Definition under (c : Qc) (l : kind) (ys : list Qc) : outcome :=
    if Nat.eqb (D l) 1 && (absolute l || vector l) then
      match ys with
      | [y] => Gives (dual_kind l) (if decide (y = 0%Qc) then UB else validate (checked l) [(c / y)%Qc])
      | _ => Gives (dual_kind l) UB
      end
    else NotOffered.

  (** *** Expressions made of quantities, products and quotients *)
  Inductive expr := Var (i : nat) | Mul (a b : expr) | Div (a b : expr).

  (** If the operands are not there because of an exception, neither is the result; whether it is well-formed does not depend on this. *)
  Definition apply (f : kind -> list Qc -> kind -> list Qc -> outcome) (a b : outcome) : outcome :=
    match a, b with
    | Gives k (Ok xs), Gives l (Ok ys) => f k xs l ys
    | Gives k r, Gives l r' =>
      match f k [] l [] with
      | Gives m _ => Gives m (match r with Ok _ => r' | _ => r end)
      | o => o
      end
    | Gives _ _, o => o
    | o, _ => o
    end.
  Fixpoint eval (env : list (kind * list Qc)) (e : expr) : outcome :=
    match e with
    | Var i => match env !! i with Some (k, xs) => Gives k (Ok xs) | None => NotOffered end
    | Mul a b => apply times (eval env a) (eval env b)
    | Div a b => apply over (eval env a) (eval env b)
    end.
End quantities.
