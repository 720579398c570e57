(** Model of the conversions between physical units in Source/sequoia/Physics/PhysicalValues.hpp,
    together with the validators of Source/sequoia/Maths/Geometry/Spaces.hpp.

    Units are types, and the transformations between them are computed by the compiler: [None] is an
    ill-formed instantiation.  Values of floating point type are rational numbers here, so there is
    no rounding, and neither infinities (other than as bounds of validators) nor NaN.  The overflow of
    integral constants is not modelled (see Ratio/Model.v for [ratio_multiply]). *)
From Coq Require Import ZArith QArith Bool List.
From Verif.Base Require Import Outcome.
Import ListNotations.
Local Open Scope Z_scope.

Definition obind {A B} (m : option A) (f : A -> option B) : option B :=
  match m with Some a => f a | None => None end.
Notation "'let!' x ':=' m 'in' f" := (obind m (fun x => f))
  (at level 200, x pattern, m at level 100, f at level 200, right associativity).

(** ** Arithmetic constants *)
(** A constant of an integral or of a floating point type. *)
Inductive number := I (z : Z) | F (q : Q).
Definition to_q (x : number) : Q := match x with I z => inject_Z z | F q => q end.

(** The usual arithmetic conversions; division of integers truncates, division by 0 is not a constant
    expression. *)
Definition n_mul (x y : number) : number :=
  match x, y with I a, I b => I (a * b) | _, _ => F (to_q x * to_q y) end.
Definition n_add (x y : number) : number :=
  match x, y with I a, I b => I (a + b) | _, _ => F (to_q x + to_q y) end.
Definition n_neg (x : number) : number := match x with I a => I (- a) | F q => F (- q) end.
Definition n_is_zero (x : number) : bool := Qeq_bool (to_q x) 0.
Definition n_div (x y : number) : option number :=
  if n_is_zero y then None
  else match x, y with I a, I b => Some (I (Z.quot a b)) | _, _ => Some (F (to_q x / to_q y)) end.

(** ** Validators *)
(** The bound of an interval. *)
Inductive bound := MInf | Fin (q : Q) | PInf.
Definition bound_lt (a b : bound) : bool :=
  match a, b with
  | MInf, MInf | _, MInf | PInf, _ => false
  | MInf, _ | _, PInf => true
  | Fin p, Fin q => negb (Qle_bool q p)
  end.

(** Spaces.hpp: [std::identity], [half_line_validator] (L710-727), [interval_validator] (L732-766). *)
Inductive validator := VIdentity | VHalfLine | VInterval (lower upper : bound).

(** Whether the validator returns its argument, rather than throwing std::domain_error.
    Spaces.hpp L713-718 and L738-755. *)
Definition accepts (v : validator) (q : Q) : bool :=
  match v with
  | VIdentity => true
  | VHalfLine => Qle_bool 0 q                                               (* L715 *)
  | VInterval lower upper =>
    match lower with Fin l => Qle_bool l q | _ => true end &&               (* L741-746 *)
    match upper with Fin u => Qle_bool q u | _ => true end                  (* L748-752 *)
  end.

(** Spaces.hpp L693-703 and L800-803, [defines_identity_validator_v]. *)
Definition defines_identity (v : validator) : bool :=
  match v with VIdentity | VInterval MInf PInf => true | _ => false end.
(** Spaces.hpp L783-798, [defines_half_line_validator_v]. *)
Definition defines_half_line (v : validator) : bool :=
  match v with VHalfLine => true | VInterval (Fin l) PInf => Qeq_bool l 0 | _ => false end.
(** PhysicalValues.hpp L933-948. *)
Definition scale_invariant (v : validator) : bool := defines_identity v || defines_half_line v.
(** PhysicalValues.hpp L950-960. *)
Definition translation_invariant (v : validator) : bool :=
  match v with VIdentity => true | _ => false end.

(** ** Transformations *)
(** [coordinate_transform<U, dilatation<ratio<num, den>>, translation<disp>>], without [U].  Both
    sequoia's [ratio] and [std::ratio] reduce numerator and denominator; they are kept as given here,
    which makes no difference to any of the quotients below. *)
Record transform := Transform { num : number; den : number; disp : number }.

(** [val * Ratio::num / Ratio::den + Displacement] for a finite value of floating point type. *)
Definition apply (t : transform) (v : Q) : Q := v * to_q (num t) / to_q (den t) + to_q (disp t).

(** L1054-1056 on the bounds of an interval; infinity times zero is no number. *)
Definition apply_bound (t : transform) (b : bound) : option bound :=
  if n_is_zero (den t) then None
  else match b with
  | Fin q => Some (Fin (apply t q))
  | _ =>
    let r := (to_q (num t) / to_q (den t))%Q in
    if Qeq_bool r 0 then None
    else if Qle_bool 0 r then Some b
    else Some (match b with MInf => PInf | _ => MInf end)
  end.

(** L1021-1059, [synthesised_validator]: the validator of a unit defined by [t] with respect to a unit
    with validator [v].  If [v] is [std::identity] and there is a displacement, the first two
    specializations both apply and neither is the more specialized. *)
Definition synthesised_validator (v : validator) (t : transform) : option validator :=
  let first := scale_invariant v && (translation_invariant v || n_is_zero (disp t)) in   (* L1031 *)
  let second := scale_invariant v && negb (n_is_zero (disp t)) in                        (* L1038 *)
  if first && second then None
  else if first then Some v                                                 (* L1034 *)
  else if second then
    match disp t with                                                       (* L1041-1042 *)
    | F d => Some (VInterval (Fin d) PInf)
    | I _ => None                                 (* [interval_validator] wants a floating point type *)
    end
  else
    match v with
    | VInterval lower upper =>                                              (* L1046-1059 *)
      let! l := apply_bound t lower in
      let! u := apply_bound t upper in
      if bound_lt l u then Some (VInterval l u) else None                   (* Spaces.hpp L733 *)
    | _ => None
    end.

(** L1071-1077, with L995-1006 and L1015-1019. *)
Definition inverse (t : transform) : option transform :=
  let! d := n_div (n_mul (disp t) (den t)) (num t) in
  Some (Transform (den t) (num t) (n_neg d)).

(** L1079-1089.  [ratio_multiply] gives a ratio equal to the one here. *)
Definition product (l r : transform) : option transform :=
  let! d := n_div (n_mul (disp r) (num l)) (den l) in
  Some (Transform (n_mul (num l) (num r)) (n_mul (den l) (den r)) (n_add (disp l) d)).

(** ** Units *)
(** A unit in its own right, or one defined by a [coordinate_transform] of another, L1060-1069.  The
    struct deriving from the latter may replace the member [validator_type], as in L1209-1235. *)
Inductive unit_type :=
  | Root (name : nat) (v : validator)
  | Derived (wrt : unit_type) (t : transform) (replaced : option validator).

(** The member [validator_type].  The base class is instantiated whether or not it is replaced. *)
Fixpoint validator_of (u : unit_type) : option validator :=
  match u with
  | Root _ v => Some v
  | Derived w t replaced =>
    let! v := validator_of w in
    let! v' := synthesised_validator v t in
    Some (match replaced with Some v'' => v'' | None => v' end)
  end.

(** L1119-1147, [root_transform_unit_t]. *)
Fixpoint root_unit (u : unit_type) : unit_type :=
  match u with Root _ _ => u | Derived w _ _ => root_unit w end.

(** L1119-1147, [root_transform_t]. *)
Fixpoint root_transform (u : unit_type) : option transform :=
  match u with
  | Root _ _ => Some (Transform (I 1) (I 1) (I 0))                          (* L1122 *)
  | Derived (Root _ _) t _ => Some t                                        (* L1137 *)
  | Derived w t _ => let! r := root_transform w in product t r              (* L1145-1147 *)
  end.

(** L965-971 and L1149-1155, [root_transform] of a [composite_unit]: the general case of [product_t]
    defines a member [tpye], so that the product of three or more is ill-formed. *)
Definition composite_root_transform (us : list unit_type) : option transform :=
  match us with
  | [a; b] => let! ta := root_transform a in let! tb := root_transform b in product ta tb
  | _ => None
  end.

(** L1553, [transform_type]. *)
Definition conversion (from to : option transform) : option transform :=
  let! f := from in
  let! t := to in
  let! i := inverse f in
  product t i.

(** L1555-1580, [coordinate_transformation::operator()]: [free] says that the space of the values is
    a free module (differences of values).  The result is validated by [v] on construction. *)
Definition transformed (free : bool) (t : transform) (v : Q) : Q :=
  v * to_q (num t) / to_q (den t) + (if free then 0 else to_q (disp t)).

Definition construct (v : validator) (q : Q) : res Q :=
  if accepts v q then Ok q else Throw DomainError.

(** L603-620, [convert_to] in dimension one; the outer [option] is whether it compiles.  The validator
    of the result is that of the unit, or [std::identity] for differences (L438). *)
Definition same_root (u1 u2 : unit_type) : bool :=
  match root_unit u1, root_unit u2 with Root n _, Root m _ => Nat.eqb n m | _, _ => false end.
Definition convert_to (free : bool) (from to : unit_type) (v : Q) : option (res Q) :=
  if same_root from to then
    let! t := conversion (root_transform from) (root_transform to) in
    let! vt := validator_of to in
    let! _ := validator_of from in
    Some (construct (if free then VIdentity else vt) (transformed free t v))
  else None.

(** The same for the product of units (all of them with scale invariant validators, L1151, so that the
    validator of the result is not an issue here). *)
Fixpoint same_roots (l k : list unit_type) : bool :=
  match l, k with
  | [], [] => true
  | a :: l', b :: k' => same_root a b && same_roots l' k'
  | _, _ => false
  end.
Definition convert_composite (from to : list unit_type) (v : Q) : option Q :=
  if same_roots from to then
    let! t := conversion (composite_root_transform from) (composite_root_transform to) in
    Some (transformed false t v)
  else None.

(** ** The units of the library *)
Definition scaled (n d : Z) (u : unit_type) : unit_type :=
  Derived u (Transform (I n) (I d) (I 0)) (validator_of u).
Definition micro := scaled 1000000 1.                                       (* L1209-1214 *)
Definition milli := scaled 1000 1.                                          (* L1216-1221 *)
Definition kilo := scaled 1 1000.                                           (* L1223-1228 *)
Definition mega := scaled 1 1000000.                                        (* L1230-1235 *)

(** L1244-1311. *)
Definition ampere := Root 0 VIdentity.
Definition kilogram := Root 1 VHalfLine.
Definition metre := Root 2 VHalfLine.
Definition second := Root 3 VHalfLine.
Definition kelvin := Root 4 VHalfLine.
Definition coulomb := Root 5 VIdentity.
Definition radian := Root 6 VIdentity.
Definition celsius := Derived kelvin (Transform (I 1) (I 1) (F (-27315 # 100))) None.
Definition milligram := micro kilogram.
Definition gram := milli kilogram.
Definition tonne := kilo kilogram.
Definition kilotonne := mega kilogram.

(** L1367-1401; [pi] is std::numbers::pi_v<long double>. *)
Definition degree (pi : Q) := Derived radian (Transform (I 180) (F pi) (I 0)) (Some VIdentity).
Definition gradian (pi : Q) := Derived radian (Transform (I 200) (F pi) (I 0)) (Some VIdentity).
Definition fahrenheit := Derived celsius (Transform (I 9) (I 5) (F 32)) None.
Definition foot := Derived metre (Transform (I 10000) (I 3048) (I 0)) None.
