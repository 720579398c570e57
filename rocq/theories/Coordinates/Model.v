(** Coordinates: arithmetic on points and displacements, and the operators
    offered for them.

    Models [maths::coordinates_base] and [maths::coordinates] of
    Source/sequoia/Maths/Geometry/Spaces.hpp L1203-1607, together with the
    parts of the validator concepts they rely on (L650-690). *)
From stdpp Require Import list.
From Verif.Base Require Import Outcome Order ListLemmas.
Local Open Scope res_scope.

(** What the operators look at in the space, and in the type of its values.
    - [k_origin]   [has_distinguished_origin] (L1245)
    - [k_free]     the class is its own displacement type: [coordinates] of a
                   free module, L1601-1607
    - [k_field]    [vector_space<free_module_type>]
    - [k_unsigned] [std::is_unsigned_v<value_type>]
    Simplification: the concepts behind the flags (L400-560, L1060-1110) are
    taken as answers. *)
Record kind := Kind {
  k_origin : bool;
  k_free : bool;
  k_field : bool;
  k_unsigned : bool;
}.

(** A free module has a distinguished origin (L1100-1102). *)
Definition kind_ok (k : kind) : Prop := k_free k = true → k_origin k = true.

(** The static types met as operands: the coordinates [Derived], their
    [displacement_coordinates_type], a [value_type], a
    [std::span<const value_type, D>], and a reference to the base class
    [coordinates_base] itself (the parameter of L1280). *)
Inductive operand := TCoord | TDisp | TScalar | TSpan | TBase.

Global Instance operand_eq_dec : EqDecision operand.
Proof. solve_decision. Defined.

Inductive binop := Add | Sub | Mul | Div.

Global Instance binop_eq_dec : EqDecision binop.
Proof. solve_decision. Defined.

(** The operator templates declared as friends, by their parameter lists. *)
Inductive cand :=
  | SubSame    (* L1339-1349 operator-(const Derived&, const Derived&) *)
  | AddDisp    (* L1351-1357 operator+(Derived, const displacement&) *)
  | DispAdd    (* L1359-1365 operator+(const displacement&, Derived) *)
  | AddSame    (* L1367-1375 operator+(Derived, const Derived&) *)
  | SubDisp    (* L1377-1383 operator-(Derived, const displacement&) *)
  | MulScalar  (* L1385-1391 operator*(Derived, value_type) *)
  | ScalarMul  (* L1393-1399 operator*(value_type, Derived) *)
  | MulSpan    (* L1401-1407 operator*(Derived, span) *)
  | SpanMul    (* L1409-1415 operator*(span, Derived) *)
  | DivScalar  (* L1417-1423 operator/(Derived, value_type) *)
  | DivSpan.   (* L1425-1431 operator/(Derived, span) *)

Global Instance cand_eq_dec : EqDecision cand.
Proof. solve_decision. Defined.

(** The declarations with a given operator symbol. *)
Definition declared (op : binop) : list cand :=
  match op with
  | Add => [AddDisp; DispAdd; AddSame]
  | Sub => [SubSame; SubDisp]
  | Mul => [MulScalar; ScalarMul; MulSpan; SpanMul]
  | Div => [DivScalar; DivSpan]
  end.

(** Two names for one type: the coordinates of a free module are their own
    displacements. *)
Definition canon (k : kind) (t : operand) : operand :=
  if k_free k then match t with TCoord => TDisp | t => t end else t.

(** [std::derived_from<Derived, coordinates_base>]: the base class counts as
    derived from itself.  The displacement class derives from its own
    [coordinates_base], whose friends are found by argument dependent lookup. *)
Definition is_class (t : operand) : bool :=
  match t with TCoord | TDisp | TBase => true | _ => false end.

(** The traits of the class [t] belongs to: displacements are coordinates of
    a free module over the same ring. *)
Definition origin_of (k : kind) (t : operand) : bool :=
  match t with TDisp => true | _ => k_origin k end.

(** Deduction of [Derived] from the operands (already [canon]) followed by the
    [requires] clause.  L1280's [const coordinates_base&] deduces [TBase]. *)
Definition viable (k : kind) (c : cand) (l r : operand) : option operand :=
  match c with
  | SubSame =>
      (* L1339-1342 *)
      if bool_decide (l = r) && is_class l && negb (bool_decide (l = TDisp)) then Some l else None
  | AddDisp =>
      (* L1351-1352 *)
      if is_class l && bool_decide (r = TDisp) then Some l else None
  | DispAdd =>
      (* L1359-1360 *)
      if bool_decide (l = TDisp) && is_class r && negb (bool_decide (r = TDisp)) then Some r else None
  | AddSame =>
      (* L1367-1370 *)
      if bool_decide (l = r) && is_class l && negb (bool_decide (l = TDisp)) && origin_of k l then Some l else None
  | SubDisp =>
      (* L1377-1378 *)
      if is_class l && bool_decide (r = TDisp) then Some l else None
  | MulScalar =>
      (* L1385-1386 *)
      if is_class l && bool_decide (r = TScalar) && origin_of k l then Some l else None
  | ScalarMul =>
      (* L1393-1394 *)
      if bool_decide (l = TScalar) && is_class r && origin_of k r then Some r else None
  | MulSpan =>
      (* L1401-1402 *)
      if is_class l && bool_decide (r = TSpan) && origin_of k l then Some l else None
  | SpanMul =>
      (* L1409-1410 *)
      if bool_decide (l = TSpan) && is_class r && origin_of k r then Some r else None
  | DivScalar =>
      (* L1417-1418 *)
      if is_class l && bool_decide (r = TScalar) && k_field k && origin_of k l then Some l else None
  | DivSpan =>
      (* L1425-1426 *)
      if is_class l && bool_decide (r = TSpan) && origin_of k l then Some l else None
  end.

(** The declarations which take part in overload resolution.  None of them is
    better than another: each parameter is matched exactly. *)
Definition candidates (k : kind) (op : binop) (l r : operand) : list (cand * operand) :=
  omap (λ c, (λ d, (c, d)) <$> viable k c (canon k l) (canon k r)) (declared op).

(** [l op r] as overload resolution sees it: exactly one candidate. *)
Definition resolve (k : kind) (op : binop) (l r : operand) : option (cand * operand) :=
  match candidates k op l r with
  | [cd] => Some cd
  | _ => None
  end.

(** The return type of a candidate: L1343 gives a displacement, every other
    one gives [Derived]. *)
Definition returns (c : cand) (d : operand) : operand :=
  match c with SubSame => TDisp | _ => d end.

(** The assignment operators, members with an explicit object parameter. *)
Inductive assign_op :=
  | PlusDisp    (* L1269-1274 *)
  | PlusBase    (* L1276-1283 *)
  | MinusDisp   (* L1285-1290 *)
  | TimesScalar (* L1292-1297 *)
  | TimesSpan   (* L1299-1304 *)
  | OverScalar  (* L1306-1311 *)
  | OverSpan.   (* L1313-1318 *)

Global Instance assign_op_eq_dec : EqDecision assign_op.
Proof. solve_decision. Defined.

(** The assignment operator chosen for [self op= r] where [self] is of type
    [l].  For [+=] both L1269 and L1276 may apply: a displacement operand
    prefers L1269 (exact) to L1276 (derived to base). *)
Definition resolve_assign (k : kind) (op : binop) (l r : operand) : option assign_op :=
  let l := canon k l in
  let r := canon k r in
  match op, r with
  | Add, TDisp => Some PlusDisp
  | Add, TCoord | Add, TBase =>
      (* the last conjunct of L1279 compares the base class with the
         displacement class: never the same *)
      if bool_decide (l = TCoord) && k_origin k then Some PlusBase
      else if bool_decide (l = TDisp) && bool_decide (r = TBase) && k_free k then Some PlusBase
      else None
  | Sub, TDisp => Some MinusDisp
  | Mul, TScalar => if origin_of k l then Some TimesScalar else None
  | Mul, TSpan => if origin_of k l then Some TimesSpan else None
  | Div, TScalar => if k_field k then Some OverScalar else None
  | Div, TSpan => if k_field k then Some OverSpan else None
  | _, _ => None
  end.

(** The body of every assignment operator is [self = (self op p)], with [p]
    the parameter: these are the symbol and the static type of [p]. *)
Definition assign_body (a : assign_op) : binop * operand :=
  match a with
  | PlusDisp => (Add, TDisp)
  | PlusBase => (Add, TBase)
  | MinusDisp => (Sub, TDisp)
  | TimesScalar => (Mul, TScalar)
  | TimesSpan => (Mul, TSpan)
  | OverScalar => (Div, TScalar)
  | OverSpan => (Div, TSpan)
  end.

(** The body compiles: the operator resolves, and what it returns can be
    assigned to [self]. *)
Definition assign_compiles (k : kind) (a : assign_op) (l : operand) : bool :=
  let '(op, r) := assign_body a in
  match resolve k op l r with
  | Some (c, d) => bool_decide (returns c d = canon k l)
  | None => false
  end.

(** Unary minus, L1328-1337: whether it is offered.  Displacements are
    constructible from a span always. *)
Definition offers_neg (k : kind) (t : operand) : bool :=
  origin_of k (canon k t) && negb (k_unsigned k).

Section values.
  Context {V : Type}.

  (** The built-in operations on [value_type].  [None] is undefined behaviour
      (overflow of a signed integer, division of integers by zero). *)
  Record arith := Arith {
    a_zero : V;
    a_add : V → V → option V;
    a_sub : V → V → option V;
    a_mul : V → V → option V;
    a_div : V → V → option V;
    a_neg : V → option V;
  }.

  (** A validator: whether [defines_identity_validator_v] holds, and its
      function call operators for an array (L674-678) and for one value
      (L660-664), as far as they exist. *)
  Record validator := Validator {
    v_identity : bool;
    v_array : option (list V → res (list V));
    v_single : option (V → res V);
  }.

  (** [std::identity], L702-703. *)
  Definition identity_validator : validator := Validator true (Some (λ l, Ok l)) (Some (λ x, Ok x)).

  (** [validator_for], L683-688: what is required of the operators. *)
  Definition validator_for (D : nat) (v : validator) : Prop :=
    (D = 1 ∧ is_Some (v_single v)) ∨ is_Some (v_array v).

  (** [validate], L1555-1569.  The last case does not compile; it is excluded
      by [validator_for]. *)
  Definition validate (v : validator) (l : list V) : res (list V) :=
    match v_array v with
    | Some f => f l
    | None =>
        match v_single v, l with
        | Some g, x :: _ => let? y := g x in Ok [y]
        | _, _ => UB
        end
    end.

  (** [coordinates_base() = default], L1251 with L1553: zeros. *)
  Definition make_default (ar : arith) (D : nat) : list V := replicate D (a_zero ar).

  (** L1253-1255. *)
  Definition make_span (v : validator) (l : list V) : res (list V) := validate v l.

  (** L1257-1261, for [D > 1]: the values given, followed by zeros (aggregate
      initialisation of the array).  Outer [None]: too many values, or no
      operator for arrays: does not compile. *)
  Definition make_pack (ar : arith) (v : validator) (D : nat) (ts : list V) : option (res (list V)) :=
    if decide (length ts ≤ D) then
      match v_array v with
      | Some f => Some (f (ts ++ replicate (D - length ts) (a_zero ar)))
      | None => None
      end
    else None.

  (** L1263-1267, for [D == 1].  The array is initialised from one value. *)
  Definition make_single (v : validator) (x : V) : option (res (list V)) :=
    match v_single v with
    | Some g => Some (let? y := g x in Ok [y])
    | None => None
    end.

  (** The loop over zipped elements, L1522 and L1527: each element of the first
      list is replaced; undefined behaviour stops everything. *)
  Fixpoint zip_each (f : V → V → option V) (l r : list V) : option (list V) :=
    match l, r with
    | x :: l', y :: r' =>
        match f x y with
        | Some z => cons z <$> zip_each f l' r'
        | None => None
        end
    | l, _ => Some l
    end.

  (** L1540 and L1545. *)
  Fixpoint each (f : V → option V) (l : list V) : option (list V) :=
    match l with
    | x :: l' =>
        match f x with
        | Some z => cons z <$> each f l'
        | None => None
        end
    | [] => Some []
    end.

  (** [apply_to_each_element], L1516-1532: what happened and the values of the
      object afterwards.  With an identity validator the object is changed in
      place; otherwise a copy is changed, validated and assigned. *)
  Definition apply_to_each_element (v : validator) (self rhs : list V) (f : V → V → option V) : res unit * list V :=
    match zip_each f self rhs with
    | None => (UB, self)
    | Some tmp =>
        if v_identity v then (Ok tt, tmp)
        else match validate v tmp with
             | Ok l => (Ok tt, l)
             | Throw e => (Throw e, self)
             | UB => (UB, self)
             | NoFuel => (NoFuel, self)
             end
    end.

  (** [for_each_element], L1534-1550. *)
  Definition for_each_element (v : validator) (self : list V) (f : V → option V) : res unit * list V :=
    match each f self with
    | None => (UB, self)
    | Some tmp =>
        if v_identity v then (Ok tt, tmp)
        else match validate v tmp with
             | Ok l => (Ok tt, l)
             | Throw e => (Throw e, self)
             | UB => (UB, self)
             | NoFuel => (NoFuel, self)
             end
    end.

  (** The operators return the modified copy. *)
  Definition give (m : res unit * list V) : res (list V) :=
    match m with
    | (Ok _, l) => Ok l
    | (Throw e, _) => Throw e
    | (UB, _) => UB
    | (NoFuel, _) => NoFuel
    end.

  (** An operand with its value. *)
  Inductive value :=
    | VCoord (l : list V)
    | VDisp (l : list V)
    | VScalar (x : V)
    | VSpan (l : list V).

  Definition type_of (x : value) : operand :=
    match x with
    | VCoord _ => TCoord
    | VDisp _ => TDisp
    | VScalar _ => TScalar
    | VSpan _ => TSpan
    end.

  Definition elements (x : value) : list V :=
    match x with
    | VCoord l | VDisp l | VSpan l => l
    | VScalar x => [x]
    end.

  Definition scalar (ar : arith) (x : value) : V :=
    match x with
    | VScalar x => x
    | _ => a_zero ar
    end.

  (** A value of the class [d]. *)
  Definition of_class (d : operand) (l : list V) : value :=
    match d with TDisp => VDisp l | _ => VCoord l end.

  (** The validator of the class [d]: displacements are coordinates of a free
      module, whose validator is [std::identity] (L1197-1202, L1601-1607). *)
  Definition validator_of (v : validator) (d : operand) : validator :=
    match d with TDisp => identity_validator | _ => v end.

  Definition as_class (d : operand) (m : res (list V)) : res value :=
    let? l := m in Ok (of_class d l).

  (** The result type of the base class never arises: no operand has it. *)
  Definition run_cand (self : binop → value → value → option (res value)) (ar : arith) (v : validator)
      (c : cand) (d : operand) (l r : value) : option (res value) :=
    let vd := validator_of v d in
    match c with
    | SubSame =>
        (* L1345-1347; the displacement is made from the list of differences,
           one for every index *)
        Some (match zip_each (a_sub ar) (elements l) (elements r) with
              | Some diff => let? x := validate identity_validator diff in Ok (VDisp x)
              | None => UB
              end)
    | AddDisp | AddSame =>
        (* L1356, L1374 *)
        Some (as_class d (give (apply_to_each_element vd (elements l) (elements r) (a_add ar))))
    | DispAdd => self Add l r    (* L1364: v + c *)
    | SubDisp =>
        (* L1382 *)
        Some (as_class d (give (apply_to_each_element vd (elements l) (elements r) (a_sub ar))))
    | MulScalar =>
        (* L1390 *)
        Some (as_class d (give (for_each_element vd (elements l) (λ x, a_mul ar x (scalar ar r)))))
    | ScalarMul => self Mul r l  (* L1398: v * u *)
    | MulSpan =>
        (* L1406 *)
        Some (as_class d (give (apply_to_each_element vd (elements l) (elements r) (a_mul ar))))
    | SpanMul => self Mul r l    (* L1414: c * u *)
    | DivScalar =>
        (* L1422 *)
        Some (as_class d (give (for_each_element vd (elements l) (λ x, a_div ar x (scalar ar r)))))
    | DivSpan =>
        (* L1430 *)
        Some (as_class d (give (apply_to_each_element vd (elements l) (elements r) (a_div ar))))
    end.

  (** [l op r].  [None]: does not compile.  The fuel bounds the depth of calls
      from one operator to another. *)
  Fixpoint eval (fuel : nat) (k : kind) (ar : arith) (v : validator) (op : binop) (l r : value) : option (res value) :=
    match fuel with
    | 0 => Some NoFuel
    | S n =>
        match resolve k op (type_of l) (type_of r) with
        | Some (c, d) => run_cand (eval n k ar v) ar v c d l r
        | None => None
        end
    end.

  (** [self op= r]: what happened, and the object afterwards.  [self] is
      assigned only when the operator has returned. *)
  Definition eval_assign (fuel : nat) (k : kind) (ar : arith) (v : validator) (op : binop) (self r : value)
      : option (res unit * value) :=
    match resolve_assign k op (type_of self) (type_of r) with
    | Some a =>
        if assign_compiles k a (type_of self) then
          match eval fuel k ar v op self r with
          | Some (Ok x) => Some (Ok tt, x)
          | Some (Throw e) => Some (Throw e, self)
          | Some UB => Some (UB, self)
          | Some NoFuel => Some (NoFuel, self)
          | None => None
          end
        else None
    | None => None
    end.

  (** Unary plus, L1320-1326. *)
  Definition eval_pos (x : value) : value := x.

  (** Unary minus, L1328-1337: a new object from the negated values. *)
  Definition eval_neg (k : kind) (ar : arith) (v : validator) (x : value) : option (res value) :=
    if is_class (type_of x) && offers_neg k (type_of x) then
      let d := canon k (type_of x) in
      Some (match each (a_neg ar) (elements x) with
            | Some l => as_class d (make_span (validator_of v d) l)
            | None => UB
            end)
    else None.

  (** [x[i] = y], L1458-1459: offered with [has_freely_mutable_components]
      (L1247). *)
  Definition set_component (k : kind) (v : validator) (x : value) (i : nat) (y : V) : option (res value) :=
    let d := canon k (type_of x) in
    if is_class (type_of x) && v_identity (validator_of v d) && origin_of k d then
      Some (if decide (i < length (elements x)) then Ok (of_class d (<[i := y]> (elements x))) else UB)
    else None.
End values.

Arguments arith : clear implicits.
Arguments validator : clear implicits.
Arguments value : clear implicits.
