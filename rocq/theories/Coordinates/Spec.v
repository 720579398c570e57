(** What arithmetic on coordinates should do, without reference to the way
    operators are chosen or elements are visited. *)
From stdpp Require Import list.
From Verif.Base Require Import Outcome Order ListLemmas.
From Verif.Coordinates Require Import Model.

Section spec.
  Context {V : Type}.

  (** [c] holds at each index [f] of the entries of [a] and [b]. *)
  Definition pointwise (f : V → V → option V) (a b c : list V) : Prop :=
    length a = length b ∧ length c = length a ∧
    ∀ i x y, a !! i = Some x → b !! i = Some y → ∃ z, c !! i = Some z ∧ f x y = Some z.

  (** [c] holds at each index [f] of the entry of [a]. *)
  Definition transformed (f : V → option V) (a c : list V) : Prop :=
    length c = length a ∧ ∀ i x, a !! i = Some x → ∃ z, c !! i = Some z ∧ f x = Some z.

  (** The validator takes [raw] and hands back [c]. *)
  Inductive passes (v : validator V) : list V → list V → Prop :=
    | passes_array f raw c : v_array v = Some f → f raw = Ok c → passes v raw c
    | passes_single g x y : v_array v = None → v_single v = Some g → g x = Ok y → passes v [x] [y].

  (** The validator throws [e] for [raw]. *)
  Inductive refuses (v : validator V) : list V → exn → Prop :=
    | refuses_array f raw e : v_array v = Some f → f raw = Throw e → refuses v raw e
    | refuses_single g x e : v_array v = None → v_single v = Some g → g x = Throw e → refuses v [x] e.

  (** A validator which may be used for [D] values: it has one of the two
      operators, keeps the number of values, always returns or throws, both
      operators agree if it has both, and if it counts as an identity then it
      is one. *)
  Record validator_ok (D : nat) (v : validator V) : Prop := {
    vo_for : validator_for D v;
    vo_length : ∀ f l l', v_array v = Some f → f l = Ok l' → length l' = length l;
    vo_array : ∀ f l, v_array v = Some f → (∃ l', f l = Ok l') ∨ (∃ e, f l = Throw e);
    vo_single : ∀ g x, v_single v = Some g → (∃ y, g x = Ok y) ∨ (∃ e, g x = Throw e);
    vo_agree : ∀ f g x, D = 1 → v_array v = Some f → v_single v = Some g →
                 (∀ y, g x = Ok y ↔ f [x] = Ok [y]) ∧ (∀ e, g x = Throw e ↔ f [x] = Throw e);
    vo_identity : v_identity v = true → v_array v = Some (λ l, Ok l) ∧ v_single v = Some (λ x, Ok x);
  }.

  (** A validator which only checks: what it hands back is what it got. *)
  Definition only_checks (v : validator V) : Prop := ∀ raw c, passes v raw c → c = raw.

  (** A validator which accepts what it has handed back. *)
  Definition idempotent (v : validator V) : Prop := ∀ raw c, passes v raw c → passes v c c.

  (** Laws of the arithmetic, where it is defined.  They hold for integers with
      and without overflow. *)
  Record group_like (ar : arith V) : Prop := {
    gl_diff : ∀ x y z, a_sub ar y x = Some z → a_add ar x z = Some y;
    gl_undo : ∀ x y z, a_add ar x y = Some z → a_sub ar z x = Some y ∧ a_sub ar z y = Some x;
    gl_assoc : ∀ x y z a b, a_add ar x y = Some a → a_add ar y z = Some b → a_add ar a z = a_add ar x b;
    gl_comm : ∀ x y, a_add ar x y = a_add ar y x;
  }.

  Definition distributive (ar : arith V) : Prop :=
    ∀ x y z s a b t, a_add ar x y = Some z → a_mul ar x s = Some a → a_mul ar y s = Some b →
      a_mul ar z s = Some t → a_add ar a b = Some t.

  (** The operands are of dimension [D]. *)
  Definition sized (D : nat) (x : value V) : Prop :=
    match x with
    | VCoord l | VDisp l | VSpan l => length l = D
    | VScalar _ => True
    end.

  (** The values an operator should arrive at, before validation. *)
  Definition combine (ar : arith V) (op : binop) (l r : value V) (raw : list V) : Prop :=
    match op, l, r with
    | Add, (VCoord a | VDisp a), (VCoord b | VDisp b) => pointwise (a_add ar) a b raw
    | Sub, (VCoord a | VDisp a), (VCoord b | VDisp b) => pointwise (a_sub ar) a b raw
    | Mul, (VCoord a | VDisp a), VScalar s | Mul, VScalar s, (VCoord a | VDisp a) =>
        transformed (λ x, a_mul ar x s) a raw
    | Mul, (VCoord a | VDisp a), VSpan s | Mul, VSpan s, (VCoord a | VDisp a) =>
        pointwise (a_mul ar) a s raw
    | Div, (VCoord a | VDisp a), VScalar s => transformed (λ x, a_div ar x s) a raw
    | Div, (VCoord a | VDisp a), VSpan s => pointwise (a_div ar) a s raw
    | _, _, _ => False
    end.

  (** Whether the operand is a point of a space which is not a free module. *)
  Definition is_point (k : kind) (x : value V) : bool :=
    match x with VCoord _ => negb (k_free k) | _ => false end.

  (** The result is a point when exactly one operand is, or when two points are
      added; the difference of two points is a displacement. *)
  Definition gives_point (k : kind) (op : binop) (l r : value V) : bool :=
    match is_point k l, is_point k r with
    | true, true => match op with Sub => false | _ => true end
    | false, false => false
    | _, _ => true
    end.

  (** [x] is a point or a displacement with entries [c]. *)
  Definition holds (point : bool) (x : value V) (c : list V) : Prop :=
    if point then x = VCoord c else x = VDisp c.

  (** The validator in charge of the result. *)
  Definition in_charge (v : validator V) (point : bool) : validator V :=
    if point then v else identity_validator.

  (** [x] can come about by way of constructors which are given values, and of
      the operators.  Displacements, scalars and spans are arbitrary. *)
  Inductive made (D : nat) (k : kind) (ar : arith V) (v : validator V) : value V → Prop :=
    | made_disp l : length l = D → made D k ar v (VDisp l)
    | made_scalar x : made D k ar v (VScalar x)
    | made_by_span l : length l = D → made D k ar v (VSpan l)
    | made_span l c : length l = D → make_span v l = Ok c → made D k ar v (VCoord c)
    | made_pack ts c : 1 < D → make_pack ar v D ts = Some (Ok c) → made D k ar v (VCoord c)
    | made_single x c : D = 1 → make_single v x = Some (Ok c) → made D k ar v (VCoord c)
    | made_op fuel op l r x :
        made D k ar v l → made D k ar v r → eval fuel k ar v op l r = Some (Ok x) → made D k ar v x
    | made_assign fuel op l r o x :
        made D k ar v l → made D k ar v r → eval_assign fuel k ar v op l r = Some (o, x) → made D k ar v x
    | made_neg l x : made D k ar v l → eval_neg k ar v l = Some (Ok x) → made D k ar v x
    | made_pos l : made D k ar v l → made D k ar v (eval_pos l)
    | made_set l i y x : made D k ar v l → set_component k v l i y = Some (Ok x) → made D k ar v x.

  (** The values handed out by the validator are acceptable; for a free module
      everything is. *)
  Definition acceptable (k : kind) (v : validator V) (c : list V) : Prop :=
    k_free k = true ∨ ∃ raw, passes v raw c.
End spec.

(** Which expressions make sense.  A point may be moved by a displacement, and
    two points have a difference; points may be added and scaled if there is a
    distinguished origin; division needs a field. *)
Definition makes_sense (k : kind) (op : binop) (l r : operand) : Prop :=
  match op, l, r with
  | Add, (TCoord | TDisp), TDisp | Add, TDisp, TCoord => True
  | Add, TCoord, TCoord => k_origin k = true
  | Sub, (TCoord | TDisp), TDisp | Sub, TCoord, TCoord => True
  | Sub, TDisp, TCoord => k_free k = true
  | Mul, TCoord, (TScalar | TSpan) | Mul, (TScalar | TSpan), TCoord => k_origin k = true
  | Mul, TDisp, (TScalar | TSpan) | Mul, (TScalar | TSpan), TDisp => True
  | Div, TCoord, (TScalar | TSpan) => k_origin k = true ∧ k_field k = true
  | Div, TDisp, (TScalar | TSpan) => k_field k = true
  | _, _, _ => False
  end.

(** [l op= r] makes sense if [l op r] does and gives something of the type of
    [l]. *)
Definition assign_makes_sense (k : kind) (op : binop) (l r : operand) : Prop :=
  match op, l, r with
  | Add, (TCoord | TDisp), TDisp | Sub, (TCoord | TDisp), TDisp => True
  | Add, TCoord, TCoord => k_origin k = true
  | Add, TDisp, TCoord | Sub, TDisp, TCoord | Sub, TCoord, TCoord => k_free k = true
  | Mul, TCoord, (TScalar | TSpan) => k_origin k = true
  | Mul, TDisp, (TScalar | TSpan) => True
  | Div, TCoord, (TScalar | TSpan) => k_origin k = true ∧ k_field k = true
  | Div, TDisp, (TScalar | TSpan) => k_field k = true
  | _, _, _ => False
  end.

(** A displacement added to a point from the left. *)
Definition left_shift (k : kind) (op : binop) (l r : operand) : Prop :=
  op = Add ∧ l = TDisp ∧ r = TCoord ∧ k_free k = false.

(** The types a program can name for its objects. *)
Definition nameable (t : operand) : Prop := t ≠ TBase.

(** The type of a result: a point when exactly one operand is one, or when two
    points are added; otherwise a displacement. *)
Definition result_type (k : kind) (op : binop) (l r : operand) : operand :=
  let point t := bool_decide (t = TCoord) && negb (k_free k) in
  match point l, point r, op with
  | true, true, Sub | false, false, _ => TDisp
  | _, _, _ => TCoord
  end.
