(** What checks of values are for, without reference to how they are put
    together. *)
From stdpp Require Import list.
From Verif.Base Require Import Outcome Order ListLemmas.
From Verif.Checks Require Import Model.

Section spec.
  (** [st c]: the state of a range of class [c], apart from its elements, is
      part of its value.  [heap]: what the addresses hold. *)
  Context (st : nat → bool) (heap : nat → val).

  Fixpoint related (R : list (val → val → Prop)) (l r : list val) : Prop :=
    match R, l, r with
    | [], [], [] => True
    | P :: R', x :: l', y :: r' => P x y ∧ related R' l' r'
    | _, _, _ => False
    end.

  (** Values of a type. *)
  Fixpoint has_type (T : ty) (v : val) : Prop :=
    match T, v with
    | TClass _, VAtom _ => True
    | TRange _ e, VSeq _ l => ∀ x, x ∈ l → has_type e x
    | TTuple ts, VTup l => related (map (λ t x _, has_type t x) ts) l l
    | TVariant ts, VAlt i x => ∃ P, map has_type ts !! i = Some P ∧ P x
    | TOptional t, VSome x => has_type t x
    | TOptional _, VNone => True
    | (TPtr t | TSmart t | TWeak t), VPtr a x => x = heap a ∧ has_type t x
    | (TPtr _ | TSmart _ | TWeak _), VNull => True
    | TFunction, VFun _ => True
    | TAny, (VEmptyAny | VAny _ _) => True
    | _, _ => False
    end.

  (** The values are the same: built in the same way from the same things.
      Pointers are the same if they point to the same object. *)
  Fixpoint same_value (T : ty) (x y : val) : Prop :=
    match T, x, y with
    | TClass _, VAtom n, VAtom n' => n = n'
    | TRange c e, VSeq s l, VSeq s' l' => (st c = true → s = s') ∧ Forall2 (same_value e) l l'
    | TTuple ts, VTup l, VTup l' => related (map same_value ts) l l'
    | TVariant ts, VAlt i v, VAlt i' v' => i = i' ∧ ∃ R, map same_value ts !! i = Some R ∧ R v v'
    | TOptional t, VSome v, VSome v' => same_value t v v'
    | TOptional _, VNone, VNone => True
    | (TPtr _ | TSmart _ | TWeak _), VPtr a _, VPtr a' _ => a = a'
    | (TPtr _ | TSmart _ | TWeak _), VNull, VNull => True
    | TFunction, VFun b, VFun b' => b = b'
    | TAny, VEmptyAny, VEmptyAny => True
    | TAny, VAny t v, VAny t' v' => t = t' ∧ v = v'
    | _, _, _ => False
    end.

  (** The types of the client are honest: operators decide whether values are
      the same (arrays have none of their own), testers for equality report
      something exactly if they are not. *)
  Record honest (E : env) : Prop := {
    ho_eq : ∀ c f s s' b, e_eq E c = Some f → e_array E c = false →
              f s s' b = true ↔ (st c = true → s = s') ∧ (e_values E c = true → b = true);
    ho_class : ∀ c f n n', e_plain E c = Some f → f n n' = true ↔ n = n';
    ho_array : ∀ c, e_array E c = true → e_values E c = false;
    ho_values : ∀ c, is_Some (e_eq E c) → e_array E c = false → e_values E c = true;
    ho_test : ∀ T t x y, e_test E Equality T T = Some t → has_type T x → has_type T y →
                t x y = [] ↔ same_value T x y;
  }.

  (** ... and testers for the other tags do not complain about values which
      are the same. *)
  Definition lenient (E : env) : Prop :=
    ∀ f T t x y, e_test E f T T = Some t → has_type T x → has_type T y → same_value T x y → t x y = [].

  (** The parts of a value, and their types, at a place. *)
  Fixpoint part (p : list step) (T : ty) (v : val) : option (ty * val) :=
    match p with
    | [] => Some (T, v)
    | s :: p' =>
        match s, T, v with
        | SElem i, TRange _ e, VSeq _ l => x ← l !! i; part p' e x
        | STup i, TTuple ts, VTup l => t ← ts !! i; x ← l !! i; part p' t x
        | SAlt, TVariant ts, VAlt i x => t ← ts !! i; part p' t x
        | SSome, TOptional t, VSome x => part p' t x
        | SPointee, (TPtr t | TSmart t | TWeak t), VPtr _ x => part p' t x
        | _, _, _ => None
        end
    end.

  (** The two values differ at the place [p]. *)
  Definition differ_at (T : ty) (x y : val) (p : list step) : Prop :=
    ∃ T' x' y', part p T x = Some (T', x') ∧ part p T y = Some (T', y') ∧ ¬ same_value T' x' y'.
End spec.

(** The check passes: nothing is reported. *)
Definition passes (k : checkfn) (x y : val) : Prop := (k x y).1 = [].

(** The choice of the best check never runs out of possibilities. *)
Definition best_is_found (v : verdict) : Prop :=
  ∃ n, v = dispatch n ∧ ∀ m, accepts_best m n = true → is_Some (best_branch m n).

(** Classes, and ranges of classes. *)
Fixpoint flat (T : ty) : Prop :=
  match T with TClass _ => True | TRange _ e => flat e | _ => False end.

(** If part of the value of a range is not among its elements then there is an
    operator or a tester which looks at it. *)
Fixpoint observed (st : nat → bool) (E : env) (T : ty) : Prop :=
  match T with
  | TRange c e =>
      is_Some (e_test E Equality T T) ∨ ((st c = true → deep E T = true) ∧ observed st E e)
  | TTuple ts | TVariant ts => Forall id (map (observed st E) ts)
  | TOptional t => observed st E t
  | _ => True
  end.

(** Types for which the best check is as good as one for equality: no raw
    pointers, no types without equality, no ranges with state of their own and
    no tester, no classes with other testers than one for equality. *)
Fixpoint ordinary (st : nat → bool) (E : env) (T : ty) : Prop :=
  match T with
  | TClass c => ∀ f, is_Some (e_test E f T T) → f = Equality
  | TRange c e =>
      (∀ f, is_Some (e_test E f T T) → f = Equality) ∧
      (st c = true → is_Some (e_test E Equality T T)) ∧ ordinary st E e
  | TTuple ts | TVariant ts => Forall id (map (ordinary st E) ts)
  | TOptional t => ordinary st E t
  | TPtr _ => False
  | TSmart _ | TWeak _ => True
  | TFunction | TAny => False
  end.
