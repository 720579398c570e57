(** What is asked of conversions between units. *)
From Coq Require Import ZArith QArith List.
From Verif.Units Require Import Model.
Local Open Scope Q_scope.

(** The number that, in terms of the root unit, denotes what [v] does in terms of [u]. *)
Fixpoint in_root (u : unit_type) (v : Q) : Q :=
  match u with
  | Root _ _ => v
  | Derived w t _ => in_root w ((v - to_q (disp t)) * to_q (den t) / to_q (num t))
  end.
(** The same for a difference of two values. *)
Fixpoint diff_in_root (u : unit_type) (v : Q) : Q :=
  match u with
  | Root _ _ => v
  | Derived w t _ => diff_in_root w (v * to_q (den t) / to_q (num t))
  end.
(** And for a product of units. *)
Fixpoint product_in_root (us : list unit_type) (v : Q) : Q :=
  match us with
  | nil => v
  | u :: us' => product_in_root us' (diff_in_root u v)
  end.

(** The unit, and those it is defined by, have ratios other than 0 and no integral displacement other
    than 0. *)
Fixpoint proper (u : unit_type) : Prop :=
  match u with
  | Root _ _ => True
  | Derived w t _ =>
    ~ to_q (num t) == 0 /\ ~ to_q (den t) == 0 /\
    match disp t with I z => z = 0%Z | F _ => True end /\ proper w
  end.

(** No displacements at all. *)
Fixpoint scaling (u : unit_type) : Prop :=
  match u with Root _ _ => True | Derived w t _ => to_q (disp t) == 0 /\ scaling w end.

(** All ratios are positive. *)
Fixpoint increasing (u : unit_type) : Prop :=
  match u with Root _ _ => True | Derived w t _ => 0 < to_q (num t) / to_q (den t) /\ increasing w end.

(** No validator is replaced. *)
Fixpoint synthesised (u : unit_type) : Prop :=
  match u with Root _ _ => True | Derived w _ r => r = None /\ synthesised w end.

(** The root of the unit does not have an [interval_validator] with two infinite bounds. *)
Definition root_validator (u : unit_type) : validator :=
  match root_unit u with Root _ v => v | Derived _ _ _ => VIdentity end.
