(** What C51 asks: a value of an integer type is a set of flags, one for each bit. *)
From Coq Require Import ZArith.
From Verif.Linear Require Import Model.
Local Open Scope Z_scope.

Definition is_value (t : ity) (a : Z) : Prop := lo t <= a <= hi t.
Definition has_flag (a : Z) (i : Z) : Prop := Z.testbit a i = true.
Definition is_flag (t : ity) (i : Z) : Prop := 0 <= i < width t.
(** The widths of the C++ integer types. *)
Definition cpp_type (t : ity) : Prop := width t = 8 \/ width t = 16 \/ width t = 32 \/ width t = 64.
