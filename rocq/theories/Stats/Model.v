(** Model of Source/sequoia/Maths/Statistics/StatisticalAlgorithms.hpp.

    The functions are templates: the value type [T] and the operations they use are parameters here.
    Rounding is not modelled: the theorems are about exact rationals, see DESIGN.md. *)
From Coq Require Import List ZArith.
Import ListNotations.

Record ops (T : Type) := Ops {
  zero : T;                       (* T{} *)
  add : T -> T -> T;
  sub : T -> T -> T;
  mul : T -> T -> T;
  div_count : T -> Z -> T;        (* x / n with n of type std::ptrdiff_t *)
  div_count_half : T -> Z -> T;   (* x / (n - 1.5) with n of type std::ptrdiff_t *)
  sqrt : T -> T }.                (* std::sqrt *)
Arguments zero {T}. Arguments add {T}. Arguments sub {T}. Arguments mul {T}.
Arguments div_count {T}. Arguments div_count_half {T}. Arguments sqrt {T}.

Section stats.
  Context {T : Type} (o : ops T).

  (** [std::ranges::distance]. *)
  Definition dist (l : list T) : Z := Z.of_nat (length l).

  (** L21-33. *)
  Definition mean (l : list T) : option T :=
    if (dist l =? 0)%Z then None
    else Some (div_count o (fold_left (add o) l (zero o)) (dist l)).

  (** L35-54; [m.value()] on an empty optional would throw, which cannot happen after L40. *)
  Definition cummulative_square_diffs (l : list T) : option T * option T :=
    if (dist l =? 0)%Z then (None, None)
    else match mean l with
         | None => (None, None)
         | Some m =>
             (Some (fold_left (fun s x => add o s (mul o (sub o x m) (sub o x m))) l (zero o)), Some m)
         end.

  (** L56-69. *)
  Definition variance (l : list T) : option T * option T :=
    if (dist l =? 0)%Z then (None, None)
    else match cummulative_square_diffs l with
         | (Some sq, Some m) => (Some (div_count o sq (dist l)), Some m)
         | _ => (None, None)
         end.

  (** L71-90. *)
  Definition sample_variance (l : list T) : option T * option T :=
    if (dist l =? 0)%Z then (None, None)
    else if (dist l =? 1)%Z then (None, mean l)
    else match cummulative_square_diffs l with
         | (Some sq, Some m) => (Some (div_count o sq (dist l - 1)), Some m)
         | _ => (None, None)
         end.

  (** L92-105. *)
  Definition standard_deviation (l : list T) : option T * option T :=
    if (dist l =? 0)%Z then (None, None)
    else match variance l with
         | (Some v, Some m) => (Some (sqrt o v), Some m)
         | _ => (None, None)
         end.

  (** L107-132 and L134-140, [sample_standard_deviation] with the default estimator. *)
  Definition sample_standard_deviation (l : list T) : option T * option T :=
    if (dist l =? 0)%Z then (None, None)
    else if (dist l =? 1)%Z then (None, mean l)
    else match cummulative_square_diffs l with
         | (Some sq, Some m) => (Some (sqrt o (div_count_half o sq (dist l))), Some m)
         | _ => (None, None)
         end.
End stats.
