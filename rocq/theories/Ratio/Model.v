(** Model of Source/sequoia/Maths/Algebra/Ratio.hpp for integral numerators and denominators.

    Everything here happens in the compiler: [None] is an ill-formed instantiation (division by zero,
    signed overflow and the undefined cases of std::gcd are not constant expressions).  A value is an
    integer type and a number; the integer types and conversions are those of Linear/Model.v.  Values
    that end up as [long double] are represented by [RFloat], without a value. *)
From Coq Require Import Bool ZArith.
From Verif.Base Require Import Outcome.
From Verif.Linear Require Import Model.
Local Open Scope Z_scope.

Definition obind {A B} (m : option A) (f : A -> option B) : option B :=
  match m with Some a => f a | None => None end.
Notation "'let!' x ':=' m 'in' f" := (obind m (fun x => f))
  (at level 200, x pattern, m at level 100, f at level 200, right associativity).

Record tv := TV { ty_of : ity; val : Z }.
Inductive rval := RInt (x : tv) | RFloat.

(** [std::intmax_t]. *)
Definition intmax : ity := Ity true 64.

(** [std::common_type_t]: no promotion if the types are the same. *)
Definition ity_eqb (t u : ity) : bool := Bool.eqb (signed t) (signed u) && (width t =? width u).
Definition std_common (t u : ity) : ity := if ity_eqb t u then t else common t u.

(** Built-in arithmetic on constants. *)
Definition const (t : ity) (z : Z) : option tv :=
  match arith t z with Ok z' => Some (TV t z') | _ => None end.
Definition tv_div (a b : tv) : option tv :=
  let c := common (ty_of a) (ty_of b) in
  if conv c (val b) =? 0 then None else const c (Z.quot (conv c (val a)) (conv c (val b))).
Definition tv_mul (a b : tv) : option tv :=
  let c := common (ty_of a) (ty_of b) in const c (conv c (val a) * conv c (val b)).
Definition tv_lt (a b : tv) : bool :=
  let c := common (ty_of a) (ty_of b) in conv c (val a) <? conv c (val b).

(** [std::gcd]: undefined unless both absolute values are values of the common type. *)
Definition tv_gcd (a b : tv) : option tv :=
  let c := std_common (ty_of a) (ty_of b) in
  if fits c (Z.abs (val a)) && fits c (Z.abs (val b)) then Some (TV c (Z.gcd (val a) (val b))) else None.

(** Ratio.hpp L20-30: [ratio<Num, Den>::num] and [::den]. *)
Definition ratio (num den : tv) : option (tv * tv) :=
  let! divisor := tv_gcd num den in                                         (* L27 *)
  let! n := tv_div num divisor in                                           (* L28 *)
  let! d := tv_div den divisor in                                           (* L29 *)
  Some (n, d).

(** Ratio.hpp L81-126, [product<M, N>()] when the common type is as wide as [std::intmax_t], or with
    [relaxed] false.  The first test is on values, the result of L86 is of the common type. *)
Definition product_wide (relaxed : bool) (m n : tv) : option rval :=
  let c := std_common (ty_of m) (ty_of n) in
  if (val m =? 1) && (val n =? 1) then Some (RInt (TV c 1))                 (* L83-89 *)
  else if val m =? 1 then Some (RInt n)                                     (* L90-91 *)
  else if val n =? 1 then Some (RInt m)                                     (* L92-93 *)
  else
    let! q := tv_div (TV c (hi c)) m in                                     (* L97 *)
    if negb relaxed || negb (tv_lt q n) then
      let! p := tv_mul m n in Some (RInt p)                                 (* L100 *)
    else Some RFloat.                                                       (* L116 *)

(** The same for all types: narrower ones are widened once (L106-113). *)
Definition product (relaxed : bool) (m n : tv) : option rval :=
  let c := std_common (ty_of m) (ty_of n) in
  if (val m =? 1) || (val n =? 1) || negb relaxed || (64 <=? width c) then product_wide relaxed m n
  else
    let! q := tv_div (TV c (hi c)) m in                                     (* L97 *)
    if negb (tv_lt q n) then
      let! p := tv_mul m n in Some (RInt p)                                 (* L100 *)
    else product_wide relaxed (TV intmax (conv intmax (val m))) (TV intmax (conv intmax (val n))).

(** The numerator and denominator of [ratio<num, den>] (Ratio.hpp L20-30 and L32-46; the reduction of
    equal floating point values to 1 is not modelled). *)
Definition final_ratio (num den : rval) : option (rval * rval) :=
  match num, den with
  | RInt n, RInt d => let! r := ratio n d in Some (RInt (fst r), RInt (snd r))
  | _, _ => Some (num, den)
  end.

(** Ratio.hpp L66-131, [ratio_multiply]: the members [num] and [den] of the resulting ratio. *)
Definition ratio_multiply (relaxed : bool) (num1 den1 num2 den2 : tv) : option (rval * rval) :=
  let! r1 := ratio num1 den1 in                                             (* L74-75 *)
  let! r2 := ratio num2 den2 in                                             (* L76-77 *)
  let! a := ratio (fst r1) (snd r2) in                                      (* L78 *)
  let! b := ratio (fst r2) (snd r1) in                                      (* L79 *)
  let! n := product relaxed (fst a) (fst b) in                              (* L127 *)
  let! d := product relaxed (snd a) (snd b) in                              (* L128 *)
  final_ratio n d.                                                          (* L130 *)

(** Ratio.hpp L159-161, [ratio_divide]. *)
Definition ratio_divide (relaxed : bool) (num1 den1 num2 den2 : tv) : option (rval * rval) :=
  let! u := ratio num2 den2 in
  ratio_multiply relaxed num1 den1 (snd u) (fst u).
