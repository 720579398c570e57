(** Model of Source/sequoia/Maths/Sequences/LinearSequence.hpp for integral [T] and [Index],
    with the integer conversions of C++20. *)
From Coq Require Import ZArith Lia.
From Verif.Base Require Import Outcome.
Local Open Scope Z_scope.
Local Open Scope res_scope.

(** An integer type: signedness and width in bits. *)
Record ity := Ity { signed : bool; width : Z }.

(** The values of an integer type. *)
Definition lo (t : ity) : Z := if signed t then - 2 ^ (width t - 1) else 0.
Definition hi (t : ity) : Z := if signed t then 2 ^ (width t - 1) - 1 else 2 ^ width t - 1.
Definition fits (t : ity) (z : Z) : bool := (lo t <=? z) && (z <=? hi t).

(** Conversion to an integer type: the value modulo 2^width in range (C++20). *)
Definition conv (t : ity) (z : Z) : Z := (z - lo t) mod 2 ^ width t + lo t.

(** Integral promotion ([int] has 32 bits) and the usual arithmetic conversions, for types without
    two different ranks of the same width. *)
Definition promote (t : ity) : ity := if width t <? 32 then Ity true 32 else t.
Definition common (t u : ity) : ity :=
  let t := promote t in
  let u := promote u in
  if Bool.eqb (signed t) (signed u) then Ity (signed t) (Z.max (width t) (width u))
  else let s := if signed t then t else u in
       let v := if signed t then u else t in
       if width v <? width s then s else v.

(** The value of an arithmetic expression computed in type [t]: signed overflow is undefined,
    unsigned arithmetic wraps. *)
Definition arith (t : ity) (z : Z) : res Z :=
  if signed t then if fits t z then Ok z else UB else Ok (conv t z).

(** LinearSequence.hpp L29, operator[]: [m_Start + i * m_Step] converted to [T]; also L63, the
    same for static_linear_sequence.  [T] is [t], [Index] is [ix]. *)
Definition linear_at (t ix : ity) (start step i : Z) : res Z :=
  let c := common ix t in
  let? p := arith c (conv c i * conv c step) in
  let c' := common t c in
  let? s := arith c' (conv c' start + conv c' p) in
  Ok (conv t s).
