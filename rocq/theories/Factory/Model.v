(** Model of Source/sequoia/Core/Object/Factory.hpp.

    A factory has products of the types 0, 1, 2, ...; making one of them gives its type (the arguments passed on to the
    constructor of the product are left out). Names are character sequences, compared character by character
    ([std::string]; the characters as unsigned numbers). *)
From Coq Require Import Ascii.
From stdpp Require Import list.
From Verif.Base Require Import Outcome Compare.
Local Open Scope res_scope.

Notation name := (list ascii).

(** Factory.hpp L82-83: a name with the creator of a product. *)
Notation element := (name * nat)%type.

(** Factory.hpp L156-164 *)
Definition make_element (i : nat) (n : name) : res element :=
  match n with [] => Throw LogicError | _ => Ok (n, i) end.

(** Factory.hpp L96: the elements are made from left to right. *)
Fixpoint make_elements (i : nat) (ns : list name) : res (list element) :=
  match ns with
  | [] => Ok []
  | n :: ns' => let? e := make_element i n in let? es := make_elements (S i) ns' in Ok (e :: es)
  end.

(** Factory.hpp L98, [std::ranges::sort] by name. (The order of elements of the same name is not specified: here by type; it
    does not matter, as duplicates are refused.) *)
Definition element_compare : element -> element -> comparison := pair_compare text_compare Nat.compare.

(** [std::ranges::adjacent_find] with the comparison of L100: are there neighbours with the same name? *)
Fixpoint adjacent_equal (es : list element) : bool :=
  match es with
  | e :: (e' :: _) as es' => match text_compare (fst e) (fst e') with Eq => true | _ => adjacent_equal es' end
  | _ => false
  end.

(** Factory.hpp L92-103: the constructor. *)
Definition make_factory (ns : list name) : res (list element) :=
  let? es := make_elements 0 ns in
  let sorted := sort_by element_compare es in
  if adjacent_equal sorted then Throw LogicError else Ok sorted.

(** [std::ranges::lower_bound], by bisection; [first] and [len] are the part still to be searched. *)
Fixpoint lower_bound (fuel : nat) (es : list element) (n : name) (first len : nat) : res nat :=
  match fuel with
  | 0 => NoFuel
  | S fuel' =>
      if decide (len = 0) then Ok first
      else
        let half := len / 2 in
        let? e := rget es (first + half) in
        match text_compare (fst e) n with
        | Lt => lower_bound fuel' es n (first + half + 1) (len - half - 1)
        | _ => lower_bound fuel' es n first half
        end
  end.

(** Factory.hpp L148-154; the end is [length es]. *)
Definition find (es : list element) (n : name) : res nat :=
  let? found := lower_bound (S (length es)) es n 0 (length es) in
  if decide (found = length es) then Ok (length es)
  else
    let? e := rget es found in
    match text_compare (fst e) n with Eq => Ok found | _ => Ok (length es) end.

(** Factory.hpp L105-116 *)
Definition make (es : list element) (n : name) : res nat :=
  let? found := find es n in
  if decide (found = length es) then Throw RuntimeError
  else let? e := rget es found in Ok (snd e).

(** [std::ranges::find_if] for the creator of the given type (L127) *)
Fixpoint find_type (es : list element) (d : nat) : nat :=
  match es with
  | [] => 0
  | e :: es' => if decide (snd e = d) then 0 else S (find_type es' d)
  end.

(** Factory.hpp L118-131; [d] is the type of the default product. The end is dereferenced if the type is not there. *)
Definition make_or (d : nat) (es : list element) (n : name) : res nat :=
  let? found := find es n in
  let found := if decide (found = length es) then find_type es d else found in
  let? e := rget es found in Ok (snd e).

(** Factory.hpp L136-146: the names, in the order of iteration. *)
Definition names (es : list element) : list name := map fst es.
