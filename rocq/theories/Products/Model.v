(** Model of the products of units and of spaces in Source/sequoia/Physics/PhysicalValuesDetails.hpp and
    PhysicalValues.hpp.

    All of this is done by the compiler: types are terms, and [None] is an ill-formed program.  Names
    of types which are no instances of [dual] or [associated_displacement_space] are numbers, in
    alphabetical order of the names.  There is one ring (a field) and one arena. *)
From stdpp Require Import list.
From Coq Require Import ZArith.
From Verif.Base Require Import Outcome.
From Verif.Meta Require Model.

Inductive ty := Base (n : nat) | Ads (t : ty) | Dual (t : ty).
Global Instance ty_eq_dec : EqDecision ty.
Proof. solve_decision. Defined.

(** [std::is_same_v]. *)
Fixpoint same (a b : ty) : bool :=
  match a, b with
  | Base n, Base m => Nat.eqb n m
  | Ads a, Ads b | Dual a, Dual b => same a b
  | _, _ => false
  end.
(** Spaces.hpp L1017-1027; PhysicalValuesDetails.hpp L22-32. *)
Definition is_dual (t : ty) : bool := match t with Dual _ => true | _ => false end.
Definition is_ads (t : ty) : bool := match t with Ads _ => true | _ => false end.
(** Spaces.hpp L1038-1052. *)
Definition dual_of (t : ty) : ty := match t with Dual u => u | _ => Dual t end.

(** ** Partial specializations *)
(** The arguments of a partial specialization, with the template parameters [T] and [U]. *)
Inductive pat := PT | PU | PAds (p : pat) | PDual (p : pat).

Fixpoint match_pat (p : pat) (t : ty) (s : option ty * option ty) : option (option ty * option ty) :=
  match p, t with
  | PT, _ => match s.1 with Some t' => if same t' t then Some s else None | None => Some (Some t, s.2) end
  | PU, _ => match s.2 with Some t' => if same t' t then Some s else None | None => Some (s.1, Some t) end
  | PAds p', Ads t' | PDual p', Dual t' => match_pat p' t' s
  | _, _ => None
  end.

(** A specialization for two types: its arguments, its constraint, and what it is. *)
Record spec (R : Type) := Spec { arg1 : pat; arg2 : pat; constraint : ty -> ty -> bool; result : ty -> ty -> R }.
Arguments Spec {R}. Arguments arg1 {R}. Arguments arg2 {R}. Arguments constraint {R}. Arguments result {R}.

Definition deduce {R} (s : spec R) (a b : ty) : option (ty * ty) :=
  m1 ← match_pat (arg1 s) a (None, None);
  m2 ← match_pat (arg2 s) b m1;
  match m2 with
  | (Some t, Some u) => Some (t, u)
  | (Some t, None) => Some (t, t)
  | (None, Some u) => Some (u, u)
  | (None, None) => None
  end.
Definition matches {R} (a b : ty) (s : spec R) : bool :=
  match deduce s a b with Some (t, u) => constraint s t u | None => false end.

(** One specialization is at least as specialized as another if the arguments of the other can be
    deduced from its own, the parameters of which stand for unique types. *)
Fixpoint unique (p : pat) : ty :=
  match p with PT => Base 0 | PU => Base 1 | PAds p' => Ads (unique p') | PDual p' => Dual (unique p') end.
Definition at_least_as_specialized {R} (s s' : spec R) : bool :=
  match deduce s' (unique (arg1 s)) (unique (arg2 s)) with Some _ => true | None => false end.
Definition more_specialized {R} (s s' : spec R) : bool :=
  at_least_as_specialized s s' && negb (at_least_as_specialized s' s).

(** The specialization chosen, among those numbered: the one which is more specialized than all others
    which match. *)
Inductive choice R := Primary | Chosen (r : R) | Ambiguous.
Arguments Primary {R}. Arguments Chosen {R}. Arguments Ambiguous {R}.

Definition best {R} (specs : list (nat * spec R)) (s : nat * spec R) : bool :=
  forallb (fun s' => Nat.eqb s.1 s'.1 || more_specialized s.2 s'.2) specs.
Definition choose {R} (specs : list (spec R)) (a b : ty) : choice R :=
  let ms := List.filter (fun s => matches a b s.2) (imap pair specs) in
  match ms with
  | [] => Primary
  | _ =>
    match List.find (best ms) ms with
    | Some s => match deduce s.2 a b with Some (t, u) => Chosen (result s.2 t u) | None => Primary end
    | None => Ambiguous
    end
  end.

(** ** type_comparator *)
(** [type_name<T>() < type_name<U>()].  The names begin sequoia::maths::dual and
    sequoia::physics::associated_displacement_space; other comparisons of names of instances are not
    needed, and not modelled. *)
Definition name_less (a b : ty) : option bool :=
  match a, b with
  | Base n, Base m => Some (Nat.ltb n m)
  | Ads _, Dual _ => Some false
  | Dual _, Ads _ => Some true
  | _, _ => None
  end.

(** PhysicalValuesDetails.hpp L59-156. *)
Definition comparators : list (spec (option bool)) :=
  let always := fun _ _ : ty => true in
  let yes := fun _ _ : ty => Some true in
  let no := fun _ _ : ty => Some false in
  [ Spec (PDual PT) PU (fun t u => negb (same t u)) name_less;                                  (* L61-64 *)
    Spec PT (PDual PU) (fun t u => negb (same t u) && negb (is_ads t) && negb (is_ads u)) name_less; (* L66-69 *)
    Spec (PDual PT) (PDual PU) always name_less;                                                (* L71-73 *)
    Spec (PAds PT) PU (fun _ u => negb (is_dual u)) name_less;                                  (* L75-78 *)
    Spec PT (PAds PU) (fun t _ => negb (is_dual t)) name_less;                                  (* L80-83 *)
    Spec (PAds PT) (PDual PU) (fun t u => negb (same (Ads t) u) && negb (is_ads u)) name_less;  (* L85-88 *)
    Spec (PDual PT) (PAds PU) (fun t u => negb (same t (Ads u))) name_less;                     (* L90-93 *)
    Spec (PDual (PAds PT)) PU (fun t u => negb (same (Ads t) u)) name_less;                     (* L95-99 *)
    Spec PT (PDual (PAds PU)) (fun t u => negb (same t (Ads u)) && negb (is_ads t)) name_less;  (* L101-105 *)
    Spec (PAds PT) (PAds PU) always name_less;                                                  (* L107-110 *)
    Spec (PDual (PAds PT)) (PDual (PAds PU)) always name_less;                                  (* L112-115 *)
    Spec PT (PDual PT) always yes;                                                              (* L118-120 *)
    Spec (PDual PT) PT always no;                                                               (* L122-124 *)
    Spec PT (PAds PT) always yes;                                                               (* L126-128 *)
    Spec (PAds PT) PT always no;                                                                (* L130-132 *)
    Spec PT (PDual (PAds PT)) always yes;                                                       (* L134-136 *)
    Spec (PDual (PAds PT)) PT always no;                                                        (* L138-140 *)
    Spec (PAds PT) (PDual PT) always yes;                                                       (* L142-144 *)
    Spec (PDual PT) (PAds PT) always no;                                                        (* L146-148 *)
    Spec (PDual PT) (PDual (PAds PT)) always yes;                                               (* L150-152 *)
    Spec (PDual (PAds PT)) (PDual PT) always no ].                                              (* L154-156 *)

Definition comparator (a b : ty) : option bool :=
  match choose comparators a b with
  | Primary => name_less a b                                    (* TypeAlgorithms.hpp L61-63 *)
  | Chosen r => r
  | Ambiguous => None
  end.

(** ** Sorting and merging with a comparator which may be ill-formed *)
(** As in Meta/Model.v, from TypeAlgorithms.hpp. *)
Section merging.
  Context {A : Type} (comp : A -> A -> option bool).

  (** L74-99. *)
  Fixpoint lower_bound_get (fuel : nat) (ts : list A) (u : A) (lower upper : nat) : option nat :=
    match fuel with
    | O => None
    | S fuel' =>
      if decide (lower = upper) then Some lower
      else
        let partition := (lower + upper) / 2 in
        match ts !! partition with
        | Some t =>
          c ← comp t u;
          if (c : bool) then lower_bound_get fuel' ts u (partition + 1) upper
          else lower_bound_get fuel' ts u lower partition
        | None => None
        end
    end.
  Definition lower_bound (ts : list A) (u : A) : option nat :=
    lower_bound_get (S (length ts)) ts u 0 (length ts).

  (** L268-285. *)
  Definition merge_one (t : A) (us : list A) (i : nat) : option (list A * nat) :=
    dropped ← Meta.Model.drop_types us i;
    lb ← lower_bound dropped t;
    us' ← Meta.Model.insert_type us t (i + lb);
    Some (us', i + lb).
  (** L287-292. *)
  Fixpoint merge_from_position (ts us : list A) (i : nat) : option (list A) :=
    match ts with
    | [] => Some us
    | [t] => r ← merge_one t us i; Some r.1
    | t :: ts' => r ← merge_one t us 0; merge_from_position ts' r.1 (r.2 + 1)
    end.
  (** L234-297. *)
  Definition merge_types (ts us : list A) : option (list A) :=
    match ts, us with
    | _, [] => Some ts
    | [], _ => Some us
    | [t], [u] => c ← comp t u; if (c : bool) then Some [t; u] else Some [u; t]
    | _, _ => merge_from_position ts us 0
    end.
  (** L303-328. *)
  Fixpoint stable_sort_types (fuel : nat) (ts : list A) : option (list A) :=
    match fuel with
    | O => None
    | S fuel' =>
      match ts with
      | [] => Some []
      | [t] => Some [t]
      | _ =>
        let partition := length ts / 2 in
        l ← Meta.Model.keep_types ts partition;
        r ← Meta.Model.drop_types ts partition;
        l' ← stable_sort_types fuel' l;
        r' ← stable_sort_types fuel' r;
        merge_types l' r'
      end
    end.
  Definition stable_sort (ts : list A) : option (list A) := stable_sort_types (S (length ts)) ts.
End merging.

(** ** Counting *)
(** [direct_product<type_counter<Ts, Is>...>]. *)
Definition counters := list (ty * Z).

(** L207-263, [count_and_combine<S, direct_product<type_counter<T, I>, ...>>]: the specializations look
    at [S] and [T]; what they give is a function of [I] and the rest. *)
Definition combiners : list (spec (Z -> counters -> counters)) :=
  let always := fun _ _ : ty => true in
  [ Spec PT PU                                                                                  (* L207-212 *)
      (fun s t => negb (is_dual s) && negb (same s t) && negb (same s (Ads t)))
      (fun s t i rest => (s, 1%Z) :: (t, i) :: rest);
    Spec (PDual PT) PU                                                                          (* L214-220 *)
      (fun s t => negb (same s t) && negb (same s (dual_of t)) && negb (same s (Ads t)) &&
                  negb (same s (dual_of (Ads t))) && negb (same s (Ads (dual_of t))) &&
                  negb (same t (dual_of s)) && negb (same t (Ads s)) &&
                  negb (same t (dual_of (Ads s))) && negb (same t (Ads (dual_of s))))
      (fun s t i rest => (Dual s, 1%Z) :: (t, i) :: rest);
    Spec PT PT always (fun t _ i rest => (t, (i + 1)%Z) :: rest);                               (* L222-226 *)
    Spec (PDual PT) PT always (fun t _ i rest => (t, (i - 1)%Z) :: rest);                       (* L228-232 *)
    Spec (PAds PT) PT always (fun t _ i rest => (Ads t, (i + 1)%Z) :: rest);                    (* L238-242 *)
    Spec (PDual (PAds PT)) PT always (fun t _ i rest => (Ads t, (i - 1)%Z) :: rest);            (* L245-249 *)
    Spec (PDual PT) (PAds PT) always (fun t _ i rest => (Ads t, (i - 1)%Z) :: rest);            (* L252-256 *)
    Spec (PDual (PAds PT)) (PDual PT) always                                                    (* L259-263 *)
      (fun t _ i rest => (Dual (Ads t), (i + 1)%Z) :: rest) ].

Definition combine (acc : counters) (s : ty) : option counters :=
  match acc with
  | [] => Some [(s, 1%Z)]                                                                       (* L179-189 *)
  | (t, i) :: rest =>
    match choose combiners s t with
    | Chosen f => Some (f i rest)
    | _ => None
    end
  end.
(** L166-205. *)
Fixpoint combine_all (acc : counters) (ts : list ty) : option counters :=
  match ts with
  | [] => Some acc
  | t :: ts' => acc' ← combine acc t; combine_all acc' ts'
  end.
Definition count_and_combine (ts : list ty) : option counters := combine_all [] ts.

(** L265-304, [unpack]; [dual<dual<...>>] does not come up, and is not modelled. *)
Definition unpack_one (c : ty * Z) : option (list ty) :=
  if (0 <=? c.2)%Z then Some (replicate (Z.to_nat c.2) c.1)
  else if is_dual c.1 then None
  else Some (replicate (Z.to_nat (- c.2)) (Dual c.1)).
Definition unpack (cs : counters) : option (list ty) := ls ← mapM unpack_one cs; Some (mjoin ls).

(** [Single] is a type which is no instance of [composite_unit] or [composite_space]. *)
Inductive product_ty := Single (t : ty) | Composite (ts : list ty).
Global Instance product_ty_eq_dec : EqDecision product_ty.
Proof. solve_decision. Defined.

(** ** Units *)
Inductive validator := Identity | HalfLine | Other.

Section units.
  (** [no_unit_t], and the validators of the units.  (No unit other than [no_unit_t] derives from it.) *)
  Context (no_unit : nat) (validator_of : nat -> validator).

  (** PhysicalValuesDetails.hpp L306-345, for units. *)
  Definition prunable_unit (c : ty * Z) : bool := (c.2 =? 0)%Z || same c.1 (Base no_unit).

  (** L350-374, [reduce]. *)
  Definition reduce_units (cs : counters) : option (list ty) :=
    match cs with
    | [] => None                                            (* ambiguous: no units, or no spaces *)
    | [(u, i)] =>
      if (i =? 0)%Z then Some [Base no_unit]                                                    (* L357-361 *)
      else if same u (Base no_unit) && (0 <? i)%Z then Some [u]                                 (* L363-368 *)
      else fs ← Meta.Model.filter_by_trait prunable_unit cs; unpack fs
    | _ => fs ← Meta.Model.filter_by_trait prunable_unit cs; unpack fs                          (* L370-374 *)
    end.

  (** PhysicalValues.hpp L47-68: the validator of [dual<T>]; that of a unit like degrees Celsius is [void]. *)
  Definition validator_of_factor (t : ty) : validator :=
    match t with Base n | Dual (Base n) => validator_of n | _ => Other end.
  (** PhysicalValues.hpp L81-97 and L196-213, [reduced_validator]. *)
  Definition reduce_two (a b : validator) : option validator :=
    match a, b with
    | _, Identity | Identity, _ => Some Identity
    | HalfLine, HalfLine => Some HalfLine
    | _, _ => None
    end.
  Fixpoint reduced_validator (vs : list validator) : option validator :=
    match vs with
    | [] => None
    | [v] => Some v
    | v :: vs' => r ← reduced_validator vs'; reduce_two v r
    end.

  (** PhysicalValuesDetails.hpp L428-450, [to_composite_space], for units; [composite_unit]
      (PhysicalValues.hpp L107-112) is ill-formed unless its validators can be reduced. *)
  Definition to_composite_unit (ts : list ty) : option product_ty :=
    match ts with
    | [] => None                                            (* ambiguous: no units, or no spaces *)
    | [t] => Some (Single t)
    | _ => _ ← reduced_validator (validator_of_factor <$> ts); Some (Composite ts)
    end.

  Definition finish_units (sorted : list ty) : option product_ty :=
    cs ← count_and_combine sorted;
    r ← reduce_units cs;
    to_composite_unit (Meta.Model.reverse_types r).

  (** PhysicalValues.hpp L148-170, with PhysicalValuesDetails.hpp L408-426:
      [to_composite_space_t<reduction_t<direct_product<A, B>>>]. *)
  Definition reduce_product (a b : product_ty) : option product_ty :=
    match a, b with
    | Single t, Single u => s ← stable_sort comparator [t; u]; finish_units s
    | Composite ts, Single u => s ← merge_types comparator ts [u]; finish_units s
    | Single t, Composite us => s ← merge_types comparator [t] us; finish_units s
    | Composite ts, Composite us => s ← merge_types comparator ts us; finish_units s
    end.

  (** PhysicalValuesDetails.hpp L461-465, PhysicalValues.hpp L70-74. *)
  Definition dual_of_factor (t : ty) : ty := if same t (Base no_unit) then t else dual_of t.
  Definition dual_of_unit (a : product_ty) : product_ty :=
    match a with Single t => Single (dual_of_factor t) | Composite ts => Composite (dual_of_factor <$> ts) end.

  Definition is_no_unit (a : product_ty) : bool :=
    match a with Single t => same t (Base no_unit) | Composite _ => false end.
  (** PhysicalValues.hpp L367-384. *)
  Definition multiply (a b : product_ty) : option product_ty :=
    if is_no_unit b then Some a
    else if is_no_unit a then Some b
    else reduce_product a b.
  (** PhysicalValues.hpp L386-403. *)
  Definition divide (a b : product_ty) : option product_ty :=
    if is_no_unit b then Some a
    else if is_no_unit a then Some (dual_of_unit b)
    else reduce_product a (dual_of_unit b).
End units.

(** ** Spaces *)
Section spaces.
  (** [euclidean_vector_space] of dimension 1 and [euclidean_half_space], and the other spaces which
      are vector spaces, or half lines. *)
  Context (ev eh : nat) (vec half : nat -> bool).

  (** [free_module]. *)
  Fixpoint free (t : ty) : bool :=
    match t with Base n => Nat.eqb n ev || vec n | Ads _ => true | Dual t' => free t' end.
  (** Spaces.hpp L1059-1067 and L1124-1134. *)
  Fixpoint half_line (t : ty) : bool :=
    match t with Base n => Nat.eqb n eh || half n | Ads _ => false | Dual t' => half_line t' end.
  Definition euclidean (t : ty) : bool :=
    match t with Base n | Dual (Base n) => Nat.eqb n ev || Nat.eqb n eh | _ => false end.
  (** PhysicalValuesDetails.hpp L306-345, for spaces. *)
  Definition prunable (c : ty * Z) : bool := (c.2 =? 0)%Z || euclidean c.1.

  (** L376-406. *)
  Definition reduce_spaces (cs : counters) : option (list ty) :=
    match cs with
    | [] => None                                            (* ambiguous: no units, or no spaces *)
    | _ =>
      let any_not_reducible_free := existsb (fun c => free c.1 && negb (prunable c)) cs in        (* L382 *)
      let any_not_reducible_half := existsb (fun c => half_line c.1 && negb (prunable c)) cs in   (* L383 *)
      let all_not_reducible_or_not_free := forallb (fun c => negb (free c.1) || negb (prunable c)) cs in   (* L384 *)
      let all_not_reducible_or_not_half := forallb (fun c => negb (half_line c.1) || negb (prunable c)) cs in (* L385 *)
      filtered ← Meta.Model.filter_by_trait prunable cs;                                          (* L387 *)
      unpacked ← unpack filtered;                                                                 (* L389 *)
      let root := if existsb (fun c => free c.1) cs then Base ev else Base eh in                  (* L391-398 *)
      merged ← merge_types comparator unpacked [root];                                            (* L404 *)
      Some (if any_not_reducible_free ||
               (all_not_reducible_or_not_free && (any_not_reducible_half || all_not_reducible_or_not_half))
            then unpacked else merged)                                                            (* L400-405 *)
    end.

  (** L428-450, for spaces. *)
  Definition to_composite_space (ts : list ty) : option product_ty :=
    match ts with
    | [] => None                                            (* ambiguous: no units, or no spaces *)
    | [t] => Some (Single t)
    | _ => Some (Composite ts)
    end.

  Definition finish_spaces (sorted : list ty) : option product_ty :=
    cs ← count_and_combine sorted;
    r ← reduce_spaces cs;
    to_composite_space (Meta.Model.reverse_types r).

  (** PhysicalValues.hpp L172-194: note the order at L187. *)
  Definition space_product (a b : product_ty) : option product_ty :=
    match a, b with
    | Single t, Single u => s ← stable_sort comparator [t; u]; finish_spaces s
    | Composite ts, Single u => s ← merge_types comparator ts [u]; finish_spaces s
    | Single t, Composite us => s ← merge_types comparator us [t]; finish_spaces s
    | Composite ts, Composite us => s ← merge_types comparator ts us; finish_spaces s
    end.

  (** PhysicalValuesDetails.hpp L455-459. *)
  Definition dual_of_space (a : product_ty) : product_ty :=
    match a with Single t => Single (dual_of t) | Composite ts => Composite (dual_of <$> ts) end.

  (** PhysicalValues.hpp L281-320; [base_of n] is the member [base_space] of a space: [length_space] for
      [width_space], say, and for most spaces the space itself (as also if there is no such member). *)
  Context (base_of : nat -> nat).
  Definition to_base (t : ty) : ty :=
    match t with
    | Base n => Base (base_of n)
    | Ads (Base n) => Ads (Base (base_of n))                                                    (* L791-801 *)
    | Dual (Base n) => Dual (Base (base_of n))
    | Dual (Ads (Base n)) => Dual (Ads (Base (base_of n)))
    | _ => t
    end.
  Definition to_base_space (a : product_ty) : option product_ty :=
    match a with
    | Single t => Some (Single (to_base t))
    | Composite ts =>                                                                           (* L315-320 *)
      s ← stable_sort comparator (to_base <$> ts);
      cs ← count_and_combine s;
      r ← reduce_spaces cs;
      to_composite_space r
    end.

  (** PhysicalValues.hpp L646-668: the conversion of a value in the space [a] to one in the space [t].
      There is no conversion unless both have the same base space (L649).  The value returned at L658 and
      L663 is one in the base space of [t]; unless this is [t], it has to be converted in its turn.
      The unit, the basis and the origin are not modelled. *)
  Fixpoint lower (fuel : nat) (a t : product_ty) : option (res unit) :=
    base_a ← to_base_space a;
    base_t ← to_base_space t;
    if decide (base_a = base_t) then
      if decide (base_t = t) then Some (Ok tt)
      else match fuel with O => Some NoFuel | S fuel' => lower fuel' base_t t end
    else None.
End spaces.
