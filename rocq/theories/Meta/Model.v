(** Model of Source/sequoia/Core/Meta/{TypeAlgorithms, Sequences, TypeList}.hpp.

    A type list [TT<Ts...>] is a list over a type [A] of types; an [std::index_sequence] is a list of
    nat.  Metafunctions are evaluated by the compiler: [None] stands for an ill-formed instantiation.
    [lower_bound] recurses on a shrinking interval; its recursion is driven by a bound, and [None] is
    also what running out of it would give (shown not to happen). *)
From stdpp Require Import list.
From Verif.Base Require Import Outcome.

(** ** Sequences.hpp *)
(** L29-45, [concat_sequences]; the pattern peels one sequence at a time. *)
Fixpoint concat_sequences (acc : list nat) (seqs : list (list nat)) : list nat :=
  match seqs with
  | [] => acc
  | s :: seqs' => concat_sequences (acc ++ s) seqs'
  end.

(** L51-70, [impl::aggregate]; [excluded t] says that [TypeToType<t>::type] is [Excluded]. *)
Fixpoint aggregate {A} (excluded : A -> bool) (m : list nat) (total : nat) (ts : list A) : list nat :=
  match ts with
  | [] => m
  | t :: ts' =>
    let add := if excluded t then [] else [total - length ts' - 1] in       (* L64 *)
    aggregate excluded (concat_sequences m [add]) total ts'
  end.

(** L77-84. *)
Definition make_filtered_sequence {A} (excluded : A -> bool) (ts : list A) : list nat :=
  aggregate excluded [] (length ts) ts.

(** L87-102. *)
Definition rotate_sequence (s : list nat) : list nat :=
  match s with
  | [] => []
  | i :: is => is ++ [i]
  end.

(** L107-129. *)
Fixpoint reverse_sequence (s : list nat) : list nat :=
  match s with
  | [] => []
  | [i] => [i]
  | i :: is => concat_sequences (reverse_sequence is) [[i]]
  end.

(** L133-143. *)
Definition shift_sequence (s : list nat) (n : nat) : list nat := (fun i => n + i) <$> s.

(** L149-166. *)
Fixpoint partial_sum_impl (i : nat) (is remaining : list nat) : list nat :=
  match remaining with
  | [] => i :: is
  | next :: remaining' => partial_sum_impl (i + next) (i :: is) remaining'
  end.
(** L168-183. *)
Definition sequence_partial_sum (s : list nat) : list nat :=
  match s with
  | [] => []
  | i :: is => reverse_sequence (partial_sum_impl i [] is)
  end.

(** [std::make_index_sequence<n>]. *)
Definition make_index_sequence (n : nat) : list nat := seq 0 n.

(** ** TypeAlgorithms.hpp *)
Section types.
  Context {A : Type}.
  Implicit Types ts us : list A.

  (** [std::tuple_element_t<Is, std::tuple<Ts...>>...]: ill-formed if out of range. *)
  Definition elements ts (is : list nat) : option (list A) := mapM (fun i => ts !! i) is.

  (** L74-99, [lower_bound]; [comp] is [Compare]. *)
  Fixpoint lower_bound_get (comp : A -> A -> bool) (fuel : nat) ts (u : A) (lower upper : nat) : option nat :=
    match fuel with
    | O => None
    | S fuel' =>
      if decide (lower = upper) then Some lower                             (* L86-87 *)
      else
        let partition := (lower + upper) / 2 in                             (* L90 *)
        match ts !! partition with
        | Some t =>
          if comp t u then lower_bound_get comp fuel' ts u (partition + 1) upper
          else lower_bound_get comp fuel' ts u lower partition
        | None => None
        end
    end.
  Definition lower_bound (comp : A -> A -> bool) ts (u : A) : option nat :=
    lower_bound_get comp (S (length ts)) ts u 0 (length ts).

  (** L105-116. *)
  Definition filter_types ts (is : list nat) : option (list A) := elements ts is.
  (** L118-126: [excluded t] says that [Trait<t>::type] is [std::false_type]. *)
  Definition filter_by_trait (excluded : A -> bool) ts : option (list A) :=
    filter_types ts (make_filtered_sequence excluded ts).

  (** L132-147. *)
  Definition drop_types ts (n : nat) : option (list A) :=
    if decide (length ts <= n) then Some []
    else filter_types ts (shift_sequence (make_index_sequence (length ts - n)) n).

  (** L153-168. *)
  Definition keep_types ts (n : nat) : option (list A) :=
    if decide (length ts <= n) then Some ts
    else filter_types ts (make_index_sequence n).

  (** L174-207; [I <= sizeof...(Us)] is required (L197). *)
  Definition insert_type us (t : A) (i : nat) : option (list A) :=
    match us, i with
    | [], 0 => Some [t]                                                     (* L180-184 *)
    | _, _ =>
      if decide (i <= length us) then
        pre ← elements us (make_index_sequence i);
        post ← elements us (shift_sequence (make_index_sequence (length us - i)) i);
        Some (pre ++ t :: post)
      else None
    end.

  (** L213-230; for [I >= sizeof...(Ts)] the size of the second sequence wraps round, or the
      sequence has an index out of range: ill-formed. *)
  Definition erase_type ts (i : nat) : option (list A) :=
    match ts, i with
    | _ :: ts', 0 => Some ts'                                               (* L219-223 *)
    | _, _ =>
      if decide (i < length ts) then
        filter_types ts (concat_sequences (make_index_sequence i)
          [shift_sequence (make_index_sequence (length ts - i - 1)) (i + 1)])
      else None
    end.

  (** L268-285, [merge_from_position<TT<T>, TT<Us...>, I>]: the new list and [Pos]. *)
  Definition merge_one (comp : A -> A -> bool) (t : A) us (i : nat) : option (list A * nat) :=
    dropped ← drop_types us i;
    lb ← lower_bound comp dropped t;
    us' ← insert_type us t (i + lb);
    Some (us', i + lb).

  (** L287-292, [merge_from_position<TT<T, Ts...>, TT<Us...>, I>]; note the 0 at L290. *)
  Fixpoint merge_from_position (comp : A -> A -> bool) ts us (i : nat) : option (list A) :=
    match ts with
    | [] => Some us
    | [t] => r ← merge_one comp t us i; Some r.1
    | t :: ts' => r ← merge_one comp t us 0; merge_from_position comp ts' r.1 (r.2 + 1)
    end.

  (** L234-297, [merge]; the specialisation for two singletons (L252-263) is preferred to the
      general one (L294-297). *)
  Definition merge_types (comp : A -> A -> bool) ts us : option (list A) :=
    match ts, us with
    | _, [] => Some ts                                                      (* L240-244 *)
    | [], _ => Some us                                                      (* L246-251 *)
    | [t], [u] => if comp t u then Some [t; u] else Some [u; t]             (* L253-264 *)
    | _, _ => merge_from_position comp ts us 0
    end.

  (** L303-328, [stable_sort]; the recursion halves the list. *)
  Fixpoint stable_sort_types (comp : A -> A -> bool) (fuel : nat) ts : option (list A) :=
    match fuel with
    | O => None
    | S fuel' =>
      match ts with
      | [] => Some []
      | [t] => Some [t]
      | _ =>
        let partition := length ts / 2 in
        l ← keep_types ts partition;
        r ← drop_types ts partition;
        l' ← stable_sort_types comp fuel' l;
        r' ← stable_sort_types comp fuel' r;
        merge_types comp l' r'
      end
    end.
  Definition stable_sort (comp : A -> A -> bool) ts : option (list A) :=
    stable_sort_types comp (S (length ts)) ts.

  (** L352-366, [find_if]; [find] (L332-346) is the instance [std::is_same]. *)
  Fixpoint find_if (p : A -> bool) ts : nat :=
    match ts with
    | [] => 0
    | t :: ts' => if p t then 0 else 1 + find_if p ts'
    end.

  (** L372-381; [same] is [std::same_as]. *)
  Definition contains (same : A -> A -> bool) ts (u : A) : bool := existsb (same u) ts.

  (** L409-417. *)
  Definition concat_types ts us : list A := ts ++ us.

  (** L422-443. *)
  Fixpoint reverse_types ts : list A :=
    match ts with
    | [] => []
    | [t] => [t]
    | t :: ts' => concat_types (reverse_types ts') [t]
    end.
End types.

(** ** TypeList.hpp *)
(** A type is a [type_list] or something else; needed because the first argument of
    [faithful_type_list] is matched against [type_list<Ts...>]. *)
Inductive ty := TBase (n : nat) | TList (l : list ty).

(** [std::is_same_v]. *)
Fixpoint ty_eqb (a b : ty) : bool :=
  match a, b with
  | TBase n, TBase m => Nat.eqb n m
  | TList l, TList k =>
    (fix go (l k : list ty) : bool :=
       match l, k with
       | [], [] => true
       | x :: l', y :: k' => ty_eqb x y && go l' k'
       | _, _ => false
       end) l k
  | _, _ => false
  end.

(** TypeList.hpp L69-80: two arguments, the first a type_list. *)
Definition faithful_add (ts : list ty) (t : ty) : list ty :=
  if existsb (ty_eqb t) ts then ts else ts ++ [t].
(** TypeList.hpp L82-86: three or more arguments, the first a type_list. *)
Fixpoint faithful_all (ts : list ty) (us : list ty) : list ty :=
  match us with
  | [] => ts
  | u :: us' => faithful_all (faithful_add ts u) us'
  end.
(** TypeList.hpp L51-92. *)
Definition faithful_type_list (args : list ty) : list ty :=
  match args with
  | [] => []                                                                (* L57-61 *)
  | [t] => [t]                                                              (* L63-67 *)
  | TList ts :: us => faithful_all ts us                                    (* L69-86 *)
  | t :: us => faithful_all [t] us                                          (* L88-92 *)
  end.

(** TypeList.hpp L101-124. *)
Fixpoint type_list_union (acc : list ty) (args : list (list ty)) : list ty :=
  match args with
  | [] => acc
  | us :: args' => type_list_union (faithful_type_list (acc ++ us)) args'
  end.
