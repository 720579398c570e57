(** Checks of values: how a call of [check] with one of the tags [equality],
    [simple_equality], [equivalence], [weak_equivalence] and
    [with_best_available] is taken apart according to the types involved, and
    what it reports.

    Models Source/sequoia/TestFramework/FreeCheckers.hpp L70-700,
    Source/sequoia/TestFramework/ConcreteTypeCheckers.hpp (pairs, tuples,
    variants, optionals, pointers, [std::any], [std::function]) and the part of
    Source/sequoia/Core/Meta/TypeTraits.hpp (L123-191) and
    Source/sequoia/Core/Meta/Concepts.hpp (L83-108) which they rely on.

    Simplifications: advice is left out, so a tester with and one without a
    tutor are the same thing; so are the texts of failures, of which only the
    place and the kind are kept; conversions of the prediction to the type of
    the parameter of a tester are left out, as are customised checks, testers
    which throw, [std::any] compared with [std::any], and variants without a
    value. *)
From stdpp Require Import list.
From Verif.Base Require Import Outcome Order ListLemmas.

(** The tags, FreeCheckers.hpp L84-146.  [Best m]: whether minimal reporting is
    permitted. *)
Inductive flavour := Equality | Simple | Equivalence | Weak | Best (m : bool).

Global Instance flavour_eq_dec : EqDecision flavour.
Proof. solve_decision. Defined.

(** Types.  Classes are numbered, as are ranges; [TRange c e] is a class (or an array type)
    which is a [faithful_range] of elements of type [e].  [TTuple] stands for
    [std::pair] and [std::tuple], [TSmart] for [std::unique_ptr] and
    [std::shared_ptr], [TWeak] for [std::weak_ptr]. *)
Inductive ty :=
  | TClass (c : nat)
  | TRange (c : nat) (e : ty)
  | TTuple (ts : list ty)
  | TVariant (ts : list ty)
  | TOptional (t : ty)
  | TPtr (t : ty)
  | TSmart (t : ty)
  | TWeak (t : ty)
  | TFunction
  | TAny.

Global Instance ty_eq_dec : EqDecision ty.
Proof.
  refine (fix go (x y : ty) {struct x} : {x = y} + {x ≠ y} := _).
  decide equality; solve [apply Nat.eq_dec | apply (List.list_eq_dec go)].
Defined.

(** Values.  [VSeq s l] is a range with elements [l] and further state [s]; the
    state of an array is its address.  [VPtr a v] points to the object [v] at
    [a]; the value of a [std::weak_ptr] is that of what [lock] gives. *)
Inductive val :=
  | VAtom (n : nat)
  | VSeq (s : nat) (l : list val)
  | VTup (l : list val)
  | VAlt (i : nat) (v : val)
  | VNone
  | VSome (v : val)
  | VNull
  | VPtr (a : nat) (v : val)
  | VFun (callable : bool)
  | VEmptyAny
  | VAny (t : ty) (v : val).

(** Where a failure is met, and what went wrong there. *)
Inductive step := SElem (i : nat) | STup (i : nat) | SAlt | SSome | SPointee | SHeld.
Inductive what :=
  | WOp     (* [operator==] gives false: [binary_comparison], L290-302 *)
  | WSize   (* "Container size wrong", L394 *)
  | WIndex  (* "Variant Index" *)
  | WNull   (* one is null, the other is not *)
  | WEmpty  (* "Has value": [std::any] is empty *)
  | WHeld   (* "std::any does not hold the expected type" *)
  | WUser (n : nat). (* reported by a tester of the client *)
Definition failure : Type := list step * what.

Global Instance step_eq_dec : EqDecision step.
Proof. solve_decision. Defined.
Global Instance what_eq_dec : EqDecision what.
Proof. solve_decision. Defined.

(** What a check does with two values: the failures it reports, and what it
    returns. *)
Definition checkfn : Type := val → val → list failure * bool.

Definition inside (s : step) (fs : list failure) : list failure :=
  map (λ '(p, w), (s :: p, w)) fs.

(** What is known about the types of the client.
    - [e_array c]    the range [c] is an array type
    - [e_values c]   the range [c] has a nested [value_type]
    - [e_plain c]    [operator==] of the class, if any
    - [e_eq c]       [operator==] of the range, if any, given the states and
                     whether the elements are equal
    - [e_report t]   [reportable], Output.hpp L140
    - [e_test f t u] [value_tester<t>::test] for the tag [f] and a prediction of
                     type [u], if there is one: the failures it reports
    - [e_cross t u]  [operator==] for different types *)
Record env := Env {
  e_array : nat → bool;
  e_values : nat → bool;
  e_plain : nat → option (nat → nat → bool);
  e_eq : nat → option (nat → nat → bool → bool);
  e_report : ty → bool;
  e_test : flavour → ty → ty → option (val → val → list failure);
  e_cross : ty → ty → option (val → val → bool);
}.

Section model.
  Context (E : env).

  Fixpoint all2 (f : val → val → bool) (l r : list val) : bool :=
    match l, r with
    | [], [] => true
    | x :: l', y :: r' => f x y && all2 f l' r'
    | _, _ => false
    end.

  Fixpoint all_with (fs : list (val → val → bool)) (l r : list val) : bool :=
    match fs, l, r with
    | [], [], [] => true
    | f :: fs', x :: l', y :: r' => f x y && all_with fs' l' r'
    | _, _, _ => false
    end.

  (** [x == y], if it compiles.  The operators of the standard library compare
      elements, addresses, or contents.  Simplification: a range with a
      [value_type] compares elements, so its operator needs theirs. *)
  Fixpoint op_of (T : ty) : option (val → val → bool) :=
    match T with
    | TClass c =>
        (λ f x y, match x, y with VAtom n, VAtom n' => f n n' | _, _ => false end) <$> e_plain E c
    | TRange c e =>
        match e_eq E c with
        | None => None
        | Some f =>
            if e_values E c then
              (λ g x y, match x, y with VSeq s l, VSeq s' l' => f s s' (all2 g l l') | _, _ => false end) <$> op_of e
            else Some (λ x y, match x, y with VSeq s l, VSeq s' l' => f s s' false | _, _ => false end)
        end
    | TTuple ts =>
        (λ fs x y, match x, y with VTup l, VTup l' => all_with fs l l' | _, _ => false end) <$> mapM op_of ts
    | TVariant ts =>
        (λ fs x y, match x, y with
                   | VAlt i v, VAlt i' v' =>
                       bool_decide (i = i') && match fs !! i with Some f => f v v' | None => false end
                   | _, _ => false
                   end) <$> mapM op_of ts
    | TOptional t =>
        (λ f x y, match x, y with VSome v, VSome v' => f v v' | VNone, VNone => true | _, _ => false end) <$> op_of t
    | TPtr _ | TSmart _ =>
        Some (λ x y, match x, y with VPtr a _, VPtr a' _ => bool_decide (a = a') | VNull, VNull => true | _, _ => false end)
    | TWeak _ | TFunction | TAny => None
    end.

  (** [std::equality_comparable]: for the templates of the standard library
      whatever they hold. *)
  Definition shallow (T : ty) : bool :=
    match T with
    | TClass c => bool_decide (is_Some (e_plain E c))
    | TRange c _ => bool_decide (is_Some (e_eq E c))
    | TTuple _ | TVariant _ | TOptional _ | TPtr _ | TSmart _ => true
    | TWeak _ | TFunction | TAny => false
    end.

  (** [is_deep_equality_comparable], TypeTraits.hpp L147-186 *)
  Fixpoint deep (T : ty) : bool :=
    shallow T &&
    match T with
    | TRange c e => if e_values E c then deep e else negb (e_array E c)
    | TTuple ts | TVariant ts => forallb deep ts
    | TOptional t => deep t
    | _ => true
    end.

  (** ** What a check is made of *)

  Definition no_failures (fs : list failure) : bool := match fs with [] => true | _ => false end.

  (** A sentinel around several steps: what is returned is
      [!sentry.failure_detected()]. *)
  Definition guarded (cs : list checkfn) : checkfn :=
    λ x y, let fs := concat (map (λ c, (c x y).1) cs) in (fs, no_failures fs).

  (** [binary_comparison] with [std::ranges::equal_to], L290-302 *)
  Definition compare_op (f : val → val → bool) : checkfn :=
    λ x y, if f x y then ([], true) else ([([], WOp)], false).

  (** The check of ranges, L364-414: sizes first; elements only if they agree.
      What is returned is put together from what the checks of the elements
      return. *)
  Fixpoint check_elems (k : checkfn) (i : nat) (l r : list val) : list failure * bool :=
    match l, r with
    | x :: l', y :: r' =>
        let '(fs, b) := k x y in
        let '(fs', b') := check_elems k (S i) l' r' in
        (inside (SElem i) fs ++ fs', b && b')
    | _, _ => ([], true)
    end.

  Definition check_lists (k : checkfn) (l r : list val) : list failure * bool :=
    if decide (length l = length r) then check_elems k 0 l r else ([([], WSize)], false).

  Definition check_range (k : checkfn) : checkfn :=
    λ x y, match x, y with VSeq _ l, VSeq _ r => check_lists k l r | _, _ => ([], true) end.

  (** What a tester reports; it returns nothing, the flag is not used. *)
  Definition tester (f : val → val → list failure) : checkfn := λ x y, (f x y, no_failures (f x y)).

  (** Pairs and tuples, ConcreteTypeCheckers.hpp L246-315: one element after
      the other. *)
  Fixpoint test_elements (ks : list checkfn) (i : nat) (l r : list val) : list failure :=
    match ks, l, r with
    | k :: ks', x :: l', y :: r' => inside (STup i) (k x y).1 ++ test_elements ks' (S i) l' r'
    | _, _, _ => []
    end.
  Definition test_tuple (ks : list checkfn) : checkfn :=
    tester (λ x y, match x, y with VTup l, VTup r => test_elements ks 0 l r | _, _ => [] end).

  (** Variants, L553-590 *)
  Definition test_variant (ks : list checkfn) : checkfn :=
    tester (λ x y, match x, y with
                   | VAlt i v, VAlt i' v' =>
                       if decide (i = i') then
                         match ks !! i with Some k => inside SAlt (k v v').1 | None => [] end
                       else [([], WIndex)]
                   | _, _ => []
                   end).

  (** Optionals, L594-619 *)
  Definition test_optional (k : checkfn) : checkfn :=
    tester (λ x y, match x, y with
                   | VSome v, VSome v' => inside SSome (k v v').1
                   | VNone, VNone => []
                   | _, _ => [([], WNull)]
                   end).

  (** The pointees of pointers, L663-690 and L716-736 *)
  Definition test_pointees (k : checkfn) : checkfn :=
    tester (λ x y, match x, y with
                   | VPtr _ v, VPtr _ v' => inside SPointee (k v v').1
                   | VNull, VNull => []
                   | _, _ => [([], WNull)]
                   end).

  (** [std::function], L819-836 *)
  Definition test_function : checkfn :=
    tester (λ x y, match x, y with
                   | VFun b, VFun b' => if eqb b b' then [] else [([], WNull)]
                   | _, _ => []
                   end).

  (** [std::any], L627-651 *)
  Definition test_any (U : ty) (k : checkfn) : checkfn :=
    tester (λ x y, match x with
                   | VAny t v => if decide (t = U) then inside SHeld (k v y).1 else [([], WHeld)]
                   | _ => [([], WEmpty)]
                   end).

  (** ** The choice between them *)

  (** What the choice looks at, for types [T] of the obtained value and [U] of
      the prediction.
      - [n_same]     they are the same
      - [n_op]       [x == y], if it compiles
      - [n_shallow], [n_deep], [n_report]
      - [n_tests f]  a tester for the tag [f], L174-180: [None] if there is none;
                     [Some None] if its body does not compile
      - [n_elems f]  [supports_range_check_v] for [f], L442-466, in the same way
      - [n_cross]    [std::equality_comparable_with<T, U>], in the same way *)
  Record node := Node {
    n_same : bool;
    n_op : option (val → val → bool);
    n_shallow : bool;
    n_deep : bool;
    n_report : bool;
    n_tests : flavour → option (option checkfn);
    n_elems : flavour → option (option checkfn);
    n_cross : option (option (val → val → bool));
  }.

  Definition given {A} (o : option A) : bool := match o with Some _ => true | None => false end.
  Definition body {A} (o : option (option A)) : option A := match o with Some x => x | None => None end.

  (** The constraints: [supports_equality_check] L470-475,
      [supports_simple_equality_check] L525-529,
      [supports_generalized_equivalence_check] L567-573 and
      [supports_best_available_check] L624-631. *)
  Definition accepts_equality (n : node) : bool :=
    n_same n && ((n_deep n && n_report n) || given (n_tests n Equality) || given (n_elems n Equality)).
  Definition accepts_simple (n : node) : bool :=
    n_same n && ((n_deep n && n_report n) || given (n_elems n Simple)).
  Definition accepts_equivalence (n : node) : bool :=
    given (n_tests n Equivalence) || given (n_elems n Equivalence) || accepts_equality n.
  Definition accepts_weak (n : node) : bool :=
    given (n_tests n Weak) || given (n_elems n Weak) || accepts_equivalence n.
  Definition accepts_best (m : bool) (n : node) : bool :=
    given (n_tests n (Best m))
    || (accepts_equality n || accepts_simple n || accepts_equivalence n || accepts_weak n)
    || given (n_elems n (Best m))
    || (n_same n && n_deep n && n_report n)
    || (m && given (n_cross n)).

  Definition op_steps (b : bool) (o : option (val → val → bool)) : list checkfn :=
    if b then match o with Some f => [compare_op f] | None => [] end else [].

  (** [check(equality_check_t, ...)], L494-521 *)
  Definition equality_body (n : node) : option checkfn :=
    let ops := op_steps (n_deep n) (n_op n) in
    match n_tests n Equality with
    | Some t => (λ t, guarded (ops ++ [t])) <$> t
    | None =>
        match n_elems n Equality with
        | Some r => (λ r, guarded (ops ++ [r])) <$> r
        | None => Some (guarded ops)
        end
    end.

  (** [check(simple_equality_check_t, ...)], L533-553: the operator is applied
      always, so [std::ranges::equal_to] has to take the type. *)
  Definition simple_body (n : node) : option checkfn :=
    if n_shallow n then
      match n_op n with
      | None => None
      | Some f =>
          match n_elems n Simple with
          | Some r => (λ r, guarded [compare_op f; r]) <$> r
          | None => Some (guarded [compare_op f])
          end
      end
    else None.

  (** [check(CheckType, ...)] for the two kinds of equivalence, L575-613, with
      [general_equivalence_check], L256-284 *)
  Definition equivalence_body (n : node) : option checkfn :=
    match n_tests n Equivalence with
    | Some t => (λ t, guarded [t]) <$> t
    | None => match n_elems n Equivalence with Some r => r | None => equality_body n end
    end.
  Definition weak_body (n : node) : option checkfn :=
    match n_tests n Weak with
    | Some t => (λ t, guarded [t]) <$> t
    | None => match n_elems n Weak with Some r => r | None => equivalence_body n end
    end.

  (** [check(with_best_available_check_t<m>, ...)], L635-690: the branch taken *)
  Inductive branch := BTests | BEquality | BEquivalence | BWeak | BRange | BSimple | BMinimal.
  Definition best_branch (m : bool) (n : node) : option branch :=
    if given (n_tests n (Best m)) then Some BTests
    else if n_same n && given (n_tests n Equality) then Some BEquality
    else if given (n_tests n Equivalence) then Some BEquivalence
    else if given (n_tests n Weak) then Some BWeak
    else if given (n_elems n (Best m)) then Some BRange
    else if n_same n && n_deep n && n_report n then Some BSimple
    else if m && given (n_cross n) then Some BMinimal
    else None.

  (** ... and what is done there.  For testers and for ranges the tag becomes
      [with_best_available], without minimal reporting (L653, L672). *)
  Definition best_body (m : bool) (n : node) : option checkfn :=
    match best_branch m n with
    | Some BTests => (λ t, guarded (op_steps (n_same n && n_deep n) (n_op n) ++ [t])) <$> body (n_tests n (Best false))
    | Some BEquality => equality_body n
    | Some BEquivalence => equivalence_body n
    | Some BWeak => weak_body n
    | Some BRange => body (n_elems n (Best false))
    | Some BSimple => simple_body n
    | Some BMinimal => (λ f, guarded [compare_op f]) <$> body (n_cross n)
    | None => None
    end.

  (** For each tag: whether the call is accepted, and what it does; [None] if
      the body does not compile. *)
  Definition verdict : Type := flavour → bool * option checkfn.

  Definition dispatch (n : node) : verdict := λ f,
    match f with
    | Equality => (accepts_equality n, equality_body n)
    | Simple => (accepts_simple n, simple_body n)
    | Equivalence => (accepts_equivalence n, equivalence_body n)
    | Weak => (accepts_weak n, weak_body n)
    | Best m => (accepts_best m n, best_body m n)
    end.

  (** A call which is not accepted does not compile. *)
  Definition call (v : verdict) (f : flavour) : option checkfn := if (v f).1 then (v f).2 else None.

  Definition elems_of (v : verdict) : flavour → option (option checkfn) := λ f,
    if (v f).1 then Some (check_range <$> (v f).2) else None.

  Definition client_tests (T U : ty) : flavour → option (option checkfn) := λ f,
    (λ t, Some (tester t)) <$> e_test E f T U.

  Definition no_tests : flavour → option (option checkfn) := λ _, None.

  Definition same_node (T : ty) (tests elems : flavour → option (option checkfn)) : node :=
    Node true (op_of T) (shallow T) (deep T) (e_report E T) tests elems
         (if shallow T then Some (op_of T) else None).

  (** Smart pointers, ConcreteTypeCheckers.hpp L700-790: [equality] compares
      the underlying pointers with [check(equality, ...)], which needs them to
      be reportable; [equivalence] compares the pointees. *)
  Definition smart_tests (t : ty) (v : verdict) : flavour → option (option checkfn) := λ f,
    match f with
    | Equality =>
        Some (if e_report E (TPtr t) then guarded <$> Some (op_steps true (op_of (TPtr t))) else None)
    | Equivalence => Some (test_pointees <$> call v (Best false))
    | _ => None
    end.

  (** Both values are of type [T]. *)
  Fixpoint same (T : ty) : verdict :=
    match T with
    | TClass c => dispatch (same_node T (client_tests T T) no_tests)
    | TRange c e => dispatch (same_node T (client_tests T T) (elems_of (same e)))
    | TTuple ts =>
        dispatch (same_node T (λ f, Some (test_tuple <$> mapM (λ t, call (same t) f) ts)) no_tests)
    | TVariant ts =>
        dispatch (same_node T (λ f, Some (test_variant <$> mapM (λ t, call (same t) f) ts)) no_tests)
    | TOptional t =>
        dispatch (same_node T (λ f, Some (test_optional <$> call (same t) f)) no_tests)
    | TPtr t =>
        dispatch (same_node T (λ f, match f with
                                    | Equivalence => Some (test_pointees <$> call (same t) (Best false))
                                    | _ => None
                                    end) no_tests)
    | TSmart t => dispatch (same_node T (smart_tests t (same t)) no_tests)
    | TWeak t =>
        (* L797-814: the smart pointers obtained by locking *)
        let locked := dispatch (same_node (TSmart t) (smart_tests t (same t)) no_tests) in
        dispatch (same_node T (λ f, match f with
                                    | Equality => Some (call locked Equality)
                                    | Equivalence => Some (call locked Equivalence)
                                    | _ => None
                                    end) no_tests)
    | TFunction =>
        dispatch (same_node T (λ f, match f with Weak => Some (Some test_function) | _ => None end) no_tests)
    | TAny => dispatch (same_node T no_tests no_tests)
    end.

  (** The obtained value is of type [T], the prediction of type [U]. *)
  Fixpoint mixed (T U : ty) {struct T} : verdict :=
    if decide (T = U) then same T
    else
      let other tests elems :=
        dispatch (Node false None false false false tests elems ((λ f, Some f) <$> e_cross E T U)) in
      match T, U with
      | TRange c e, TRange c' e' => other (client_tests T U) (elems_of (mixed e e'))
      | TClass _, _ | TRange _ _, _ => other (client_tests T U) no_tests
      | TAny, _ =>
          other (λ f, match f with
                      | Equivalence => Some (test_any U <$> call (same U) (Best false))
                      | _ => None
                      end) no_tests
      | _, _ => other no_tests no_tests
      end.

  (** [check(f, ..., obtained, prediction)] for these types. *)
  Definition check (f : flavour) (T U : ty) : option checkfn := call (mixed T U) f.
  Definition accepts (f : flavour) (T U : ty) : bool := (mixed T U f).1.
End model.
