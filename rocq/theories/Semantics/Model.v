(** Model of the checks of semantics, for types which do not allocate: [check_semantics]
    (Source/sequoia/TestFramework/SemanticsCheckersDetails.hpp, RegularCheckersDetails.hpp, RegularCheckers.hpp,
    MoveOnlyCheckersDetails.hpp, MoveOnlyCheckers.hpp). *)
From stdpp Require Import list.

(** The type under test.  Its functions may do anything to the world, which holds the objects; objects are numbered.  Functions
    which throw are not modelled, nor is whether a call compiles, but for what is said below. *)
Record subject := Subject {
  world : Type;
  stream : Type;
  s_eq : world -> nat -> nat -> bool;
  s_ne : world -> nat -> nat -> bool;
  s_lt : world -> nat -> nat -> bool;
  s_le : world -> nat -> nat -> bool;
  s_gt : world -> nat -> nat -> bool;
  s_ge : world -> nat -> nat -> bool;
  s_three : option (world -> nat -> nat -> comparison);
  (** what [check(equality, ...)] and [check(with_best_available_check_t, ...)] return, see [Checks.Model] *)
  s_same : world -> nat -> nat -> bool;
  s_best : world -> nat -> nat -> bool;
  (** [construct w s d] makes an object [d] from [s] *)
  s_copy : world -> nat -> nat -> world;
  s_move : world -> nat -> nat -> world;
  (** [assign w d s] is [d = s] *)
  s_copy_assign : world -> nat -> nat -> world;
  s_move_assign : world -> nat -> nat -> world;
  s_swap : world -> nat -> nat -> world;
  s_destroy : world -> nat -> world;
  (** if the type can be streamed both ways *)
  s_serialize : option ((world -> nat -> stream) * (world -> stream -> nat -> world));
}.

(** What failures are about *)
Inductive tag :=
| NotEquivalent (o : nat)                              (* SemanticsCheckersDetails.hpp L197-203 *)
| Inconsistent (c : nat) (o : nat)                     (* operator number [c] of L77 applied to [o] twice, L262 *)
| NotDifferent                                         (* L338 *)
| NotClone (o : nat)                                   (* L359-366 *)
| NoOrder                                              (* L376 *)
| GtLt | LtLe | LtGe | LtThree                         (* L307-314 *)
| Assumed (less : bool)                                (* L382-399; [less]: the message says that y > x *)
| CopyConstruction | CopyAssignment | SelfCopyAssignment
| MoveConstruction | MovedFromConstruction
| MoveAssignment | MovedFromAssignment
| SwapY | SwapX | SelfSwap
| MutationConstruction | MutationAssignment | MutationAfter
| Serialization.

Declare Scope code_scope.

Section checks.
  Variable S : subject.

  (** Code with failures as output. *)
  Definition code (A : Type) : Type := world S -> A * world S * list tag.
  Definition ret {A} (a : A) : code A := fun w => (a, w, []).
  Definition bind {A B} (m : code A) (f : A -> code B) : code B := fun w =>
    let '(a, w', l) := m w in
    let '(b, w'', l') := f a w' in (b, w'', l ++ l').
  Notation "'do' x <- m ; k" := (bind m (fun x => k)) (at level 200, x name, m at level 100, k at level 200) : code_scope.
  Notation "m ;; k" := (bind m (fun _ => k)) : code_scope.
  Local Open Scope code_scope.

  Definition check (t : tag) (b : world S -> bool) : code bool := fun w => (b w, w, if b w then [] else [t]).
  Definition act (f : world S -> world S) : code unit := fun w => (tt, f w, []).
  Definition test (b : world S -> bool) : code bool := fun w => (b w, w, []).
  (** [sentinel]: whether there has been a failure *)
  Definition guarded {A} (m : code A) : code bool := fun w =>
    let '(_, w', l) := m w in (match l with [] => true | _ => false end, w', l).

  (** L272-280: [check_comparison_consistency] *)
  Definition consistent (c : nat) (x y : nat) (f : world S -> nat -> bool) : code bool :=
    guarded (check (Inconsistent c x) (fun w => f w x);; check (Inconsistent c y) (fun w => f w y)).

  (** L283-301 *)
  Definition ordering_operators (x y : nat) : code bool :=
    guarded (
      consistent 2 x y (fun w u => negb (s_lt S w u u));;
      consistent 4 x y (fun w u => s_le S w u u);;
      consistent 3 x y (fun w u => negb (s_gt S w u u));;
      consistent 5 x y (fun w u => s_ge S w u u);;
      match s_three S with
      | Some three => consistent 6 x y (fun w u => match three w u u with Eq => true | _ => false end)
      | None => ret true
      end).

  (** L303-328 *)
  Definition compared (u v : nat) : code bool :=
    guarded (
      check GtLt (fun w => s_gt S w v u);;
      check LtLe (fun w => s_le S w u v);;
      check LtGe (fun w => s_ge S w v u);;
      match s_three S with
      | Some three => check LtThree (fun w => match three w u v with Lt => true | _ => false end)
      | None => ret true
      end).
  Definition ordering_consistency (x y : nat) : code bool :=
    do b <- ordering_operators x y;
    if b then do less <- test (fun w => s_lt S w x y); if (less : bool) then compared x y else compared y x
    else ret false.

  (** L331-340 *)
  Definition equality_prerequisites (x y : nat) : code bool :=
    do eq <- consistent 0 x y (fun w u => s_eq S w u u);
    do ne <- consistent 1 x y (fun w u => negb (s_ne S w u u));
    if eq && ne then check NotDifferent (fun w => s_ne S w x y) else ret false.

  (** What is known about [x] and [y]: whether [check] finds something equivalent to them.  L354-370 *)
  Definition clones : Type := (world S -> nat -> bool) * (world S -> nat -> bool).
  Definition clone_prerequisites (x y : nat) (c : option clones) : code bool :=
    do b <- equality_prerequisites x y;
    if b then
      match c with
      | None => ret true
      | Some (like_x, like_y) =>
          do xp <- check (NotClone x) (fun w => like_x w x);
          do yp <- check (NotClone y) (fun w => like_y w y);
          ret (xp && yp)
      end
    else ret false.

  (** L372-406; the message depends on whether the order is [equivalent], which it cannot be there *)
  Definition prerequisites (order : option comparison) (x y : nat) (c : option clones) : code bool :=
    do b <- clone_prerequisites x y c;
    if b then
      match order with
      | None => ret true
      | Some o =>
          do b <- check NoOrder (fun _ => match o with Eq => false | _ => true end);
          if (b : bool) then
            do b <- ordering_consistency x y;
            if b then check (Assumed (match o with Eq => false | _ => true end))
                            (fun w => match o with Lt => s_lt S w x y | _ => s_gt S w x y end)
            else ret false
          else ret false
      end
    else ret false.

  (** L410-449: [T w{std::move(z)}], which is returned as an [optional], [r], by another move.  [like]: what the result is compared to *)
  Definition move_construction (z w r : nat) (like : world S -> nat -> bool) (moved : option (world S -> nat -> bool)) : code bool :=
    act (fun a => s_move S a z w);;
    do b <- check MoveConstruction (fun a => like a w);
    if (b : bool) then
      (match moved with Some p => check MovedFromConstruction (fun a => p a z) | None => ret true end);;
      act (fun a => s_move S a w r);; act (fun a => s_destroy S a w);; ret true
    else act (fun a => s_destroy S a w);; ret false.

  (** L453-488 *)
  Definition move_assign (z y : nat) (like : world S -> nat -> bool) (moved : option (world S -> nat -> bool)) : code unit :=
    act (fun a => s_move_assign S a z y);;
    do b <- check MoveAssignment (fun a => like a z);
    if (b : bool) then
      (match moved with Some p => check MovedFromAssignment (fun a => p a y) | None => ret true end);; ret tt
    else ret tt.

  (** L492-541 *)
  Definition swap_check (x y : nat) (like_x like_y : world S -> nat -> bool) : code bool :=
    act (fun a => s_swap S a x y);;
    do sy <- check SwapY (fun a => like_x a y);
    do sx <- check SwapX (fun a => like_y a x);
    if sx && sy then act (fun a => s_swap S a y y);; check SelfSwap (fun a => like_x a y)
    else ret false.

  (** L545-571 *)
  Definition serialization_check (u y : nat) (like_y : world S -> nat -> bool) : code unit :=
    match s_serialize S with
    | Some (write, read) =>
        act (fun a => read a (write a y) u);;
        check Serialization (fun a => like_y a u);; ret tt
    | None => ret tt
    end.

  (** RegularCheckersDetails.hpp L34-59 *)
  Definition copy_assign_check (z y : nat) : code bool :=
    act (fun a => s_copy_assign S a z y);;
    do b <- check CopyAssignment (fun a => s_same S a z y);
    if (b : bool) then act (fun a => s_copy_assign S a z z);; check SelfCopyAssignment (fun a => s_same S a z y)
    else ret false.

  (** RegularCheckersDetails.hpp L107-133 *)
  Definition mutation_check (v y : nat) (mutate : world S -> nat -> world S) : code unit :=
    act (fun a => s_copy S a y v);;
    act (fun a => mutate a v);;
    (do b <- check MutationConstruction (fun a => s_ne S a v y);
     if (b : bool) then
       act (fun a => s_copy_assign S a v y);;
       do b <- check MutationAfter (fun a => s_same S a v y);
       if (b : bool) then act (fun a => mutate a v);; check MutationAssignment (fun a => s_ne S a v y);; ret tt
       else ret tt
     else ret tt);;
    act (fun a => s_destroy S a v).

  (** RegularCheckersDetails.hpp L61-133 and RegularCheckers.hpp.  The objects are x = 0, y = 1; those made on the way have further
      numbers.  The order in which the arguments [T{x}], [T{y}] of [check_swap] are made is not fixed by the language: [T{x}] is first. *)
  Record request := Request {
    q_order : option comparison;                       (* for totally ordered types *)
    q_clones : option clones;
    q_moved_construction : option (world S -> nat -> bool);
    q_moved_assignment : option (world S -> nat -> bool);
    q_mutator : option (world S -> nat -> world S);
  }.
  Definition regular_body (q : request) : code bool :=
    do b <- prerequisites (q_order q) 0 1 None;
    if b then
      act (fun a => s_copy S a 0 2);;
      do copied <- check CopyConstruction (fun a => s_same S a 2 0);
      do assigned <- copy_assign_check 2 1;
      (if (assigned : bool) then
         do b <- move_construction 2 3 4 (fun a o => s_best S a o 1) (q_moved_construction q);
         if (b : bool) then act (fun a => s_destroy S a 4) else ret tt
       else ret tt);;
      if (copied : bool) then
        act (fun a => s_copy S a 0 5);;
        act (fun a => s_copy S a 1 6);;
        move_assign 5 6 (fun a o => s_best S a o 1) (q_moved_assignment q);;
        act (fun a => s_destroy S a 6);;
        act (fun a => s_copy S a 0 7);;
        act (fun a => s_copy S a 1 8);;
        swap_check 7 8 (fun a o => s_best S a o 0) (fun a o => s_best S a o 1);;
        act (fun a => s_destroy S (s_destroy S a 8) 7);;
        match q_mutator q with
        | Some mutate => if (assigned : bool) then mutation_check 9 1 mutate else ret tt
        | None => ret tt
        end;;
        (match s_serialize S with
         | Some _ => act (fun a => s_copy S a 0 10);; serialization_check 10 1 (fun a o => s_best S a o 1);; act (fun a => s_destroy S a 10)
         | None => ret tt
         end);;
        act (fun a => s_destroy S (s_destroy S a 5) 2);; ret true
      else act (fun a => s_destroy S a 2);; ret false
    else ret false.
  (** [check_best_equivalence], L194-203 *)
  Definition best_equivalence (c : option clones) : code unit :=
    match c with
    | Some (like_x, like_y) => check (NotEquivalent 0) (fun w => like_x w 0);; check (NotEquivalent 1) (fun w => like_y w 1);; ret tt
    | None => ret tt
    end.
  (** The value returned is that of the inner function, whether it has met a failure; it is not passed on for regular types. *)
  Definition regular_semantics (q : request) : code bool :=
    best_equivalence (q_clones q);; guarded (regular_body q).

  (** MoveOnlyCheckersDetails.hpp L17-56 and MoveOnlyCheckers.hpp.  [other]: whether the clones are of another type.  A type which can be
      streamed is refused then by the compiler: [check_serialization] takes two objects of the same type.  Otherwise the clone of y is
      object 11. *)
  Definition move_only_compiles (other : bool) : bool := negb (other && match s_serialize S with Some _ => true | None => false end).
  Definition move_only_body (q : request) (c : clones) : code bool :=
    do b <- prerequisites (q_order q) 0 1 (Some c);
    if b then
      do b <- move_construction 0 2 3 (fst c) (q_moved_construction q);
      if (b : bool) then
        do b <- swap_check 3 1 (fst c) (snd c);
        (if (b : bool) then move_assign 1 3 (snd c) (q_moved_assignment q) else ret tt);;
        (match s_serialize S with
         | Some (write, read) => act (fun a => read a (write a 11) 0);; check Serialization (fun a => snd c a 0);; ret tt
         | None => ret tt
         end);;
        act (fun a => s_destroy S a 3);; ret true
      else ret false
    else ret false.
  Definition move_only_semantics (other : bool) (q : request) (c : clones) : code bool :=
    (if other then best_equivalence (Some c) else ret tt);; guarded (move_only_body q c).
End checks.
