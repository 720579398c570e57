(** Model of the checks of allocations, which go with those of semantics: [check_semantics] for containers with allocators which count
    (Source/sequoia/TestFramework/AllocationCheckers.hpp, AllocationCheckersDetails.hpp, RegularAllocationCheckers.hpp,
    RegularAllocationCheckersDetails.hpp, MoveOnlyAllocationCheckers.hpp, MoveOnlyAllocationCheckersDetails.hpp,
    AllocationTestUtilities.hpp). *)
From stdpp Require Import list.
From Coq Require Import ZArith.
From Verif.Semantics Require Import Model.
Local Open Scope Z_scope.

(** The container under test.  As for [subject], but comparing two objects, and writing one, may change the world too: it may allocate.
    There may be several allocators, numbered; a scoped allocator counts as one for each level (AllocationCheckers.hpp L501-561). *)
Record container := Container {
  state : Type;
  text : Type;
  c_eq : state -> nat -> nat -> bool * state;
  c_ne : state -> nat -> nat -> bool * state;
  c_lt : state -> nat -> nat -> bool * state;
  c_le : state -> nat -> nat -> bool * state;
  c_gt : state -> nat -> nat -> bool * state;
  c_ge : state -> nat -> nat -> bool * state;
  c_three : option (state -> nat -> nat -> comparison * state);
  c_same : state -> nat -> nat -> bool * state;
  c_best : state -> nat -> nat -> bool * state;
  c_copy : state -> nat -> nat -> state;
  c_move : state -> nat -> nat -> state;
  c_copy_assign : state -> nat -> nat -> state;
  c_move_assign : state -> nat -> nat -> state;
  c_swap : state -> nat -> nat -> state;
  c_destroy : state -> nat -> state;
  c_serialize : option ((state -> nat -> text * state) * (state -> text -> nat -> state));
  (** the copy and move like constructors which take allocators; they are given new ones *)
  c_para_copy : state -> nat -> nat -> state;
  c_para_move : state -> nat -> nat -> state;
  (** [allocs()] of the allocator of an object: object, allocator *)
  c_count : state -> nat -> nat -> Z;
  (** whether two objects have equal allocators: allocator, objects *)
  c_equal : state -> nat -> nat -> nat -> bool;
}.

(** A prediction: without and with its shift (AllocationCheckersCore.hpp L71-95); [int]s do not overflow. *)
Definition prediction : Type := Z * Z.

(** RegularAllocationCheckers.hpp L19-82, MoveOnlyAllocationCheckers.hpp L19-48: those for moves only have no predictions for copies, and
    [p_x] is about [para_move]. *)
Record predictions := Predictions {
  p_x : prediction;
  p_copy : prediction;
  p_mutation : prediction;
  p_para_copy : prediction;
  p_para_move : prediction;
  p_move : prediction;
  p_assign : prediction;                 (* with propagation *)
  p_assign_no_prop : prediction;
  p_move_assign : prediction;
  p_move_assign_no_prop : prediction;
}.

(** [allocation_info] and the traits of its allocator *)
Record info := Info {
  i_copy : bool;                         (* propagate_on_container_copy_assignment *)
  i_move : bool;
  i_swap : bool;
  i_always_equal : bool;
  i_predictions : predictions;
}.

(** What numbers of allocations are about *)
Inductive event :=
| EComparison (c : nat) (o : nat)
| ECopyX | ECopyY | EAssignX | EAssignY | EMove | EMoveAssign | EMutationMoveAssign
| ESwapX | ESwapY | EMutationSwapY | EMutationSwapX | ESerialization
| EParaCopy | EParaMove (o : nat) | EMutationParaMove | EInitX | EInitY.

Inductive failure :=
| Value (t : tag)
| SwapPrecondition | SwapMutation                       (* AllocationCheckersDetails.hpp L338-351 *)
| ParaCopyValue | ParaMoveValue (o : nat) | NotTwin (o : nat) | MovedValue (o : nat)
| Allocated (i : nat) (e : event) (found predicted : Z).

Section checks.
  Variable C : container.
  Variable infos : list info.

  Definition prog (A : Type) : Type := state C -> A * state C * list failure.
  Definition ret {A} (a : A) : prog A := fun w => (a, w, []).
  Definition bind {A B} (m : prog A) (f : A -> prog B) : prog B := fun w =>
    let '(a, w', l) := m w in
    let '(b, w'', l') := f a w' in (b, w'', l ++ l').
  Notation "'do' x <- m ; k" := (bind m (fun x => k)) (at level 200, x name, m at level 100, k at level 200).
  Notation "m ;; k" := (bind m (fun _ => k)).

  Definition check (t : failure) (b : state C -> bool * state C) : prog bool := fun w => (fst (b w), snd (b w), if fst (b w) then [] else [t]).
  Definition act (f : state C -> state C) : prog unit := fun w => (tt, f w, []).
  Definition test (b : state C -> bool * state C) : prog bool := fun w => (fst (b w), snd (b w), []).
  Definition guarded {A} (m : prog A) : prog bool := fun w =>
    let '(_, w', l) := m w in (match l with [] => true | _ => false end, w', l).
  Definition neg (r : bool * state C) : bool * state C := (negb (fst r), snd r).

  (** AllocationCheckersDetails.hpp L27-44: [check_allocation].  The numbers in a failure are those which are compared. *)
  Definition check_allocation (i : nat) (e : event) (o : nat) (previous : Z) (p : prediction) : prog unit := fun w =>
    let found := c_count C w o i - previous - (snd p - fst p) in
    (tt, w, if found =? fst p then [] else [Allocated i e found (fst p)]).
  (** One call for each allocator *)
  Definition each (f : nat -> info -> prog unit) : prog unit :=
    foldr (fun p rest => f (fst p) (snd p);; rest) (ret tt) (imap pair infos).
  (** [m_Info.count(x)], for each allocator *)
  Definition counts (o : nat) : prog (nat -> Z) := fun w => (c_count C w o, w, []).
  Definition equals (o o' : nat) : prog (nat -> bool) := fun w => (fun i => c_equal C w i o o', w, []).
  (** The actions of SemanticsCheckersDetails.hpp L155-182, RegularCheckersDetails.hpp L19-29 are there for containers with allocators. *)
  Definition action (m : prog unit) : prog unit := match infos with [] => ret tt | _ => m end.
  Definition nothing : prediction := (0, 0).

  (** SemanticsCheckersDetails.hpp L259-271, AllocationCheckersDetails.hpp L590-599, L637-667 *)
  Definition consistent_one (c : nat) (o : nat) (f : state C -> nat -> bool * state C) : prog bool :=
    do prior <- counts o;
    do b <- check (Value (Inconsistent c o)) (fun w => f w o);
    if (b : bool) then guarded (each (fun i _ => check_allocation i (EComparison c o) o (prior i) nothing)) else ret false.
  Definition consistent (c : nat) (x y : nat) (f : state C -> nat -> bool * state C) : prog bool :=
    guarded (consistent_one c x f;; consistent_one c y f).

  (** SemanticsCheckersDetails.hpp L283-301 *)
  Definition ordering_operators (x y : nat) : prog bool :=
    guarded (
      consistent 2 x y (fun w u => neg (c_lt C w u u));;
      consistent 4 x y (fun w u => c_le C w u u);;
      consistent 3 x y (fun w u => neg (c_gt C w u u));;
      consistent 5 x y (fun w u => c_ge C w u u);;
      match c_three C with
      | Some three => consistent 6 x y (fun w u => (match fst (three w u u) with Eq => true | _ => false end, snd (three w u u)))
      | None => ret true
      end).

  (** L303-328 *)
  Definition compared (u v : nat) : prog bool :=
    guarded (
      check (Value GtLt) (fun w => c_gt C w v u);;
      check (Value LtLe) (fun w => c_le C w u v);;
      check (Value LtGe) (fun w => c_ge C w v u);;
      match c_three C with
      | Some three => check (Value LtThree) (fun w => (match fst (three w u v) with Lt => true | _ => false end, snd (three w u v)))
      | None => ret true
      end).
  Definition ordering_consistency (x y : nat) : prog bool :=
    do b <- ordering_operators x y;
    if b then do less <- test (fun w => c_lt C w x y); if (less : bool) then compared x y else compared y x
    else ret false.

  (** L331-340 *)
  Definition equality_prerequisites (x y : nat) : prog bool :=
    do eq <- consistent 0 x y (fun w u => c_eq C w u u);
    do ne <- consistent 1 x y (fun w u => neg (c_ne C w u u));
    if eq && ne then check (Value NotDifferent) (fun w => c_ne C w x y) else ret false.

  (** L354-370 *)
  Definition likes : Type := (state C -> nat -> bool * state C) * (state C -> nat -> bool * state C).
  Definition clone_prerequisites (x y : nat) (c : option likes) : prog bool :=
    do b <- equality_prerequisites x y;
    if b then
      match c with
      | None => ret true
      | Some (like_x, like_y) =>
          do xp <- check (Value (NotClone x)) (fun w => like_x w x);
          do yp <- check (Value (NotClone y)) (fun w => like_y w y);
          ret (xp && yp)
      end
    else ret false.

  (** L372-406 *)
  Definition prerequisites (order : option comparison) (x y : nat) (c : option likes) : prog bool :=
    do b <- clone_prerequisites x y c;
    if b then
      match order with
      | None => ret true
      | Some o =>
          do b <- check (Value NoOrder) (fun w => (match o with Eq => false | _ => true end, w));
          if (b : bool) then
            do b <- ordering_consistency x y;
            if b then check (Value (Assumed (match o with Eq => false | _ => true end)))
                            (fun w => match o with Lt => c_lt C w x y | _ => c_gt C w x y end)
            else ret false
          else ret false
      end
    else ret false.

  (** L408-449, AllocationCheckersDetails.hpp L431-443, L601-605, L670-676 *)
  Definition move_construction (z w r : nat) (like : state C -> nat -> bool * state C) (moved : option (state C -> nat -> bool * state C)) : prog bool :=
    do prior <- counts z;
    act (fun a => c_move C a z w);;
    do b <- check (Value MoveConstruction) (fun a => like a w);
    if (b : bool) then
      (match moved with Some p => check (Value MovedFromConstruction) (fun a => p a z) | None => ret true end);;
      action (each (fun i n => check_allocation i EMove w (prior i) (p_move (i_predictions n))));;
      act (fun a => c_move C a w r);; act (fun a => c_destroy C a w);; ret true
    else act (fun a => c_destroy C a w);; ret false.

  (** The mutator; [null_mutator] does nothing (SemanticsCheckersDetails.hpp L115-118) *)
  Variable mutator : option (state C -> nat -> state C).
  Definition mutate (o : nat) : prog unit := act (fun w => match mutator with Some f => f w o | None => w end).

  (** L451-488, AllocationCheckersDetails.hpp L127-145, L607-612, L678-692, L445-461 *)
  Definition move_assign (z y : nat) (like : state C -> nat -> bool * state C) (moved : option (state C -> nat -> bool * state C)) : prog unit :=
    do first <- counts z;
    do second <- counts y;
    do equal <- equals z y;
    act (fun a => c_move_assign C a z y);;
    do b <- check (Value MoveAssignment) (fun a => like a z);
    if (b : bool) then
      (match moved with Some p => check (Value MovedFromAssignment) (fun a => p a y) | None => ret true end);;
      action (
        each (fun i n =>
          if equal i || i_move n then check_allocation i EMoveAssign z (second i) (p_move_assign (i_predictions n))
          else check_allocation i EMoveAssign z (first i) (p_move_assign_no_prop (i_predictions n)));;
        do prior <- counts z;
        mutate z;;
        each (fun i n => check_allocation i EMutationMoveAssign z (prior i) (p_mutation (i_predictions n))))
    else ret tt.

  (** AllocationCheckersDetails.hpp L232-249: [do_swap]; L577-582: [do_check_swap] *)
  Definition swappable : bool := forallb (fun n => i_swap n || i_always_equal n) infos.
  Definition swap_measured : bool := forallb (fun n => i_move n && i_swap n) infos.
  (** AllocationCheckersDetails.hpp L614-626, L95-105: x and y have changed places *)
  Definition swap_allocations (x y : nat) (first second : nat -> Z) : prog unit :=
    if swap_measured then
      each (fun i _ => check_allocation i ESwapX y (first i) nothing;; check_allocation i ESwapY x (second i) nothing)
    else ret tt.
  (** AllocationCheckersDetails.hpp L147-163, L338-351, RegularAllocationCheckersDetails.hpp L40-45 *)
  Definition swap_mutation (x y y0 : nat) (first second : nat -> Z) : prog unit :=
    do b <- check SwapPrecondition (fun w => c_eq C w x y0);
    if (b : bool) then
      mutate x;;
      each (fun i n =>
        check_allocation i EMutationSwapY x ((if i_swap n then second else first) i) (p_mutation (i_predictions n));;
        check_allocation i EMutationSwapX y ((if i_swap n then first else second) i) nothing);;
      check SwapMutation (fun w => c_ne C w x y0);; ret tt
    else ret tt.
  (** SemanticsCheckersDetails.hpp L490-541; [post]: [post_swap_action] *)
  Definition swap_check (x y : nat) (like_x like_y : state C -> nat -> bool * state C) (post : (nat -> Z) -> (nat -> Z) -> prog unit) : prog bool :=
    do first <- counts x;
    do second <- counts y;
    act (fun a => c_swap C a x y);;
    do sy <- check (Value SwapY) (fun a => like_x a y);
    do sx <- check (Value SwapX) (fun a => like_y a x);
    if sx && sy then
      action (post first second);;
      act (fun a => c_swap C a y y);; check (Value SelfSwap) (fun a => like_x a y)
    else ret false.

  (** L543-571, AllocationCheckersDetails.hpp L545-556, L628-632, L714-718 *)
  Definition serialization_check (u y : nat) (like_y : state C -> nat -> bool * state C) : prog unit :=
    match c_serialize C with
    | Some (write, read) =>
        do prior <- counts y;
        do s <- (fun w => (fst (write w y), snd (write w y), []));
        action (each (fun i _ => check_allocation i ESerialization y (prior i) nothing));;
        act (fun a => read a s u);;
        check (Value Serialization) (fun a => like_y a u);; ret tt
    | None => ret tt
    end.

  (** RegularCheckersDetails.hpp L31-59, RegularAllocationCheckersDetails.hpp L33-37, L51-56, AllocationCheckersDetails.hpp L107-125 *)
  Definition copy_assign_check (z y : nat) : prog bool :=
    do first <- counts z;
    do second <- counts y;
    act (fun a => c_copy_assign C a z y);;
    do b <- check (Value CopyAssignment) (fun a => c_same C a z y);
    if (b : bool) then
      action (each (fun i n =>
        if i_copy n then
          check_allocation i EAssignX z (second i) (p_assign (i_predictions n));; check_allocation i EAssignY y (second i) (p_assign (i_predictions n))
        else
          check_allocation i EAssignX z (first i) (p_assign_no_prop (i_predictions n));; check_allocation i EAssignY y (second i) nothing));;
      act (fun a => c_copy_assign C a z z);; check (Value SelfCopyAssignment) (fun a => c_same C a z y)
    else ret false.

  (** RegularCheckersDetails.hpp L101-127: no allocations are counted *)
  Definition mutation_check (v y : nat) : prog unit :=
    act (fun a => c_copy C a y v);;
    mutate v;;
    (do b <- check (Value MutationConstruction) (fun a => c_ne C a v y);
     if (b : bool) then
       act (fun a => c_copy_assign C a v y);;
       do b <- check (Value MutationAfter) (fun a => c_same C a v y);
       if (b : bool) then mutate v;; check (Value MutationAssignment) (fun a => c_ne C a v y);; ret tt
       else ret tt
     else ret tt);;
    act (fun a => c_destroy C a v).

  (** RegularAllocationCheckersDetails.hpp L25-31, AllocationCheckersDetails.hpp L402-429; the numbers from before the prerequisites are used *)
  Definition copy_allocations (z t : nat) (first second : nat -> Z) : prog unit :=
    each (fun i n => check_allocation i ECopyX z (first i) (p_x (i_predictions n)));;
    each (fun i n => check_allocation i ECopyY t (second i) (p_copy (i_predictions n))).

  (** RegularCheckersDetails.hpp L61-133, called by RegularAllocationCheckersDetails.hpp L144-160.  Objects are numbered as in
      [regular_body]; 12 is the second argument of [post_copy_action] *)
  Definition regular_body (order : option comparison) : prog bool :=
    do first <- counts 0;
    do second <- counts 1;
    do b <- prerequisites order 0 1 None;
    if b then
      act (fun a => c_copy C a 0 2);;
      do copied <- check (Value CopyConstruction) (fun a => c_same C a 2 0);
      (if (copied : bool) then
         action (act (fun a => c_copy C a 1 12);; copy_allocations 2 12 first second;; act (fun a => c_destroy C a 12))
       else ret tt);;
      do assigned <- copy_assign_check 2 1;
      (if (assigned : bool) then
         do b <- move_construction 2 3 4 (fun a o => c_best C a o 1) None;
         if (b : bool) then act (fun a => c_destroy C a 4) else ret tt
       else ret tt);;
      if (copied : bool) then
        act (fun a => c_copy C a 0 5);;
        act (fun a => c_copy C a 1 6);;
        move_assign 5 6 (fun a o => c_best C a o 1) None;;
        act (fun a => c_destroy C a 6);;
        (if swappable then
           act (fun a => c_copy C a 0 7);;
           act (fun a => c_copy C a 1 8);;
           swap_check 7 8 (fun a o => c_best C a o 0) (fun a o => c_best C a o 1)
             (fun f s => swap_allocations 7 8 f s;; swap_mutation 7 8 1 f s);;
           act (fun a => c_destroy C (c_destroy C a 8) 7)
         else ret tt);;
        match mutator with
        | Some _ => if (assigned : bool) then mutation_check 9 1 else ret tt
        | None => ret tt
        end;;
        (match c_serialize C with
         | Some _ => act (fun a => c_copy C a 0 10);; serialization_check 10 1 (fun a o => c_best C a o 1);; act (fun a => c_destroy C a 10)
         | None => ret tt
         end);;
        act (fun a => c_destroy C (c_destroy C a 5) 2);; ret true
      else act (fun a => c_destroy C a 2);; ret false
    else ret false.

  (** RegularAllocationCheckersDetails.hpp L58-83 *)
  Definition para_constructors : prog unit :=
    act (fun a => c_para_copy C a 1 20);;
    do b <- check ParaCopyValue (fun a => c_same C a 20 1);
    if (b : bool) then
      each (fun i n => check_allocation i EParaCopy 20 0 (p_para_copy (i_predictions n)));;
      act (fun a => c_copy C a 20 21);; act (fun a => c_destroy C a 20);;
      act (fun a => c_para_move C a 21 22);;
      do b <- check (ParaMoveValue 1) (fun a => c_same C a 22 1);
      (if (b : bool) then
         each (fun i n => check_allocation i (EParaMove 1) 22 0 (p_para_move (i_predictions n)));;
         do prior <- counts 22;
         mutate 22;;
         each (fun i n => check_allocation i EMutationParaMove 22 (prior i) (p_mutation (i_predictions n)))
       else ret tt);;
      act (fun a => c_destroy C (c_destroy C a 22) 21)
    else act (fun a => c_destroy C a 20).

  (** RegularAllocationCheckersDetails.hpp L99-109 *)
  Definition regular_semantics (order : option comparison) : prog unit :=
    do b <- guarded (regular_body order);
    if (b : bool) then para_constructors else ret tt.

  (** AllocationCheckersDetails.hpp L499-543: x and y have just been made, with new allocators.  [second]: the prediction for y *)
  Definition initial_allocations (x y : nat) (second : predictions -> prediction) : prog unit :=
    each (fun i n =>
      check_allocation i EInitX x 0 (p_x (i_predictions n));;
      check_allocation i EInitY y 0 (second (i_predictions n))).
  (** RegularAllocationCheckersDetails.hpp L111-131 *)
  Definition made_regular_semantics (order : option comparison) : prog unit :=
    initial_allocations 0 1 p_copy;; regular_semantics order.

  (** MoveOnlyAllocationCheckersDetails.hpp L33-66: from [z] to [v], from there to [r] *)
  Definition para_move_check (o : nat) (z v r : nat) (like : state C -> nat -> bool * state C) (p : predictions -> prediction) : prog bool :=
    do b <- check (NotTwin o) (fun a => like a z);
    if (b : bool) then
      act (fun a => c_para_move C a z v);;
      each (fun i n => check_allocation i (EParaMove o) v 0 (p (i_predictions n)));;
      do b <- check (ParaMoveValue o) (fun a => like a v);
      (if (b : bool) then
         act (fun a => c_move C a v r);;
         do b <- check (MovedValue o) (fun a => like a r);
         act (fun a => c_destroy C a v);; ret b
       else act (fun a => c_destroy C a v);; ret false)
    else ret false.

  (** MoveOnlyCheckersDetails.hpp L17-56, called by MoveOnlyAllocationCheckersDetails.hpp L143-170; 11 is the clone of y *)
  Definition move_only_body (order : option comparison) (c : likes) (moved moved' : option (state C -> nat -> bool * state C)) : prog bool :=
    do b <- prerequisites order 0 1 (Some c);
    if b then
      do b <- move_construction 0 2 3 (fst c) moved;
      if (b : bool) then
        (if swappable then
           do b <- swap_check 3 1 (fst c) (snd c) (swap_allocations 3 1);
           (if (b : bool) then move_assign 1 3 (snd c) moved' else ret tt)
         else move_assign 3 1 (snd c) moved');;
        (match c_serialize C with
         | Some _ => serialization_check 0 11 (snd c)
         | None => ret tt
         end);;
        act (fun a => c_destroy C a 3);; ret true
      else ret false
    else ret false.
  (** MoveOnlyAllocationCheckersDetails.hpp L68-112; the objects given are 12 and 13.  Moves of the results, [optional]s, are not modelled. *)
  Definition move_only_semantics (order : option comparison) (c : likes) (moved moved' : option (state C -> nat -> bool * state C)) : prog unit :=
    do bx <- para_move_check 0 12 14 0 (fst c) p_x;
    do b_y <- para_move_check 1 13 15 1 (snd c) p_para_move;
    if bx && b_y then guarded (move_only_body order c moved moved');; ret tt else ret tt.
  (** MoveOnlyAllocationCheckersDetails.hpp L114-141; 10 and 11 are made first, then 12 and 13 *)
  Definition made_move_only_semantics (order : option comparison) (c : likes) (moved moved' : option (state C -> nat -> bool * state C)) : prog unit :=
    initial_allocations 10 11 p_para_move;; move_only_semantics order c moved moved'.
End checks.

(** ** Shifts of predictions (AllocationCheckers.hpp) *)

(** L183-197: in debug builds of one of the compilers, [debug], predictions are shifted *)
Definition shifted (debug : bool) (p : prediction) (n : Z) : prediction := if debug then (fst p, fst p + n) else p.

(** [container_counts] L151-161; [top]: [top_level] L209 *)
Record counts_of := CountsOf { n_x : Z; n_y : Z; n_mutation : Z }.

(** L219-299: [alloc_prediction_shifter] for containers of values; L301-331: for containers of pointers *)
Definition shift (debug pointers top : bool) (i : info) (k : counts_of) : predictions :=
  let p := i_predictions i in
  {| p_x := shifted debug (p_x p) (n_x k);
     p_copy := shifted debug (p_copy p) (n_y k);
     p_mutation := shifted debug (p_mutation p) (n_mutation k);
     p_para_copy := shifted debug (p_para_copy p) (n_y k);
     p_para_move := shifted debug (p_para_move p) (n_y k);
     p_move := shifted debug (p_move p) (if top then 1 else 0);
     p_assign := shifted debug (p_assign p)
       (if pointers then n_y k * (if negb (i_copy i) then 1 else if i_move i then 2 else if i_swap i then 1 else 3) else n_y k);
     p_assign_no_prop := shifted debug (p_assign_no_prop p) (if pointers then n_y k else if top then 0 else n_y k);
     p_move_assign := shifted debug (p_move_assign p) (if top then 1 else 0);
     p_move_assign_no_prop := shifted debug (p_move_assign_no_prop p) (if negb top && (n_x k <? n_y k) then n_y k else 0);
  |}.
(** RegularAllocationCheckers.hpp L188-194 *)
Definition top_counts : counts_of := {| n_x := 1; n_y := 1; n_mutation := 0 |}.
(** AllocationCheckers.hpp L434-467: the constructors *)
Definition shifted_info (debug pointers top : bool) (k : counts_of) (i : info) : info :=
  {| i_copy := i_copy i; i_move := i_move i; i_swap := i_swap i; i_always_equal := i_always_equal i; i_predictions := shift debug pointers top i k |}.
