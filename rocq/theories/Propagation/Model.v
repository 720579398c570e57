(** Model of copy assignment of types with allocators, [Source/sequoia/Core/ContainerUtilities/AssignmentUtilities.hpp], as used by
    [connectivity_base::operator=], Source/sequoia/Maths/Graph/Connectivity.hpp L388-415, with the constructors, [reset] and [swap] of
    [bucketed_sequence] and [partitioned_sequence_base], Source/sequoia/Core/DataStructures/PartitionedData.hpp, and of the copy
    assignment of graphs with node weights, Source/sequoia/Maths/Graph/{GraphPrimitive,NodeStorage}.hpp.

    An allocator is a value of an arbitrary type; a container is an allocator and its elements. The buckets of a
    [bucketed_sequence] are elements here: their own allocators are not modelled. Whatever allocates (the making of a copy of
    a container which is not empty, and the moving of elements one by one) may throw: each takes one unit of a budget, and throws
    if there is none left. (Copy assignment of a container may get by without an allocation if there is room enough; here, it never does.) *)
From stdpp Require Import list.

(** [std::allocator_traits]: the three [propagate_on_container_...], [is_always_equal] and
    [select_on_container_copy_construction]. *)
Record traits (A : Type) := mk_traits { pocca : bool; pocma : bool; pocs : bool; always_equal : bool; socc : A -> A }.
Arguments mk_traits {A}.
Arguments pocca {A}. Arguments pocma {A}. Arguments pocs {A}. Arguments always_equal {A}. Arguments socc {A}.

Inductive status := Completed | Thrown | Terminated | Undefined.

Section propagation.
  Context {A T : Type} `{EqDecision A}.

  Record cont := mk_cont { alloc_of : A; items : list T }.

  (** Comparison of allocators. *)
  Definition same (tr : traits A) (a b : A) : bool := always_equal tr || bool_decide (a = b).

  (** An allocation. *)
  Definition spend (c : list T) (budget : nat) : option nat :=
    match c, budget with
    | [], _ => Some budget
    | _, S budget' => Some budget'
    | _, 0 => None
    end.

  (** ** What the containers of the standard library do: [container.alloc.reqmts] of the C++ standard *)
  Definition copy_with (c : cont) (a : A) (budget : nat) : option (cont * nat) :=
    match spend (items c) budget with Some b => Some (mk_cont a (items c), b) | None => None end.
  Definition copy_assign (tr : traits A) (to from : cont) (budget : nat) : option (cont * nat) :=
    match spend (items from) budget with
    | Some b => Some (mk_cont (if pocca tr then alloc_of from else alloc_of to) (items from), b)
    | None => None
    end.
  Definition move_assign (tr : traits A) (to from : cont) (budget : nat) : option (cont * nat) :=
    if pocma tr then Some (mk_cont (alloc_of from) (items from), budget)
    else if same tr (alloc_of to) (alloc_of from) then Some (mk_cont (alloc_of to) (items from), budget)
    else match spend (items from) budget with Some b => Some (mk_cont (alloc_of to) (items from), b) | None => None end.
  (** [None]: undefined behaviour *)
  Definition swap_conts (tr : traits A) (x y : cont) : option (cont * cont) :=
    if pocs tr then Some (y, x)
    else if same tr (alloc_of x) (alloc_of y) then Some (mk_cont (alloc_of x) (items y), mk_cont (alloc_of y) (items x))
    else None.

  (** ** The containers of a type *)

  (** A container of a type: the traits of its allocator, and whether the constructor which copies with an allocator applies
      [select_on_container_copy_construction] to that allocator. *)
  Record slot := mk_slot { traits_of : traits A; selecting : bool }.

  (** PartitionedData.hpp L107-123 (the container of buckets), L716 ([m_Partitions], not selecting) and L717, L904-916 ([m_Data]);
      Connectivity.hpp L1313 (both, if weights are shared). *)
  Definition extended_copy (s : slot) (c : cont) (a : A) (budget : nat) : option (cont * nat) :=
    copy_with c (if selecting s then socc (traits_of s) a else a) budget.
  (** PartitionedData.hpp L105, L1010 (defaulted copy constructors); Connectivity.hpp L1291, and L1294-L1306 if weights are shared. *)
  Definition plain_copy (s : slot) (c : cont) (budget : nat) : option (cont * nat) :=
    copy_with c (socc (traits_of s) (alloc_of c)) budget.

  (** One container after the other. *)
  Fixpoint each {X} (f : slot -> X -> nat -> option (cont * nat)) (ss : list slot) (xs : list X) (budget : nat) : option (list cont * nat) :=
    match ss, xs with
    | s :: ss', x :: xs' =>
        match f s x budget with
        | Some (c, b) => match each f ss' xs' b with Some (cs, b') => Some (c :: cs, b') | None => None end
        | None => None
        end
    | _, _ => Some ([], budget)
    end.
  Fixpoint swap_each (ss : list slot) (xs ys : list cont) : option (list cont) :=
    match ss, xs, ys with
    | s :: ss', x :: xs', y :: ys' =>
        match swap_conts (traits_of s) x y with
        | Some (x', _) => match swap_each ss' xs' ys' with Some r => Some (x' :: r) | None => None end
        | None => None
        end
    | _, _, _ => Some []
    end.

  (** AssignmentUtilities.hpp L149-172. *)
  Definition copy_propagation (tr : traits A) : bool := pocca tr || always_equal tr.
  Definition move_propagation (tr : traits A) : bool := pocma tr || always_equal tr.
  Definition swap_propagation (tr : traits A) : bool := pocs tr || always_equal tr.

  (** AssignmentUtilities.hpp L115-134. *)
  Definition consistent (l r : traits A) : bool :=
    eqb (copy_propagation l) (copy_propagation r) && eqb (move_propagation l) (move_propagation r) && eqb (swap_propagation l) (swap_propagation r).
  Definition consistency (ss : list slot) : bool :=
    match ss with [] => true | s :: ss' => forallb (fun s' => consistent (traits_of s) (traits_of s')) ss' end.

  (** AssignmentUtilities.hpp L136-147. *)
  Definition chosen (s : slot) (to from : cont) : A :=
    if copy_propagation (traits_of s) then alloc_of from else alloc_of to.

  (** The assignments of moved containers are declared [noexcept] (PartitionedData.hpp L131, L671; L1023). *)
  Definition move_in (ss : list slot) (to tmp : list cont) (budget : nat) : status * list cont * nat :=
    match each (fun s x b => move_assign (traits_of s) (fst x) (snd x) b) ss (zip to tmp) budget with
    | Some (r, b) => (Completed, r, b)
    | None => (Terminated, to, budget)
    end.

  (** PartitionedData.hpp L434-439, L648-658: an empty container with the allocator is assigned. *)
  Definition reset (ss : list slot) (to tmp : list cont) (budget : nat) : option (list cont * nat) :=
    each (fun s x b => copy_assign (traits_of s) (fst x) (mk_cont (alloc_of (snd x)) []) b) ss (zip to tmp) budget.

  (** AssignmentUtilities.hpp L76-106; [None] if the static assertion fails. The result is the state of [to], and what is left
      of the budget. *)
  Definition assign (ss : list slot) (to from : list cont) (budget : nat) : option (status * list cont * nat) :=
    if forallb (fun s => always_equal (traits_of s)) ss then
      Some (match each plain_copy ss from budget with
            | Some (tmp, b) => move_in ss to tmp b
            | None => (Thrown, to, budget)
            end)
    else if negb (consistency ss) then None
    else
      Some (match each (fun s x b => extended_copy s (snd x) (chosen s (fst x) (snd x)) b) ss (zip to from) budget with
            | None => (Thrown, to, budget)
            | Some (tmp, b) =>
                let first := match ss with s :: _ => traits_of s | [] => mk_traits true true true true id end in
                if move_propagation first || negb (copy_propagation first) then move_in ss to tmp b
                else
                  let reset_ := if negb (swap_propagation first) then reset ss to tmp b else Some (to, b) in
                  match reset_ with
                  | None => (Terminated, to, b)
                  | Some (to', b') => match swap_each ss to' tmp with Some r => (Completed, r, b') | None => (Undefined, to', b') end
                  end
            end).

  (** ** Graphs with node weights: GraphPrimitive.hpp L420 assigns edges, then nodes; the assignment of the nodes is declared
      [noexcept] (NodeStorage.hpp L282). *)
  Definition assign_graph (ss : list slot) (nodes : traits A) (to from : list cont * cont) (budget : nat) : option (status * (list cont * cont)) :=
    match assign ss (fst to) (fst from) budget with
    | None => None
    | Some (Completed, es, b) =>
        Some (match copy_assign nodes (snd to) (snd from) b with
              | Some (n, _) => (Completed, (es, n))
              | None => (Terminated, (es, snd to))
              end)
    | Some (st, es, _) => Some (st, (es, snd to))
    end.
End propagation.
Arguments cont : clear implicits.
Arguments slot : clear implicits.
