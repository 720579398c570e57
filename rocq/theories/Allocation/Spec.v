(** Containers which count, and what the checks of their allocations are to find. *)
From stdpp Require Import list.
From Coq Require Import ZArith.
From Verif.Semantics Require Import Model.
From Verif.Allocation Require Import Model.
Local Open Scope Z_scope.

Definition failures {C A} (m : prog C A) (w : state C) : list failure := snd (m w).

(** ** Containers with value semantics, whose operations allocate as their values demand *)

(** The numbers of allocations; the first argument says by which allocator *)
Record costs (V : Type) := Costs {
  k_compare : nat -> nat -> V -> V -> nat * nat;       (* by the number of the comparison; for the first and the second object *)
  k_copy : nat -> V -> nat;
  k_move : nat -> V -> nat;
  k_assign : nat -> V -> V -> nat;                     (* to, from *)
  k_self_assign : nat -> V -> nat;
  k_move_assign : nat -> bool -> V -> V -> nat;        (* whether the new contents may be taken over *)
  k_swap : nat -> V -> V -> nat * nat;
  k_self_swap : nat -> V -> nat;
  k_mutate : nat -> V -> nat;
  k_para_copy : nat -> V -> nat;
  k_para_move : nat -> V -> nat;
  k_write : nat -> V -> nat;
  k_read : nat -> V -> nat;
}.
Arguments k_compare {V}. Arguments k_copy {V}. Arguments k_move {V}. Arguments k_assign {V}. Arguments k_self_assign {V}.
Arguments k_move_assign {V}. Arguments k_swap {V}. Arguments k_self_swap {V}. Arguments k_mutate {V}. Arguments k_para_copy {V}.
Arguments k_para_move {V}. Arguments k_write {V}. Arguments k_read {V}.

(** Objects have values and, for each allocator, a counter; copies of allocators share counters (AllocationTestUtilities.hpp L16-38). *)
Record heap (V : Type) := Heap {
  h_val : nat -> V;
  h_id : nat -> nat -> nat;                            (* object, allocator *)
  h_count : nat -> nat -> Z;                           (* allocator, counter *)
  h_next : nat;                                        (* a new counter *)
}.
Arguments h_val {V}. Arguments h_id {V}. Arguments h_count {V}. Arguments h_next {V}. Arguments Heap {V}.

Section heaps.
  Context {V : Type}.
  Definition place (w : heap V) (o : nat) (v : V) (ids : nat -> nat) : heap V :=
    {| h_val := fun k => if Nat.eqb k o then v else h_val w k;
       h_id := fun k => if Nat.eqb k o then ids else h_id w k;
       h_count := h_count w; h_next := h_next w |}.
  (** allocators with given counters allocate *)
  Definition spend (w : heap V) (ids : nat -> nat) (n : nat -> nat) : heap V :=
    {| h_val := h_val w; h_id := h_id w;
       h_count := fun i j => h_count w i j + (if Nat.eqb j (ids i) then Z.of_nat (n i) else 0); h_next := h_next w |}.
  Definition fresh (w : heap V) (o : nat) (v : V) : heap V :=
    place {| h_val := h_val w; h_id := h_id w; h_count := fun i j => if Nat.eqb j (h_next w) then 0 else h_count w i j; h_next := S (h_next w) |}
      o v (fun _ => h_next w).
End heaps.

Definition trait (infos : list info) (f : info -> bool) (i : nat) : bool := match infos !! i with Some n => f n | None => false end.

Section machine.
  Context {V : Type} {E : EqDecision V} (cmp : V -> V -> comparison) (infos : list info) (K : costs V) (moved : V -> V) (streams three : bool).

  Definition compare (c : nat) (w : heap V) (a b : nat) : heap V :=
    spend (spend w (h_id w a) (fun i => fst (k_compare K i c (h_val w a) (h_val w b)))) (h_id w b)
      (fun i => snd (k_compare K i c (h_val w a) (h_val w b))).
  Definition do_copy (w : heap V) (s d : nat) : heap V :=
    spend (place w d (h_val w s) (h_id w s)) (h_id w s) (fun i => k_copy K i (h_val w s)).
  Definition do_move (w : heap V) (s d : nat) : heap V :=
    spend (place (place w s (moved (h_val w s)) (h_id w s)) d (h_val w s) (h_id w s)) (h_id w s) (fun i => k_move K i (h_val w s)).
  Definition do_assign (w : heap V) (d s : nat) : heap V :=
    if Nat.eqb d s then spend w (h_id w d) (fun i => k_self_assign K i (h_val w d))
    else
      let ids i := if trait infos i_copy i then h_id w s i else h_id w d i in
      spend (place w d (h_val w s) ids) ids (fun i => k_assign K i (h_val w d) (h_val w s)).
  Definition do_move_assign (w : heap V) (d s : nat) : heap V :=
    let ids i := if trait infos i_move i then h_id w s i else h_id w d i in
    spend (place (place w s (moved (h_val w s)) (h_id w s)) d (h_val w s) ids) ids
      (fun i => k_move_assign K i (trait infos i_move i || Nat.eqb (h_id w d i) (h_id w s i)) (h_val w d) (h_val w s)).
  Definition do_swap (w : heap V) (a b : nat) : heap V :=
    if Nat.eqb a b then spend w (h_id w a) (fun i => k_self_swap K i (h_val w a))
    else
      let to o o' i := if trait infos i_swap i then h_id w o' i else h_id w o i in
      spend (spend (place (place w a (h_val w b) (to a b)) b (h_val w a) (to b a))
        (h_id w a) (fun i => fst (k_swap K i (h_val w a) (h_val w b)))) (h_id w b) (fun i => snd (k_swap K i (h_val w a) (h_val w b))).
  Definition do_para_copy (w : heap V) (s d : nat) : heap V :=
    spend (fresh w d (h_val w s)) (fun _ => h_next w) (fun i => k_para_copy K i (h_val w s)).
  Definition do_para_move (w : heap V) (s d : nat) : heap V :=
    spend (fresh (place w s (moved (h_val w s)) (h_id w s)) d (h_val w s)) (fun _ => h_next w) (fun i => k_para_move K i (h_val w s)).
  Definition do_mutate (f : V -> V) (w : heap V) (o : nat) : heap V :=
    spend (place w o (f (h_val w o)) (h_id w o)) (h_id w o) (fun i => k_mutate K i (h_val w o)).

  Definition machine : container := {|
    state := heap V;
    text := V;
    c_eq w a b := (bool_decide (h_val w a = h_val w b), compare 0 w a b);
    c_ne w a b := (negb (bool_decide (h_val w a = h_val w b)), compare 1 w a b);
    c_lt w a b := (bool_decide (cmp (h_val w a) (h_val w b) = Lt), compare 2 w a b);
    c_gt w a b := (bool_decide (cmp (h_val w a) (h_val w b) = Gt), compare 3 w a b);
    c_le w a b := (bool_decide (cmp (h_val w a) (h_val w b) <> Gt), compare 4 w a b);
    c_ge w a b := (bool_decide (cmp (h_val w a) (h_val w b) <> Lt), compare 5 w a b);
    c_three := if three then Some (fun w a b => (cmp (h_val w a) (h_val w b), compare 6 w a b)) else None;
    c_same w a b := (bool_decide (h_val w a = h_val w b), compare 7 w a b);
    c_best w a b := (bool_decide (h_val w a = h_val w b), compare 8 w a b);
    c_copy := do_copy;
    c_move := do_move;
    c_copy_assign := do_assign;
    c_move_assign := do_move_assign;
    c_swap := do_swap;
    c_destroy w _ := w;
    c_serialize :=
      if streams then Some (fun w a => (h_val w a, spend w (h_id w a) (fun i => k_write K i (h_val w a))),
                            fun w v b => spend (place w b v (h_id w b)) (h_id w b) (fun i => k_read K i v))
      else None;
    c_para_copy := do_para_copy;
    c_para_move := do_para_move;
    c_count w o i := h_count w i (h_id w o i);
    c_equal w i a b := Nat.eqb (h_id w a i) (h_id w b i);
  |}.
End machine.

(** Comparisons which do not allocate *)
Definition free {V} (K : costs V) : Prop := forall i c u v, k_compare K i c u v = (0%nat, 0%nat).

(** ** Numbers which are as predicted, or not *)

Definition wrong (i : nat) (e : event) (actual : nat) (p : prediction) : list failure :=
  if Z.of_nat actual =? snd p then [] else [Allocated i e (Z.of_nat actual - (snd p - fst p)) (fst p)].
Definition per {A B} (l : list A) (f : nat -> A -> list B) : list B := concat (imap f l).

Section expected.
  Context {V : Type} (infos : list info) (K : costs V) (streams : bool) (x y : V).
  Notation P := i_predictions.

  (** In the order of the report *)
  Definition expected_body : list failure :=
    per infos (fun i n => wrong i ECopyX (k_copy K i x) (p_x (P n))) ++
    per infos (fun i n => wrong i ECopyY (k_copy K i y) (p_copy (P n))) ++
    per infos (fun i n =>
      if i_copy n then wrong i EAssignX (k_assign K i x y) (p_assign (P n)) ++ wrong i EAssignY (k_assign K i x y) (p_assign (P n))
      else wrong i EAssignX (k_assign K i x y) (p_assign_no_prop (P n))) ++
    per infos (fun i n => wrong i EMove (k_move K i y) (p_move (P n))) ++
    per infos (fun i n => wrong i EMoveAssign (k_move_assign K i (i_move n) x y) (if i_move n then p_move_assign (P n) else p_move_assign_no_prop (P n))) ++
    per infos (fun i n => wrong i EMutationMoveAssign (k_mutate K i y) (p_mutation (P n))) ++
    (if forallb i_swap infos then
       (if forallb i_move infos then
          per infos (fun i _ => wrong i ESwapX (fst (k_swap K i x y)) (0, 0) ++ wrong i ESwapY (snd (k_swap K i x y)) (0, 0))
        else []) ++
       per infos (fun i n => wrong i EMutationSwapY (snd (k_swap K i x y) + k_mutate K i y) (p_mutation (P n)) ++
                             wrong i EMutationSwapX (fst (k_swap K i x y)) (0, 0))
     else []) ++
    (if streams then per infos (fun i _ => wrong i ESerialization (k_write K i y) (0, 0)) else []).
  Definition expected_para : list failure :=
    per infos (fun i n => wrong i EParaCopy (k_para_copy K i y) (p_para_copy (P n))) ++
    per infos (fun i n => wrong i (EParaMove 1) (k_para_move K i y) (p_para_move (P n))) ++
    per infos (fun i n => wrong i EMutationParaMove (k_mutate K i y) (p_mutation (P n))).
  Definition expected : list failure := match expected_body with [] => expected_para | l => l end.

  (** What a report without failures says: each prediction is right *)
  Record predicted (i : nat) (n : info) : Prop := {
    a_copy_x : Z.of_nat (k_copy K i x) = snd (p_x (P n));
    a_copy_y : Z.of_nat (k_copy K i y) = snd (p_copy (P n));
    a_assign : Z.of_nat (k_assign K i x y) = snd (if i_copy n then p_assign (P n) else p_assign_no_prop (P n));
    a_move : Z.of_nat (k_move K i y) = snd (p_move (P n));
    a_move_assign : Z.of_nat (k_move_assign K i (i_move n) x y) = snd (if i_move n then p_move_assign (P n) else p_move_assign_no_prop (P n));
    a_mutation : Z.of_nat (k_mutate K i y) = snd (p_mutation (P n));
    a_swap : forallb i_swap infos = true -> k_swap K i x y = (0%nat, 0%nat);
    a_write : streams = true -> k_write K i y = 0%nat;
    a_para_copy : Z.of_nat (k_para_copy K i y) = snd (p_para_copy (P n));
    a_para_move : Z.of_nat (k_para_move K i y) = snd (p_para_move (P n));
  }.
End expected.

Section expected_move_only.
  Context {V : Type} (infos : list info) (K : costs V) (streams : bool) (x y : V).
  Notation P := i_predictions.

  (** [p_move] is documented to be about y *)
  Definition expected_move_only : list failure :=
    per infos (fun i n => wrong i (EParaMove 0) (k_para_move K i x) (p_x (P n))) ++
    per infos (fun i n => wrong i (EParaMove 1) (k_para_move K i y) (p_para_move (P n))) ++
    per infos (fun i n => wrong i EMove (k_move K i x) (p_move (P n))) ++
    (if forallb i_swap infos && forallb i_move infos then
       per infos (fun i _ => wrong i ESwapX (fst (k_swap K i x y)) (0, 0) ++ wrong i ESwapY (snd (k_swap K i x y)) (0, 0))
     else []) ++
    per infos (fun i n => wrong i EMoveAssign (k_move_assign K i (i_move n) x y) (if i_move n then p_move_assign (P n) else p_move_assign_no_prop (P n))) ++
    per infos (fun i n => wrong i EMutationMoveAssign (k_mutate K i y) (p_mutation (P n))) ++
    (if streams then per infos (fun i _ => wrong i ESerialization (k_write K i y) (0, 0)) else []).

  Record predicted_move_only (i : nat) (n : info) : Prop := {
    b_para_move_x : Z.of_nat (k_para_move K i x) = snd (p_x (P n));
    b_para_move_y : Z.of_nat (k_para_move K i y) = snd (p_para_move (P n));
    b_move : Z.of_nat (k_move K i x) = snd (p_move (P n));
    b_swap : forallb i_swap infos = true -> forallb i_move infos = true -> k_swap K i x y = (0%nat, 0%nat);
    b_move_assign : Z.of_nat (k_move_assign K i (i_move n) x y) = snd (if i_move n then p_move_assign (P n) else p_move_assign_no_prop (P n));
    b_mutation : Z.of_nat (k_mutate K i y) = snd (p_mutation (P n));
    b_write : streams = true -> k_write K i y = 0%nat;
  }.
End expected_move_only.

(** Two objects and their clones *)
Record cloned {V} (w : heap V) (x y : V) : Prop := {
  d_x : h_val w 10%nat = x;
  d_y : h_val w 11%nat = y;
  d_x' : h_val w 12%nat = x;
  d_y' : h_val w 13%nat = y;
}.

(** Two objects with given values and allocators which share nothing *)
Record given {V} (w : heap V) (x y : V) (infos : list info) : Prop := {
  g_x : h_val w 0%nat = x;
  g_y : h_val w 1%nat = y;
  g_apart : forall i n, infos !! i = Some n -> h_id w 0%nat i <> h_id w 1%nat i;
}.

(** ** Types without allocators *)

(** The type as a container whose comparisons leave everything as it is *)
Definition plain (S : subject) : container := {|
  state := world S;
  text := stream S;
  c_eq w a b := (s_eq S w a b, w);
  c_ne w a b := (s_ne S w a b, w);
  c_lt w a b := (s_lt S w a b, w);
  c_le w a b := (s_le S w a b, w);
  c_gt w a b := (s_gt S w a b, w);
  c_ge w a b := (s_ge S w a b, w);
  c_three := match s_three S with Some t => Some (fun w a b => (t w a b, w)) | None => None end;
  c_same w a b := (s_same S w a b, w);
  c_best w a b := (s_best S w a b, w);
  c_copy := s_copy S;
  c_move := s_move S;
  c_copy_assign := s_copy_assign S;
  c_move_assign := s_move_assign S;
  c_swap := s_swap S;
  c_destroy := s_destroy S;
  c_serialize := match s_serialize S with Some (write, read) => Some (fun w a => (write w a, w), read) | None => None end;
  c_para_copy := s_copy S;
  c_para_move := s_move S;
  c_count _ _ _ := 0;
  c_equal _ _ _ _ := true;
|}.
Definition as_values {A S} (r : A * world S * list tag) : A * world S * list failure := (fst r, map Value (snd r)).

(** ** Debug builds *)

(** In debug builds every container allocates one object more for each time it is made, and when it takes over an allocator: [proxies] *)
Definition proxies {V} (infos : list info) (K : costs V) : costs V := {|
  k_compare := k_compare K;
  k_copy i v := S (k_copy K i v);
  k_move i v := S (k_move K i v);
  k_assign i u v := (k_assign K i u v + if trait infos i_copy i then 1 else 0)%nat;
  k_self_assign := k_self_assign K;
  k_move_assign i b u v := (k_move_assign K i b u v + if trait infos i_move i then 1 else 0)%nat;
  k_swap := k_swap K;
  k_self_swap := k_self_swap K;
  k_mutate := k_mutate K;
  k_para_copy i v := S (k_para_copy K i v);
  k_para_move i v := S (k_para_move K i v);
  k_write := k_write K;
  k_read := k_read K;
|}.
