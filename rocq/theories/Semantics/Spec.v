(** What is expected of types, and of the checks of their semantics. *)
From stdpp Require Import list.
From Verif.Base Require Import Compare.
From Verif.Semantics Require Import Model.

(** Value semantics: objects have values, which the operators compare, and which change only by what is done to the object itself. *)
Record faithful (S : subject) {V : Type} (val : world S -> nat -> V) : Prop := {
  f_eq : forall w a b, s_eq S w a b = true <-> val w a = val w b;
  f_ne : forall w a b, s_ne S w a b = true <-> val w a <> val w b;
  f_same : forall w a b, s_same S w a b = true <-> val w a = val w b;
  f_best : forall w a b, s_best S w a b = true <-> val w a = val w b;
  f_copy : forall w s d, s <> d -> val (s_copy S w s d) d = val w s;
  f_copy_others : forall w s d o, o <> d -> val (s_copy S w s d) o = val w o;
  f_copy_assign : forall w d s, val (s_copy_assign S w d s) d = val w s;
  f_copy_assign_others : forall w d s o, o <> d -> val (s_copy_assign S w d s) o = val w o;
  f_move : forall w s d, s <> d -> val (s_move S w s d) d = val w s;
  f_move_others : forall w s d o, o <> s -> o <> d -> val (s_move S w s d) o = val w o;
  f_move_assign : forall w d s, s <> d -> val (s_move_assign S w d s) d = val w s;
  f_move_assign_others : forall w d s o, o <> s -> o <> d -> val (s_move_assign S w d s) o = val w o;
  f_swap : forall w a b, val (s_swap S w a b) a = val w b /\ val (s_swap S w a b) b = val w a;
  f_swap_others : forall w a b o, o <> a -> o <> b -> val (s_swap S w a b) o = val w o;
  f_destroy : forall w a o, o <> a -> val (s_destroy S w a) o = val w o;
  f_serialize : forall write read w a b, s_serialize S = Some (write, read) -> val (read w (write w a) b) b = val w a;
  f_serialize_others : forall write read w a b o, s_serialize S = Some (write, read) -> o <> b -> val (read w (write w a) b) o = val w o;
}.

(** The other operators are those of a total order. *)
Record ordered (S : subject) {V : Type} (val : world S -> nat -> V) (cmp : V -> V -> comparison) : Prop := {
  o_total : total_cmp cmp;
  o_lt : forall w a b, s_lt S w a b = true <-> cmp (val w a) (val w b) = Lt;
  o_gt : forall w a b, s_gt S w a b = true <-> cmp (val w a) (val w b) = Gt;
  o_le : forall w a b, s_le S w a b = true <-> cmp (val w a) (val w b) <> Gt;
  o_ge : forall w a b, s_ge S w a b = true <-> cmp (val w a) (val w b) <> Lt;
  o_three : forall three w a b, s_three S = Some three -> three w a b = cmp (val w a) (val w b);
}.

Definition failures {S A} (m : code S A) (w : world S) : list tag := snd (m w).
Definition returned {S A} (m : code S A) (w : world S) : A := fst (fst (m w)).

(** What is asked of the operators of two objects *)
Section operators.
  Context {S : subject}.
  Definition equality_holds (w : world S) x y : Prop :=
    (s_eq S w x x = true /\ s_eq S w y y = true) /\ (s_ne S w x x = false /\ s_ne S w y y = false) /\ s_ne S w x y = true.
  Definition three_consistent (w : world S) u v : Prop := forall three, s_three S = Some three -> three w u u = Eq /\ three w v v = Eq.
  Definition order_holds (w : world S) u v : Prop :=
    s_gt S w v u = true /\ s_le S w u v = true /\ s_ge S w v u = true /\ forall three, s_three S = Some three -> three w u v = Lt.
  Definition ordering_holds (o : comparison) (w : world S) x y : Prop :=
    o <> Eq /\
    ((s_lt S w x x = false /\ s_lt S w y y = false) /\ (s_le S w x x = true /\ s_le S w y y = true) /\
     (s_gt S w x x = false /\ s_gt S w y y = false) /\ (s_ge S w x x = true /\ s_ge S w y y = true) /\ three_consistent w x y) /\
    (if s_lt S w x y then order_holds w x y else order_holds w y x) /\
    match o with Lt => s_lt S w x y = true | _ => s_gt S w x y = true end.
End operators.

(** Two values for which a regular type can be checked: what is said about them is true. *)
Record well_posed (S : subject) {V : Type} (val : world S -> nat -> V) (cmp : V -> V -> comparison) (q : request S) (w : world S) : Prop := {
  p_different : val w 0 <> val w 1;
  p_order : forall o, q_order S q = Some o -> ordered S val cmp /\ cmp (val w 0) (val w 1) = o;
  p_clones : forall x y, q_clones S q = Some (x, y) -> x w 0 = true /\ y w 1 = true;
  p_moved_construction : forall p w' s d, q_moved_construction S q = Some p -> s <> d -> val w' s = val w 1 -> p (s_move S w' s d) s = true;
  p_moved_assignment : forall p w' s d, q_moved_assignment S q = Some p -> s <> d -> val w' s = val w 1 -> p (s_move_assign S w' d s) s = true;
  p_mutator : forall m w' o, q_mutator S q = Some m -> val w' o = val w 1 -> val (m w' o) o <> val w 1;
  p_mutator_others : forall m w' o o', q_mutator S q = Some m -> o' <> o -> val (m w' o) o' = val w' o';
}.

(** ... and for one which cannot be copied *)
Record well_posed_move_only (S : subject) {V : Type} (val : world S -> nat -> V) (cmp : V -> V -> comparison) (q : request S) (c : clones S)
    (w : world S) : Prop := {
  m_different : val w 0 <> val w 1;
  m_order : forall o, q_order S q = Some o -> ordered S val cmp /\ cmp (val w 0) (val w 1) = o;
  m_clone_x : forall w' o, val w' o = val w 0 -> fst c w' o = true;
  m_clone_y : forall w' o, val w' o = val w 1 -> snd c w' o = true;
  m_clone : forall write read, s_serialize S = Some (write, read) -> val w 11 = val w 1;
  m_moved_construction : forall p w' s d, q_moved_construction S q = Some p -> s <> d -> val w' s = val w 0 -> p (s_move S w' s d) s = true;
  m_moved_assignment : forall p w' s d, q_moved_assignment S q = Some p -> s <> d -> val w' s = val w 1 -> p (s_move_assign S w' d s) s = true;
}.

(** ** Types whose operations depend on the values of the operands, and change nothing else *)

Record operations (V : Type) := Operations {
  t_copy : V -> V;
  t_assign : V -> V -> V;                    (* new value from those of the target and the source *)
  t_self_assign : V -> V;
  t_move : V -> V * V;                       (* the new object, and what is left *)
  t_move_assign : V -> V -> V * V;
  t_swap : V -> V -> V * V;
  t_self_swap : V -> V;
  t_serialize : option ((V -> list nat) * (list nat -> V -> V));
}.
Arguments t_copy {V}. Arguments t_assign {V}. Arguments t_self_assign {V}. Arguments t_move {V}. Arguments t_move_assign {V}.
Arguments t_swap {V}. Arguments t_self_swap {V}. Arguments t_serialize {V}.

Definition set {V} (w : nat -> V) (o : nat) (v : V) : nat -> V := fun k => if Nat.eqb k o then v else w k.
Definition set2 {V} (w : nat -> V) (o o' : nat) (p : V * V) : nat -> V := set (set w o' (snd p)) o (fst p).

Definition machine {V} `{!EqDecision V} (cmp : V -> V -> comparison) (T : operations V) : subject := {|
  world := nat -> V;
  stream := list nat;
  s_eq w a b := bool_decide (w a = w b);
  s_ne w a b := negb (bool_decide (w a = w b));
  s_lt w a b := bool_decide (cmp (w a) (w b) = Lt);
  s_le w a b := bool_decide (cmp (w a) (w b) <> Gt);
  s_gt w a b := bool_decide (cmp (w a) (w b) = Gt);
  s_ge w a b := bool_decide (cmp (w a) (w b) <> Lt);
  s_three := Some (fun w a b => cmp (w a) (w b));
  s_same w a b := bool_decide (w a = w b);
  s_best w a b := bool_decide (w a = w b);
  s_copy w s d := set w d (t_copy T (w s));
  s_move w s d := set2 w d s (t_move T (w s));
  s_copy_assign w d s := set w d (if Nat.eqb d s then t_self_assign T (w s) else t_assign T (w d) (w s));
  s_move_assign w d s := set2 w d s (t_move_assign T (w d) (w s));
  s_swap w a b := if Nat.eqb a b then set w a (t_self_swap T (w a)) else set2 w a b (t_swap T (w a) (w b));
  s_destroy w _ := w;
  s_serialize := match t_serialize T with
                 | Some (write, read) => Some (fun w a => write (w a), fun w s b => set w b (read s (w b)))
                 | None => None
                 end;
|}.

(** Regular types, as far as checks of two different values can tell *)
Record regular {V} (T : operations V) : Prop := {
  r_copy : forall v, t_copy T v = v;
  r_assign : forall u v, u <> v -> t_assign T u v = v;
  r_self_assign : forall v, t_self_assign T v = v;
  r_move : forall v, fst (t_move T v) = v;
  r_move_assign : forall u v, u <> v -> fst (t_move_assign T u v) = v;
  r_swap : forall u v, u <> v -> t_swap T u v = (v, u);
  r_self_swap : forall v, t_self_swap T v = v;
  r_serialize : forall write read u v, t_serialize T = Some (write, read) -> u <> v -> read (write v) u = v;
}.

Record move_only {V} (T : operations V) : Prop := {
  n_move : forall v, fst (t_move T v) = v;
  n_move_assign : forall u v, u <> v -> fst (t_move_assign T u v) = v;
  n_swap : forall u v, u <> v -> t_swap T u v = (v, u);
  n_self_swap : forall v, t_self_swap T v = v;
  n_serialize : forall write read u v, t_serialize T = Some (write, read) -> u <> v -> read (write v) (snd (t_move T u)) = v;
}.

(** The objects with which a check starts; 11 is the clone of the second one. *)
Definition pair_world {V} (x y : V) : nat -> V := fun o => match o with 0 => x | _ => y end.

(** Requests for a pair of values: the predicted values of objects which have been moved from, and a mutator *)
Definition ask {V} `{!EqDecision V} (cmp : V -> V -> comparison) (T : operations V) (sorted : bool)
    (left_construction : option (V -> V)) (left_assignment : option (V -> V -> V)) (m : option (V -> V)) (x y : V) : request (machine cmp T) := {|
  q_order := if sorted then Some (cmp x y) else None;
  q_clones := None;
  q_moved_construction := (fun l (w : world (machine cmp T)) o => bool_decide (w o = l y)) <$> left_construction;
  q_moved_assignment := (fun l (w : world (machine cmp T)) o => bool_decide (w o = l x y)) <$> left_assignment;
  q_mutator := (fun f (w : world (machine cmp T)) o => (set w o (f (w o)) : world (machine cmp T))) <$> m;
|}.
Definition twins {V} `{!EqDecision V} (cmp : V -> V -> comparison) (T : operations V) (x y : V) : clones (machine cmp T) :=
  (fun (w : world (machine cmp T)) o => bool_decide (w o = x), fun (w : world (machine cmp T)) o => bool_decide (w o = y)).
Definition ask_move_only {V} `{!EqDecision V} (cmp : V -> V -> comparison) (T : operations V) (sorted : bool)
    (left_construction : option (V -> V)) (left_assignment : option (V -> V -> V)) (x y : V) : request (machine cmp T) := {|
  q_order := if sorted then Some (cmp x y) else None;
  q_clones := None;
  q_moved_construction := (fun l (w : world (machine cmp T)) o => bool_decide (w o = l x)) <$> left_construction;
  q_moved_assignment := (fun l (w : world (machine cmp T)) o => bool_decide (w o = l x y)) <$> left_assignment;
  q_mutator := None;
|}.

(** What failures in a check of values [x] and [y] say *)
Definition blame {V} (T : operations V) (left_construction : option (V -> V)) (left_assignment : option (V -> V -> V)) (m : option (V -> V))
    (x y : V) (t : tag) : Prop :=
  match t with
  | CopyConstruction => t_copy T x <> x
  | CopyAssignment => exists u, t_assign T u y <> y
  | SelfCopyAssignment => t_self_assign T y <> y
  | MoveConstruction => fst (t_move T y) <> y
  | MovedFromConstruction => exists l, left_construction = Some l /\ snd (t_move T y) <> l y
  | MoveAssignment => fst (t_move_assign T x y) <> y
  | MovedFromAssignment => exists l, left_assignment = Some l /\ snd (t_move_assign T x y) <> l x y
  | SwapY => snd (t_swap T x y) <> x
  | SwapX => fst (t_swap T x y) <> y
  | SelfSwap => t_self_swap T x <> x
  | MutationConstruction => exists f, m = Some f /\ f y = y
  | MutationAfter => exists f, m = Some f /\ t_assign T (f y) y <> y
  | Serialization => exists write read, t_serialize T = Some (write, read) /\ read (write y) x <> y
  | _ => False
  end.
