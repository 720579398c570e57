(** C73, C74: checks of semantics. *)
From stdpp Require Import list.
From Verif.Base Require Import Compare.
From Verif.Semantics Require Import Model Spec Proofs ProofsRegular ProofsExact ProofsOperators ProofsBlame.

Lemma nat_total : total_cmp Nat.compare.
Proof.
  split.
  - apply Nat.compare_eq_iff.
  - apply Nat.compare_antisym.
  - intros x y z. rewrite !Nat.compare_lt_iff. lia.
Qed.

(** ** Regular types *)

Theorem C73_no_false_alarms : forall (S : subject) (V : Type) (val : world S -> nat -> V) cmp q w,
  faithful S val -> well_posed S val cmp q w -> failures (regular_semantics S q) w = [].
Proof. intros S V val cmp q w F. exact (regular_complete F cmp q w). Qed.
Print Assumptions C73_no_false_alarms.

Example C73_no_false_alarms_ex : let S := machine Nat.compare plain in
  faithful S (fun w o => w o) /\
  well_posed S (fun w o => w o) Nat.compare (ask Nat.compare plain true (Some (fun _ => 0)) (Some (fun _ _ => 0)) (Some Datatypes.S) 3 7) (pair_world 3 7).
Proof.
  split; [exact plain_faithful|]. split; cbn.
  - done.
  - intros o [= <-]. split; [|done]. split; cbn; intros; rewrite ?bool_decide_eq_true; try done; [exact nat_total|by simplify_eq/=].
  - done.
  - intros p w' s d [= <-] Hsd Hw. apply bool_decide_eq_true. unfold set2, set. cbn. apply Nat.eqb_neq in Hsd as ->. by rewrite Nat.eqb_refl.
  - intros p w' s d [= <-] Hsd Hw. apply bool_decide_eq_true. unfold set2, set. cbn. apply Nat.eqb_neq in Hsd as ->. by rewrite Nat.eqb_refl.
  - intros f w' o [= <-] Hw. unfold set. rewrite Nat.eqb_refl. lia.
  - intros f w' o o' [= <-] Ho. unfold set. by apply Nat.eqb_neq in Ho as ->.
Qed.

Theorem C73_exact : forall (V : Type) (E : EqDecision V) (cmp : V -> V -> comparison) (T : operations V) sorted lc la m,
  total_cmp cmp -> (exists u v : V, u <> v) ->
  (forall x y, x <> y -> failures (regular_semantics (machine cmp T) (ask cmp T sorted lc la m x y)) (pair_world x y) = []) <->
  regular T /\
  (forall l v, lc = Some l -> snd (t_move T v) = l v) /\
  (forall l u v, la = Some l -> u <> v -> snd (t_move_assign T u v) = l u v) /\
  (forall f v, m = Some f -> f v <> v).
Proof. intros V E cmp T sorted lc la m O. exact (regular_exact O T sorted lc la m). Qed.
Print Assumptions C73_exact.

Example C73_exact_ex :
  regular plain /\ (exists u v : nat, u <> v) /\
  failures (regular_semantics (machine Nat.compare plain) (ask Nat.compare plain true (Some (fun _ => 0)) (Some (fun _ _ => 0)) (Some S) 3 7))
    (pair_world 3 7) = [] /\
  (* swaps which lose a value *)
  failures (regular_semantics (machine Nat.compare {| t_copy := t_copy plain; t_assign := t_assign plain; t_self_assign := t_self_assign plain;
      t_move := t_move plain; t_move_assign := t_move_assign plain; t_swap := fun u v => (v, v); t_self_swap := t_self_swap plain;
      t_serialize := None |}) (ask Nat.compare _ true None None None 3 7)) (pair_world 3 7) = [SwapY].
Proof. split; [exact plain_faithful_regular|]. split; [by exists 0, 1|]. split; vm_compute; reflexivity. Qed.

Theorem C73_blames : forall (V : Type) (E : EqDecision V) (cmp : V -> V -> comparison) (T : operations V) sorted lc la m x y t,
  total_cmp cmp -> x <> y -> t_copy T y = y ->
  t ∈ failures (regular_semantics (machine cmp T) (ask cmp T sorted lc la m x y)) (pair_world x y) -> blame T lc la m x y t.
Proof. intros V E cmp T sorted lc la m x y t O Hxy Hy. exact (regular_blames O T lc la m x y Hxy Hy sorted t). Qed.
Print Assumptions C73_blames.

(** An assignment which keeps the greater value is blamed, and a copy constructor which adds one to odd numbers. *)
Example C73_blames_ex :
  let T := {| t_copy := fun v => if Nat.odd v then Datatypes.S v else v; t_assign := Nat.max; t_self_assign := t_self_assign plain;
      t_move := t_move plain; t_move_assign := t_move_assign plain; t_swap := t_swap plain; t_self_swap := t_self_swap plain;
      t_serialize := None |} in
  t_copy T 2 = 2 /\
  failures (regular_semantics (machine Nat.compare T) (ask Nat.compare T true None None None 5 2)) (pair_world 5 2) = [CopyConstruction; CopyAssignment].
Proof. split; vm_compute; reflexivity. Qed.

Theorem C73_returns : forall (S : subject) q w,
  returned (regular_semantics S q) w = true <-> failures (guarded S (regular_body S q)) (snd (fst (best_equivalence S (q_clones S q) w))) = [].
Proof. intros S q w. exact (semantics_returned (regular_body S q) (best_equivalence S (q_clones S q)) w). Qed.
Print Assumptions C73_returns.

Theorem C73_operators : forall (S : subject) order x y c w,
  failures (prerequisites S order x y c) w = [] <->
    equality_holds w x y /\ match c with Some (lx, ly) => lx w x = true /\ ly w y = true | None => True end /\
    match order with Some o => ordering_holds o w x y | None => True end.
Proof. exact prerequisites_exact. Qed.
Print Assumptions C73_operators.

Example C73_operators_ex :
  failures (prerequisites (machine Nat.compare plain) (Some Lt) 0 1 None) (pair_world 3 7) = [] /\
  failures (prerequisites (machine Nat.compare plain) (Some Lt) 0 1 None) (pair_world 7 3) = [Assumed true] /\
  failures (prerequisites (machine Nat.compare plain) None 0 1 None) (pair_world 3 3) = [NotDifferent].
Proof. repeat split; vm_compute; reflexivity. Qed.

(** If a prerequisite does not hold, that is all which is reported, and nothing else is done. *)
Theorem C73_stops : forall (S : subject) q w, failures (prerequisites S (q_order S q) 0 1 None) w <> [] ->
  failures (regular_body S q) w = failures (prerequisites S (q_order S q) 0 1 None) w /\
  snd (fst (regular_body S q w)) = snd (fst (prerequisites S (q_order S q) 0 1 None w)).
Proof. intros S q w. exact (regular_stops q w). Qed.
Print Assumptions C73_stops.

Example C73_stops_ex :
  failures (prerequisites (machine Nat.compare plain) (Some Lt) 0 1 None) (pair_world 7 3) <> [] /\
  failures (regular_body (machine Nat.compare plain) (simple_request (machine Nat.compare plain) (Some Lt))) (pair_world 7 3) = [Assumed true].
Proof. split; [vm_compute; discriminate|vm_compute; reflexivity]. Qed.

Theorem C74_stops : forall (S : subject) q c w, failures (prerequisites S (q_order S q) 0 1 (Some c)) w <> [] ->
  failures (move_only_body S q c) w = failures (prerequisites S (q_order S q) 0 1 (Some c)) w /\
  snd (fst (move_only_body S q c w)) = snd (fst (prerequisites S (q_order S q) 0 1 (Some c) w)).
Proof. intros S q c w. exact (move_only_stops q c w). Qed.
Print Assumptions C74_stops.

(** An object which is not like its clone *)
Example C74_stops_ex :
  failures (prerequisites (machine Nat.compare plain) None 0 1 (Some (twins Nat.compare plain 3 8))) (pair_world 3 7) = [NotClone 1] /\
  failures (move_only_body (machine Nat.compare plain) (simple_request (machine Nat.compare plain) None) (twins Nat.compare plain 3 8)) (pair_world 3 7)
    = [NotClone 1].
Proof. split; vm_compute; reflexivity. Qed.

(** Two values are not enough to find out that all objects are equal according to [==]; nothing found by means of it counts then. *)
Theorem C73_equality_refuted :
  (forall w a b, s_ne careless w a b = true <-> w a <> w b) /\
  (forall w, w 0 < w 1 -> failures (regular_semantics careless (simple_request careless (Some Lt))) w = []) /\
  exists w : nat -> nat, w 0 < w 1 /\ s_eq careless w 0 1 = true /\ s_ne careless w 0 1 = true /\ s_copy careless w 1 2 2 <> w 1.
Proof.
  split. { intros w a b. cbn. rewrite negb_true_iff. apply Nat.eqb_neq. }
  split; [exact careless_passes|]. exists (pair_world 0 1). vm_compute. repeat split; lia.
Qed.
Print Assumptions C73_equality_refuted.

(** Nor that the order is none. *)
Theorem C73_order_refuted :
  (forall (w : nat -> nat) o, w 0 <> w 1 -> o <> Eq -> failures (regular_semantics cyclic (simple_request cyclic (Some o))) w = []) /\
  exists w : nat -> nat, s_lt cyclic w 0 1 = true /\ s_lt cyclic w 1 0 = true /\ s_gt cyclic w 0 1 = true.
Proof. split; [exact cyclic_passes|]. exists (pair_world 0 1). vm_compute. done. Qed.
Print Assumptions C73_order_refuted.

(** That copying leaves the original alone is not found out if the copy is changed likewise. *)
Theorem C73_copy_source_refuted : exists (S : subject) (w : world S) (val : world S -> nat -> nat),
  (forall w a b, s_eq S w a b = true <-> val w a = val w b) /\
  failures (regular_semantics S (simple_request S (Some Lt))) w = [] /\
  val w 0 < val w 1 /\ val (s_copy S w 0 2) 0 <> val w 0.
Proof.
  exists wearing, (pair_world 3 7), (fun w o => w o). split; [intros w a b; apply Nat.eqb_eq|]. split; [vm_compute; reflexivity|].
  vm_compute. split; lia.
Qed.
Print Assumptions C73_copy_source_refuted.

(** RegularCheckers.hpp L32-33: "checking both that the copy is indeed changed and also that y is left alone" *)
Theorem C73_mutation_refuted :
  (forall w a b, s_eq sharing w a b = true <-> sharing_value w a = sharing_value w b) /\
  exists w, failures (regular_semantics sharing sharing_request) w = [] /\
    sharing_value (final (regular_semantics sharing sharing_request) w) 1 <> sharing_value w 1.
Proof. split; [exact sharing_eq|]. exists (pair_world 3 7, 0). split; [vm_compute; reflexivity|]. vm_compute. congruence. Qed.
Print Assumptions C73_mutation_refuted.

(** When x < y although x > y has been announced, the message says that y > x is assumed. *)
Theorem C73_message_refuted : exists w,
  s_lt (machine Nat.compare plain) w 0 1 = true /\
  failures (prerequisites (machine Nat.compare plain) (Some Gt) 0 1 None) w = [Assumed true].
Proof. exists (pair_world 3 7). vm_compute. done. Qed.
Print Assumptions C73_message_refuted.

(** ** Types which cannot be copied *)

Theorem C74_no_false_alarms : forall (S : subject) (V : Type) (val : world S -> nat -> V) cmp other q c w,
  faithful S val -> well_posed_move_only S val cmp q c w -> failures (move_only_semantics S other q c) w = [].
Proof. intros S V val cmp other q c w F. exact (move_only_complete F cmp other q c w). Qed.
Print Assumptions C74_no_false_alarms.

Example C74_no_false_alarms_ex : let S := machine Nat.compare plain in
  faithful S (fun w o => w o) /\
  well_posed_move_only S (fun w o => w o) Nat.compare (ask_move_only Nat.compare plain true (Some (fun _ => 0)) (Some (fun _ _ => 0)) 3 7)
    (twins Nat.compare plain 3 7) (pair_world 3 7).
Proof.
  split; [exact plain_faithful|]. split; cbn.
  - done.
  - intros o [= <-]. split; [|done]. split; cbn; intros; rewrite ?bool_decide_eq_true; try done; [exact nat_total|by simplify_eq/=].
  - intros. by apply bool_decide_eq_true.
  - intros. by apply bool_decide_eq_true.
  - done.
  - intros p w' s d [= <-] Hsd Hw. apply bool_decide_eq_true. unfold set2, set. cbn. apply Nat.eqb_neq in Hsd as ->. by rewrite Nat.eqb_refl.
  - intros p w' s d [= <-] Hsd Hw. apply bool_decide_eq_true. unfold set2, set. cbn. apply Nat.eqb_neq in Hsd as ->. by rewrite Nat.eqb_refl.
Qed.

Theorem C74_exact : forall (V : Type) (E : EqDecision V) (cmp : V -> V -> comparison) (T : operations V) other sorted lc la,
  total_cmp cmp -> (exists u v : V, u <> v) ->
  (forall x y, x <> y ->
     failures (move_only_semantics (machine cmp T) other (ask_move_only cmp T sorted lc la x y) (twins cmp T x y)) (pair_world x y) = []) <->
  move_only T /\
  (forall l v, lc = Some l -> snd (t_move T v) = l v) /\
  (forall l u v, la = Some l -> u <> v -> snd (t_move_assign T u v) = l u v).
Proof. intros V E cmp T other sorted lc la O. exact (move_only_exact O T other sorted lc la). Qed.
Print Assumptions C74_exact.

Example C74_exact_ex :
  move_only plain /\
  failures (move_only_semantics (machine Nat.compare plain) false
    (ask_move_only Nat.compare plain true (Some (fun _ => 0)) (Some (fun _ _ => 0)) 7 3) (twins Nat.compare plain 7 3)) (pair_world 7 3) = [] /\
  (* move assignments which swap although the object moved from has been said to be 0 afterwards *)
  failures (move_only_semantics (machine Nat.compare {| t_copy := t_copy plain; t_assign := t_assign plain; t_self_assign := t_self_assign plain;
      t_move := t_move plain; t_move_assign := fun u v => (v, u); t_swap := t_swap plain; t_self_swap := t_self_swap plain;
      t_serialize := None |}) false (ask_move_only Nat.compare _ true (Some (fun _ => 0)) (Some (fun _ _ => 0)) 7 3) (twins Nat.compare _ 7 3))
    (pair_world 7 3) = [MovedFromAssignment].
Proof. split; [split; try done; by intros write read u v [= <- <-] _|]. split; vm_compute; reflexivity. Qed.

Theorem C74_returns : forall (S : subject) other q c w,
  returned (move_only_semantics S other q c) w = true <->
  failures (guarded S (move_only_body S q c)) (snd (fst ((if other then best_equivalence S (Some c) else ret S tt) w))) = [].
Proof. intros S other q c w. exact (semantics_returned (move_only_body S q c) (if other then best_equivalence S (Some c) else ret S tt) w). Qed.
Print Assumptions C74_returns.

(** A type which can be streamed cannot be checked against clones of another type. *)
Theorem C74_serialization_refuted : exists S : subject,
  (exists val : world S -> nat -> nat, faithful S val) /\ move_only_compiles S true = false.
Proof.
  exists (machine Nat.compare plain). split; [|vm_compute; reflexivity]. exists (fun w o => w o).
  exact plain_faithful.
Qed.
Print Assumptions C74_serialization_refuted.
