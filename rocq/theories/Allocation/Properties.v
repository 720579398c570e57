(** Claims about the checks of allocations. *)
From stdpp Require Import list.
From Coq Require Import ZArith.
From Verif.Base Require Import Compare.
From Verif.Semantics Require Model.
From Verif.Allocation Require Import Model Spec ProofsRegular ProofsMoveOnly ProofsPlain ProofsComparisons ProofsShifts.
Local Open Scope Z_scope.

Lemma nat_total : total_cmp Nat.compare.
Proof.
  split.
  - apply Nat.compare_eq_iff.
  - apply Nat.compare_antisym.
  - intros x y z. rewrite !Nat.compare_lt_iff. lia.
Qed.

(** Vectors of given sizes, with one allocator, and right predictions for sizes 2 and 5 *)
Definition some (n : nat) : nat := match n with O => O | S _ => 1 end.
Definition vector : costs nat := {|
  k_compare _ _ _ _ := (0%nat, 0%nat);
  k_copy _ v := some v;
  k_move _ _ := 0%nat;
  k_assign _ _ v := some v;
  k_self_assign _ _ := 0%nat;
  k_move_assign _ taken _ v := if taken then 0%nat else some v;
  k_swap _ _ _ := (0%nat, 0%nat);
  k_self_swap _ _ := 0%nat;
  k_mutate _ _ := 1%nat;
  k_para_copy _ v := some v;
  k_para_move _ v := some v;
  k_write _ _ := 0%nat;
  k_read _ v := some v;
|}.
Definition of (n : Z) : prediction := (n, n).
Definition right_predictions : predictions := {|
  p_x := of 1; p_copy := of 1; p_mutation := of 1; p_para_copy := of 1; p_para_move := of 1; p_move := of 0;
  p_assign := of 1; p_assign_no_prop := of 1; p_move_assign := of 0; p_move_assign_no_prop := of 1 |}.
Definition counted : info := {| i_copy := true; i_move := false; i_swap := true; i_always_equal := false; i_predictions := right_predictions |}.
Definition two : heap nat := {|
  h_val o := match o with 0%nat | 10%nat | 12%nat => 2%nat | 1%nat | 11%nat | 13%nat => 5%nat | _ => 0%nat end;
  h_id o _ := o;
  h_count _ _ := 1;
  h_next := 30;
|}.
Definition vectors (K : costs nat) (infos : list info) : container := machine Nat.compare infos K (fun _ => 0%nat) true true.
Definition push (K : costs nat) (infos : list info) : option (state (vectors K infos) -> nat -> state (vectors K infos)) := Some (do_mutate K S).

(** ** Regular containers *)

(** Failures are exactly those events for which the number of allocations is not the one predicted, in order. *)
Theorem C75_report : forall (V : Type) (E : EqDecision V) (cmp : V -> V -> comparison) (infos : list info) (K : costs V) (moved f : V -> V)
  (streams three : bool) (order : option comparison) (w : heap V) (x y : V),
  free K -> total_cmp cmp -> infos <> [] -> Forall (fun n => i_always_equal n = false) infos ->
  given w x y infos -> x <> y -> f y <> y -> (forall o, order = Some o -> cmp x y = o) ->
  failures (regular_semantics (machine cmp infos K moved streams three) infos (Some (do_mutate K f)) order) w = expected infos K streams x y.
Proof. intros V E cmp infos K moved f streams three order w x y H1 H2 H3 H4. exact (regular_report H1 H2 H3 H4 f w x y order). Qed.
Print Assumptions C75_report.

Example C75_report_ex :
  free vector /\ total_cmp Nat.compare /\ [counted] <> [] /\ Forall (fun n => i_always_equal n = false) [counted] /\
  given two 2%nat 5%nat [counted] /\ 6%nat <> 5%nat /\ (forall o, Some Lt = Some o -> Nat.compare 2 5 = o) /\
  failures (regular_semantics (vectors vector [counted]) [counted] (push vector [counted]) (Some Lt)) two = [].
Proof.
  split_and!; [done|exact nat_total|done|by constructor|split; [done|done|intros [|i] ? Hn; done]|done|by intros o [= <-]|].
  vm_compute. reflexivity.
Qed.

(** The check passes exactly if all predictions which are used are right. *)
Theorem C75_exact : forall (V : Type) (E : EqDecision V) (cmp : V -> V -> comparison) (infos : list info) (K : costs V) (moved f : V -> V)
  (streams three : bool) (order : option comparison) (w : heap V) (x y : V),
  free K -> total_cmp cmp -> infos <> [] -> Forall (fun n => i_always_equal n = false) infos ->
  given w x y infos -> x <> y -> f y <> y -> (forall o, order = Some o -> cmp x y = o) ->
  failures (regular_semantics (machine cmp infos K moved streams three) infos (Some (do_mutate K f)) order) w = [] <->
  forall i n, infos !! i = Some n -> predicted infos K streams x y i n.
Proof.
  intros V E cmp infos K moved f streams three order w x y H1 H2 H3 H4 H5 H6 H7 H8.
  rewrite (C75_report V E cmp infos K moved f streams three order w x y) by done. exact (regular_exact infos K streams x y).
Qed.
Print Assumptions C75_exact.

Example C75_exact_ex :
  predicted [counted] vector true 2%nat 5%nat 0 counted /\
  (* one prediction too many *)
  let wrong := {| i_copy := true; i_move := false; i_swap := true; i_always_equal := false; i_predictions := {|
    p_x := of 1; p_copy := of 1; p_mutation := of 1; p_para_copy := of 1; p_para_move := of 1; p_move := of 1;
    p_assign := of 1; p_assign_no_prop := of 1; p_move_assign := of 0; p_move_assign_no_prop := of 1 |} |} in
  failures (regular_semantics (vectors vector [wrong]) [wrong] (push vector [wrong]) (Some Lt)) two = [Allocated 0 EMove 0 1].
Proof. split; [by split|]. vm_compute. reflexivity. Qed.

(** If the check passes, objects compared to themselves do not allocate. *)
Theorem C75_comparisons : forall (V : Type) (E : EqDecision V) (cmp : V -> V -> comparison) (infos : list info) (K : costs V) (moved : V -> V)
  (streams three : bool) (order : option comparison) m (w : heap V) i n v,
  failures (regular_semantics (machine cmp infos K moved streams three) infos m order) w = [] ->
  infos !! i = Some n -> v = h_val w 0 \/ v = h_val w 1 ->
  (forall c, (c < 2)%nat -> k_compare K i c v v = (0%nat, 0%nat)) /\
  (forall c, order <> None -> (c < 6)%nat \/ (c = 6%nat /\ three = true) -> k_compare K i c v v = (0%nat, 0%nat)).
Proof.
  intros V E cmp infos K moved streams three order m w i n v H Hi Hv. exact (comparisons_quiet m order w i n v H Hi Hv).
Qed.
Print Assumptions C75_comparisons.

Definition greedy : costs nat := {|
  k_compare _ c _ _ := if Nat.eqb c 4 then (1%nat, 0%nat) else (0%nat, 0%nat);
  k_copy := k_copy vector; k_move := k_move vector; k_assign := k_assign vector; k_self_assign := k_self_assign vector;
  k_move_assign := k_move_assign vector; k_swap := k_swap vector; k_self_swap := k_self_swap vector; k_mutate := k_mutate vector;
  k_para_copy := k_para_copy vector; k_para_move := k_para_move vector; k_write := k_write vector; k_read := k_read vector |}.
Example C75_comparisons_ex :
  failures (regular_semantics (vectors vector [counted]) [counted] (push vector [counted]) (Some Lt)) two = [] /\
  (* [<=] which allocates *)
  failures (regular_semantics (vectors greedy [counted]) [counted] (push greedy [counted]) (Some Lt)) two =
    [Allocated 0 (EComparison 4 0) 1 0; Allocated 0 (EComparison 4 1) 1 0].
Proof. split; vm_compute; reflexivity. Qed.

(** What is made by functions is looked at before anything else. *)
Theorem C75_initial : forall (V : Type) (E : EqDecision V) (cmp : V -> V -> comparison) (infos : list info) (K : costs V) (moved : V -> V)
  (streams three : bool) (order : option comparison) m (w : heap V) (made : nat -> nat -> nat),
  let M := machine cmp infos K moved streams three in
  (forall o i, o = 0%nat \/ o = 1%nat -> h_count w i (h_id w o i) = Z.of_nat (made o i)) ->
  failures (made_regular_semantics M infos m order) w =
    per infos (fun i n => wrong i EInitX (made 0%nat i) (p_x (i_predictions n)) ++ wrong i EInitY (made 1%nat i) (p_copy (i_predictions n))) ++
    failures (regular_semantics M infos m order) w.
Proof. intros V E cmp infos K moved streams three order m w made. exact (initial_report cmp infos K moved streams three m order w made). Qed.
Print Assumptions C75_initial.

Example C75_initial_ex :
  (forall o i, o = 0%nat \/ o = 1%nat -> h_count two i (h_id two o i) = Z.of_nat 1) /\
  failures (made_regular_semantics (vectors vector [counted]) [counted] (push vector [counted]) (Some Lt)) two = [].
Proof. split; [done|]. vm_compute. reflexivity. Qed.

(** Without allocators, exactly the checks of values are left. *)
Theorem C75_plain : forall (S : Sem.subject) order (mutator : option (Sem.world S -> nat -> Sem.world S)) w,
  regular_body (plain S) [] mutator order w = as_values (Sem.regular_body S (wish S order mutator) w).
Proof. exact regular_sim. Qed.
Print Assumptions C75_plain.

(** Containers which share an allocator are reported although the predictions are right. *)
Theorem C75_shared_refuted : exists (w : heap nat),
  h_val w 0 = 2%nat /\ h_val w 1 = 5%nat /\ (forall i n, [counted] !! i = Some n -> predicted [counted] vector true 2%nat 5%nat i n) /\
  failures (regular_semantics (vectors vector [counted]) [counted] (push vector [counted]) None) w <> [].
Proof.
  exists {| h_val := h_val two; h_id := fun _ _ => 0%nat; h_count := h_count two; h_next := h_next two |}.
  split_and!; [done|done| |vm_compute; discriminate]. intros [|i] n Hn; [injection Hn as <-; by split|done].
Qed.
Print Assumptions C75_shared_refuted.

(** Allocations by self assignments, self swaps and reading are not noticed. *)
Definition moving : info := {| i_copy := true; i_move := true; i_swap := true; i_always_equal := false; i_predictions := right_predictions |}.
Theorem C75_unseen_refuted : exists (K : costs nat),
  (forall v, k_self_assign K 0 v <> 0%nat /\ k_self_swap K 0 v <> 0%nat /\ k_read K 0 v <> 0%nat) /\
  failures (regular_semantics (vectors K [moving]) [moving] (push K [moving]) None) two = [].
Proof.
  exists {|
  k_compare := k_compare vector;
  k_copy := k_copy vector; k_move := k_move vector; k_assign := k_assign vector; k_self_assign := fun _ _ => 7%nat;
  k_move_assign := k_move_assign vector; k_swap := k_swap vector; k_self_swap := fun _ _ => 7%nat; k_mutate := k_mutate vector;
  k_para_copy := k_para_copy vector; k_para_move := k_para_move vector; k_write := k_write vector; k_read := fun _ _ => 7%nat |}.
  split; [done|]. vm_compute. reflexivity.
Qed.
Print Assumptions C75_unseen_refuted.

(** ** Move-only containers *)

Theorem C76_report : forall (V : Type) (E : EqDecision V) (cmp : V -> V -> comparison) (infos : list info) (K : costs V) (moved f : V -> V)
  (streams three : bool) (order : option comparison) (w : heap V) (x y : V),
  let M := machine cmp infos K moved streams three in
  free K -> total_cmp cmp -> infos <> [] -> Forall (fun n => i_always_equal n = false) infos ->
  cloned w x y -> x <> y -> (forall o, order = Some o -> cmp x y = o) ->
  failures (move_only_semantics M infos (Some (do_mutate K f)) order (fun a o => c_best M a o 10, fun a o => c_best M a o 11) None None) w =
    expected_move_only infos K streams x y.
Proof. intros V E cmp infos K moved f streams three order w x y M H1 H2 H3 H4. exact (move_only_report H1 H2 H3 H4 f w x y order). Qed.
Print Assumptions C76_report.

Definition wanted (K : costs nat) (infos : list info) : likes (vectors K infos) :=
  (fun a o => c_best (vectors K infos) a o 10, fun a o => c_best (vectors K infos) a o 11).
Example C76_report_ex :
  free vector /\ cloned two 2%nat 5%nat /\
  failures (move_only_semantics (vectors vector [moving]) [moving] (push vector [moving]) (Some Lt) (wanted vector [moving]) None None) two = [].
Proof. split_and!; [done|by split|]. vm_compute. reflexivity. Qed.

Theorem C76_exact : forall (V : Type) (E : EqDecision V) (cmp : V -> V -> comparison) (infos : list info) (K : costs V) (moved f : V -> V)
  (streams three : bool) (order : option comparison) (w : heap V) (x y : V),
  let M := machine cmp infos K moved streams three in
  free K -> total_cmp cmp -> infos <> [] -> Forall (fun n => i_always_equal n = false) infos ->
  cloned w x y -> x <> y -> (forall o, order = Some o -> cmp x y = o) ->
  failures (move_only_semantics M infos (Some (do_mutate K f)) order (fun a o => c_best M a o 10, fun a o => c_best M a o 11) None None) w = [] <->
  forall i n, infos !! i = Some n -> predicted_move_only infos K streams x y i n.
Proof.
  intros V E cmp infos K moved f streams three order w x y M H1 H2 H3 H4 H5 H6 H7. subst M.
  rewrite (C76_report V E cmp infos K moved f streams three order w x y) by done. exact (move_only_exact infos K streams x y).
Qed.
Print Assumptions C76_exact.

Example C76_exact_ex :
  predicted_move_only [moving] vector true 2%nat 5%nat 0 moving /\
  (* the move assignment is said to be cheap, but the allocator stays *)
  let wrong := {| i_copy := true; i_move := false; i_swap := true; i_always_equal := false; i_predictions := {|
    p_x := of 1; p_copy := of 1; p_mutation := of 1; p_para_copy := of 1; p_para_move := of 1; p_move := of 0;
    p_assign := of 1; p_assign_no_prop := of 1; p_move_assign := of 0; p_move_assign_no_prop := of 0 |} |} in
  failures (move_only_semantics (vectors vector [wrong]) [wrong] (push vector [wrong]) None (wanted vector [wrong]) None None) two =
    [Allocated 0 EMoveAssign 1 0].
Proof. split; [by split|]. vm_compute. reflexivity. Qed.

Theorem C76_initial : forall (V : Type) (E : EqDecision V) (cmp : V -> V -> comparison) (infos : list info) (K : costs V) (moved : V -> V)
  (streams three : bool) (order : option comparison) m c mc ma (w : heap V) (made : nat -> nat -> nat),
  let M := machine cmp infos K moved streams three in
  (forall o i, o = 10%nat \/ o = 11%nat -> h_count w i (h_id w o i) = Z.of_nat (made o i)) ->
  failures (made_move_only_semantics M infos m order c mc ma) w =
    per infos (fun i n => wrong i EInitX (made 10%nat i) (p_x (i_predictions n)) ++ wrong i EInitY (made 11%nat i) (p_para_move (i_predictions n))) ++
    failures (move_only_semantics M infos m order c mc ma) w.
Proof.
  intros V E cmp infos K moved streams three order m c mc ma w made.
  exact (initial_report_move_only cmp infos K moved streams three m order c mc ma w made).
Qed.
Print Assumptions C76_initial.

Theorem C76_plain : forall (S : Sem.subject) order (mutator : option (Sem.world S -> nat -> Sem.world S)) (like_x like_y : Sem.world S -> nat -> bool) w,
  move_only_body (plain S) [] mutator order (fun w o => (like_x w o, w), fun w o => (like_y w o, w)) None None w =
  as_values (Sem.move_only_body S (wish S order mutator) (like_x, like_y) w).
Proof. exact move_only_sim. Qed.
Print Assumptions C76_plain.

(** The prediction about moving y is used for x: with right predictions there is a failure. *)
Theorem C76_move_refuted : exists (K : costs nat) (n : info),
  Z.of_nat (k_move K 0 5%nat) = snd (p_move (i_predictions n)) /\
  failures (move_only_semantics (vectors K [n]) [n] (push K [n]) None (wanted K [n]) None None) two = [Allocated 0 EMove 0 1].
Proof.
  exists {|
  k_compare := k_compare vector;
  k_copy := k_copy vector; k_move := fun _ v => if Nat.eqb v 5 then 1%nat else 0%nat; k_assign := k_assign vector; k_self_assign := k_self_assign vector;
  k_move_assign := k_move_assign vector; k_swap := k_swap vector; k_self_swap := k_self_swap vector; k_mutate := k_mutate vector;
  k_para_copy := k_para_copy vector; k_para_move := k_para_move vector; k_write := k_write vector; k_read := k_read vector |},
  {| i_copy := true; i_move := true; i_swap := true; i_always_equal := false; i_predictions := {|
    p_x := of 1; p_copy := of 1; p_mutation := of 1; p_para_copy := of 1; p_para_move := of 1; p_move := of 1;
    p_assign := of 1; p_assign_no_prop := of 1; p_move_assign := of 0; p_move_assign_no_prop := of 1 |} |}.
  split; vm_compute; reflexivity.
Qed.
Print Assumptions C76_move_refuted.

(** ** Shifts *)

(** What is compared is the shifted prediction; what is reported are the numbers without the shift. *)
Theorem C77_exact : forall (C : container) i e o previous p (w : state C),
  let actual := c_count C w o i - previous in
  failures (check_allocation C i e o previous p) w = if actual =? snd p then [] else [Allocated i e (actual - (snd p - fst p)) (fst p)].
Proof. exact allocation_exact. Qed.
Print Assumptions C77_exact.

Theorem C77_release : forall pointers top i k, shift false pointers top i k = i_predictions i.
Proof. exact shift_release. Qed.
Print Assumptions C77_release.

Theorem C77_twice : forall debug pointers top pointers' top' i k k',
  shift debug pointers top (shifted_info debug pointers' top' k' i) k = shift debug pointers top i k.
Proof. exact shift_twice. Qed.
Print Assumptions C77_twice.

(** If predictions are right for the release build, they are right for the debug build, where every container made allocates once more. *)
Theorem C77_debug : forall (V : Type) (infos infos' : list info) (K : costs V) streams x y i n,
  infos' = map (shifted_info true false true top_counts) infos ->
  (forall p, In p [p_x; p_copy; p_mutation; p_para_copy; p_para_move; p_move; p_assign; p_assign_no_prop; p_move_assign; p_move_assign_no_prop] ->
     fst (p (i_predictions n)) = snd (p (i_predictions n))) ->
  infos !! i = Some n -> predicted infos K streams x y i n ->
  predicted infos' (proxies infos K) streams x y i (shifted_info true false true top_counts n).
Proof. intros V. exact proxies_predicted. Qed.
Print Assumptions C77_debug.

Example C77_debug_ex :
  let infos' := map (shifted_info true false true top_counts) [counted] in
  failures (regular_semantics (vectors (proxies [counted] vector) infos') infos' (push (proxies [counted] vector) infos') (Some Lt)) two = [] /\
  failures (regular_semantics (vectors (proxies [counted] vector) [counted]) [counted] (push (proxies [counted] vector) [counted]) (Some Lt)) two =
    [Allocated 0 ECopyX 2 1; Allocated 0 ECopyY 2 1; Allocated 0 EAssignX 2 1; Allocated 0 EAssignY 2 1; Allocated 0 EMove 1 0].
Proof. split; vm_compute; reflexivity. Qed.
