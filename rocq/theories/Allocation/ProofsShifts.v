(** Shifts of predictions. *)
From stdpp Require Import list.
From Coq Require Import ZArith.
From Verif.Base Require Import ListLemmas.
From Verif.Semantics Require Import Model.
From Verif.Allocation Require Import Model Spec Proofs.
Local Open Scope Z_scope.

Lemma shift_release pointers top i k : shift false pointers top i k = i_predictions i.
Proof. unfold shift, shifted. by destruct (i_predictions i). Qed.

Lemma shifted_twice debug p m n : shifted debug (shifted debug p m) n = shifted debug p n.
Proof. by destruct debug. Qed.
Lemma shift_twice debug pointers top pointers' top' i k k' :
  shift debug pointers top (shifted_info debug pointers' top' k' i) k = shift debug pointers top i k.
Proof. unfold shifted_info, shift. cbn [i_predictions i_copy i_move i_swap p_x p_copy p_mutation p_para_copy p_para_move p_move p_assign
  p_assign_no_prop p_move_assign p_move_assign_no_prop]. by rewrite !shifted_twice. Qed.

Lemma allocation_exact (C : container) i e o previous p (w : state C) :
  let actual := c_count C w o i - previous in
  failures (check_allocation C i e o previous p) w = if actual =? snd p then [] else [Allocated i e (actual - (snd p - fst p)) (fst p)].
Proof.
  cbn zeta. unfold failures, check_allocation. cbn [snd]. destruct (_ =? fst p) eqn:E1, (_ =? snd p) eqn:E2; try done.
  - apply Z.eqb_eq in E1. apply Z.eqb_neq in E2. lia.
  - apply Z.eqb_neq in E1. apply Z.eqb_eq in E2. lia.
Qed.

Lemma proxies_predicted {V} (infos infos' : list info) (K : costs V) streams x y i n :
  infos' = map (shifted_info true false true top_counts) infos ->
  (forall p, In p [p_x; p_copy; p_mutation; p_para_copy; p_para_move; p_move; p_assign; p_assign_no_prop; p_move_assign; p_move_assign_no_prop] ->
     fst (p (i_predictions n)) = snd (p (i_predictions n))) ->
  infos !! i = Some n -> predicted infos K streams x y i n ->
  predicted infos' (proxies infos K) streams x y i (shifted_info true false true top_counts n).
Proof.
  intros -> Hp Hi [A1 A2 A3 A4 A5 A6 A7 A8 A9 A10].
  assert (forall f, trait infos f i = f n) as Ht. { intros f. unfold trait. by rewrite Hi. }
  assert (forallb i_swap (map (shifted_info true false true top_counts) infos) = forallb i_swap infos) as Hs.
  { clear. induction infos as [|m l IH]; [done|]. cbn [map forallb]. by rewrite IH. }
  split; cbn [k_copy k_assign k_move k_move_assign k_mutate k_swap k_write k_para_copy k_para_move proxies shifted_info i_copy i_move i_predictions
     shift p_x p_copy p_mutation p_para_copy p_para_move p_move p_assign p_assign_no_prop p_move_assign p_move_assign_no_prop shifted snd fst
     top_counts n_x n_y n_mutation negb andb]; rewrite ?Ht.
  - rewrite Hp by (cbn; tauto). lia.
  - rewrite Hp by (cbn; tauto). lia.
  - destruct (i_copy n); cbn [snd fst]; rewrite Hp by (cbn; tauto); lia.
  - rewrite Hp by (cbn; tauto). lia.
  - destruct (i_move n); cbn [snd fst]; rewrite Hp by (cbn; tauto); lia.
  - rewrite Hp by (cbn; tauto). lia.
  - by rewrite Hs.
  - done.
  - rewrite Hp by (cbn; tauto). lia.
  - rewrite Hp by (cbn; tauto). lia.
Qed.

Lemma initial_report {V} {E : EqDecision V} (cmp : V -> V -> comparison) infos K moved streams three m order (w : heap V) (made : nat -> nat -> nat) :
  let M := machine cmp infos K moved streams three in
  (forall o i, o = 0%nat \/ o = 1%nat -> h_count w i (h_id w o i) = Z.of_nat (made o i)) ->
  failures (made_regular_semantics M infos m order) w =
    per infos (fun i n => wrong i EInitX (made 0%nat i) (p_x (i_predictions n)) ++ wrong i EInitY (made 1%nat i) (p_copy (i_predictions n))) ++
    failures (regular_semantics M infos m order) w.
Proof.
  intros M Hm. unfold failures, made_regular_semantics, initial_allocations, bind.
  erewrite (each_eq (C := M)).
  - destruct (regular_semantics M infos m order w) as [[a w'] l]. reflexivity.
  - intros i n Hi. eapply bind_eq; apply (allocation_spec (C := M)); cbn [c_count M machine]; rewrite Hm by auto; lia.
Qed.
Lemma initial_report_move_only {V} {E : EqDecision V} (cmp : V -> V -> comparison) infos K moved streams three m order c mc ma (w : heap V) (made : nat -> nat -> nat) :
  let M := machine cmp infos K moved streams three in
  (forall o i, o = 10%nat \/ o = 11%nat -> h_count w i (h_id w o i) = Z.of_nat (made o i)) ->
  failures (made_move_only_semantics M infos m order c mc ma) w =
    per infos (fun i n => wrong i EInitX (made 10%nat i) (p_x (i_predictions n)) ++ wrong i EInitY (made 11%nat i) (p_para_move (i_predictions n))) ++
    failures (move_only_semantics M infos m order c mc ma) w.
Proof.
  intros M Hm. unfold failures, made_move_only_semantics, initial_allocations, bind at 1.
  erewrite (each_eq (C := M)).
  - destruct (move_only_semantics M infos m order c mc ma w) as [[a w'] l]. reflexivity.
  - intros i n Hi. eapply bind_eq; apply (allocation_spec (C := M)); cbn [c_count M machine]; rewrite Hm by auto; lia.
Qed.
