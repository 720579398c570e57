(** The report about the allocations of a move-only container. *)
From stdpp Require Import list sets.
From Coq Require Import ZArith.
From Verif.Base Require Import Compare ListLemmas.
From Verif.Semantics Require Import Model.
From Verif.Allocation Require Import Model Spec Proofs ProofsRegular.
Local Open Scope Z_scope.

Section move_only.
  Context {V : Type} {E : EqDecision V} {cmp : V -> V -> comparison} {infos : list info} {K : costs V} {moved : V -> V} {streams three : bool}.
  Notation M := (machine cmp infos K moved streams three).
  Context (Hfree : free K) (Hcmp : total_cmp cmp) (Hinfos : infos <> []) (Hdiff : Forall (fun n => i_always_equal n = false) infos).
  Context (f : V -> V).
  Notation mut := (Some (do_mutate K f : state M -> nat -> state M)).
  Notation like q := (fun a o => c_best M a o q).

  (** What only is about other objects *)
  Definition apart (w w' : heap V) (l : list nat) : Prop := forall k, k ∉ l -> h_val w' k = h_val w k /\ forall i, h_id w' k i = h_id w k i.

  Lemma like_ok w o q v : h_val w o = v -> h_val w q = v -> fst (like q w o) = true /\ same w (snd (like q w o)).
  Proof using Hfree. intros <- Hq. cbn. split; [by apply bool_decide_eq_true|by apply compare_same]. Qed.

  Lemma para_move_ok w u o z v r q p : h_val w z = u -> h_val w q = u -> NoDup [z; v; r; q] ->
    exists w', para_move_check M infos o z v r (like q) p w =
      (true, w', per infos (fun i n => wrong i (EParaMove o) (k_para_move K i u) (p (i_predictions n)))) /\
      h_val w' r = u /\ (forall i, h_id w' r i = h_next w) /\ h_next w' = S (h_next w) /\ apart w w' [z; v; r].
  Proof using All.
    intros Hz Hq Hd. apply NoDup_cons in Hd as [D1 Hd]. apply NoDup_cons in Hd as [D2 Hd]. apply NoDup_cons in Hd as [D3 _].
    assert (z <> v /\ z <> r /\ z <> q /\ v <> r /\ v <> q /\ r <> q) as (N1 & N2 & N3 & N4 & N5 & N6) by set_solver.
    destruct (ex_intro (fun w0 => w0 = snd (like q w z)) _ eq_refl) as [w1 Hw1].
    assert (check M (NotTwin o) (fun a => like q a z) w = (true, w1, []) /\ same w w1 /\ h_next w1 = h_next w) as (E1 & S1 & X1).
    { destruct (like_ok w z q u Hz Hq) as [L1 L2]. rewrite Hw1. split_and!; [|done|done]. unfold check. by rewrite L1. }
    destruct (ex_intro (fun w0 => w0 = c_para_move M w1 z v) _ eq_refl) as [w2 Hw2].
    assert (h_val w2 v = u /\ h_val w2 q = u /\ (forall i, h_id w2 v i = h_next w) /\ (forall i, h_count w2 i (h_next w) = Z.of_nat (k_para_move K i u)) /\
      h_next w2 = S (h_next w) /\ apart w w2 [z; v]) as (V2 & Q2 & I2 & C2 & X2 & A2).
    { rewrite Hw2. cbn [h_next c_para_move machine]. unfold do_para_move. cbn. rewrite <- X1.
      split_and!; try done.
      - rewrite Nat.eqb_refl. by rewrite (proj1 S1).
      - apply Nat.eqb_neq in N3, N5. rewrite (Nat.eqb_sym q v), N5, (Nat.eqb_sym q z), N3. by rewrite (proj1 S1).
      - intros i. by rewrite Nat.eqb_refl.
      - intros i. rewrite !Nat.eqb_refl, (proj1 S1), Hz. lia.
      - intros k Hk. assert (k <> z /\ k <> v) as [K1%Nat.eqb_neq K2%Nat.eqb_neq] by set_solver.
        cbn. rewrite K1, K2, (proj1 S1). split; [done|]. intros i. by rewrite (proj1 (proj2 S1)). }
    destruct (ex_intro (fun w0 => w0 = snd (like q w2 v)) _ eq_refl) as [w3 Hw3].
    assert (check M (ParaMoveValue o) (fun a => like q a v) w2 = (true, w3, []) /\ same w2 w3 /\ h_next w3 = h_next w2) as (E3 & S3 & X3).
    { destruct (like_ok w2 v q u V2 Q2) as [L1 L2]. rewrite Hw3. split_and!; [|done|done]. unfold check. by rewrite L1. }
    destruct (ex_intro (fun w0 => w0 = c_move M w3 v r) _ eq_refl) as [w4 Hw4].
    assert (h_val w4 r = u /\ h_val w4 q = u /\ (forall i, h_id w4 r i = h_next w) /\ h_next w4 = S (h_next w) /\ apart w w4 [z; v; r])
      as (V4 & Q4 & I4 & X4 & A4).
    { rewrite Hw4. cbn. rewrite X3. split_and!; try done.
      - rewrite Nat.eqb_refl. by rewrite (proj1 S3).
      - apply Nat.eqb_neq in N6, N5. rewrite (Nat.eqb_sym q r), N6, (Nat.eqb_sym q v), N5. by rewrite (proj1 S3).
      - intros i. rewrite Nat.eqb_refl. by rewrite (proj1 (proj2 S3)).
      - intros k Hk. assert (k <> z /\ k <> v /\ k <> r) as (K1 & K2 & K3) by set_solver.
        assert (k ∉ [z; v]) as K4 by set_solver. destruct (A2 k K4) as [A2v A2i].
        apply Nat.eqb_neq in K2, K3. cbn. rewrite K2, K3, (proj1 S3), A2v. split; [done|]. intros i. by rewrite (proj1 (proj2 S3)). }
    destruct (ex_intro (fun w0 => w0 = snd (like q w4 r)) _ eq_refl) as [w5 Hw5].
    assert (check M (MovedValue o) (fun a => like q a r) w4 = (true, w5, []) /\ same w4 w5 /\ h_next w5 = h_next w4) as (E5 & S5 & X5).
    { destruct (like_ok w4 r q u V4 Q4) as [L1 L2]. rewrite Hw5. split_and!; [|done|done]. unfold check. by rewrite L1. }
    exists w5. split_and!.
    - unfold para_move_check. eapply bind_eq_nil; [exact E1|]. cbn iota. eapply bind_eq_nil; [reflexivity|]. rewrite <- Hw2.
      rewrite <- (app_nil_r (per _ _)). eapply bind_eq.
      + eapply (each_eq (C := M)). intros i n Hi. apply (allocation_spec (C := M)). cbn [c_count machine]. rewrite I2, C2. lia.
      + eapply bind_eq_nil; [exact E3|]. cbn iota. eapply bind_eq_nil; [reflexivity|]. rewrite <- Hw4.
        eapply bind_eq_nil; [exact E5|]. reflexivity.
    - by rewrite (proj1 S5).
    - intros i. by rewrite (proj1 (proj2 S5)).
    - by rewrite X5.
    - intros k Hk. destruct (A4 k Hk) as [A4v A4i]. rewrite (proj1 S5). split; [done|]. intros i. by rewrite (proj1 (proj2 S5)).
  Qed.

  Lemma move_ok w u z v r q : h_val w z = u -> h_val w q = u -> NoDup [z; v; r; q] ->
    exists w', move_construction M infos z v r (like q) None w =
      (true, w', per infos (fun i n => wrong i EMove (k_move K i u) (p_move (i_predictions n)))) /\
      h_val w' r = u /\ (forall i, h_id w' r i = h_id w z i) /\ apart w w' [z; v; r].
  Proof using All.
    intros Hz Hq Hd. apply NoDup_cons in Hd as [D1 Hd]. apply NoDup_cons in Hd as [D2 Hd]. apply NoDup_cons in Hd as [D3 _].
    assert (z <> v /\ z <> r /\ z <> q /\ v <> r /\ v <> q /\ r <> q) as (N1 & N2 & N3 & N4 & N5 & N6) by set_solver.
    destruct (ex_intro (fun w0 => w0 = c_move M w z v) _ eq_refl) as [w1 Hw1].
    assert (h_val w1 v = u /\ h_val w1 q = u /\ (forall i, h_id w1 v i = h_id w z i) /\
      (forall i, h_count w1 i (h_id w z i) = h_count w i (h_id w z i) + Z.of_nat (k_move K i u)) /\ apart w w1 [z; v]) as (V1 & Q1 & I1 & C1 & A1).
    { rewrite Hw1. cbn. split_and!.
      - by rewrite Nat.eqb_refl.
      - apply Nat.eqb_neq in N3, N5. by rewrite (Nat.eqb_sym q v), N5, (Nat.eqb_sym q z), N3.
      - intros i. by rewrite Nat.eqb_refl.
      - intros i. by rewrite Nat.eqb_refl, Hz.
      - intros k Hk. assert (k <> z /\ k <> v) as [K1%Nat.eqb_neq K2%Nat.eqb_neq] by set_solver. cbn. by rewrite K1, K2. }
    edestruct (check_ok (Value MoveConstruction) (fun a => like q a v) w1) as (w2 & E2 & S2); [apply (like_ok w1 v q u V1 Q1)..|].
    exists (c_move M w2 v r). split_and!.
    - unfold move_construction. eapply bind_eq_nil; [reflexivity|]. eapply bind_eq_nil; [reflexivity|]. rewrite <- Hw1.
      eapply bind_eq_nil; [exact E2|]. cbn iota. eapply bind_eq_nil; [reflexivity|]. rewrite <- (app_nil_r (per _ _)). eapply bind_eq; [|reflexivity].
      eapply action_eq; [done|]. eapply (each_eq (C := M)). intros i n Hi. apply (allocation_spec (C := M)).
      cbn [c_count machine]. rewrite (proj1 (proj2 S2)), (proj2 (proj2 S2)), I1, C1. lia.
    - cbn. rewrite Nat.eqb_refl. by rewrite (proj1 S2).
    - intros i. cbn. rewrite Nat.eqb_refl. by rewrite (proj1 (proj2 S2)).
    - intros k Hk. assert (k <> z /\ k <> v /\ k <> r) as (K1 & K2 & K3) by set_solver.
      assert (k ∉ [z; v]) as K4 by set_solver. destruct (A1 k K4) as [A1v A1i].
      apply Nat.eqb_neq in K2, K3. cbn. rewrite K2, K3, (proj1 S2), A1v. split; [done|]. intros i. by rewrite (proj1 (proj2 S2)).
  Qed.

  Lemma swap_ok w u v a b p q : forallb i_swap infos = true -> a <> b -> h_val w a = u -> h_val w b = v -> h_val w p = u -> h_val w q = v ->
    p ∉ [a; b] -> q ∉ [a; b] -> (forall i n, infos !! i = Some n -> h_id w a i <> h_id w b i) ->
    exists w', swap_check M infos a b (like p) (like q) (swap_allocations M infos a b) w =
      (true, w', if forallb i_move infos then
         per infos (fun i _ => wrong i ESwapX (fst (k_swap K i u v)) (0, 0) ++ wrong i ESwapY (snd (k_swap K i u v)) (0, 0)) else []) /\
      h_val w' a = v /\ h_val w' b = u /\ (forall i n, infos !! i = Some n -> h_id w' a i = h_id w b i /\ h_id w' b i = h_id w a i) /\ apart w w' [a; b].
  Proof using All.
    intros Hs Hab Ha Hb Hp Hq Dp Dq Hid.
    destruct (ex_intro (fun w0 => w0 = c_swap M w a b) _ eq_refl) as [w1 Hw1].
    assert (h_val w1 a = v /\ h_val w1 b = u /\ (forall i n, infos !! i = Some n -> h_id w1 a i = h_id w b i /\ h_id w1 b i = h_id w a i) /\
      apart w w1 [a; b]) as (V1 & V2 & I1 & A1).
    { rewrite Hw1. apply Nat.eqb_neq in Hab as Hab'. apply not_eq_sym, Nat.eqb_neq in Hab as Hba'.
      cbn. unfold do_swap. rewrite Hab'. cbn. split_and!.
      - by rewrite Hab', Nat.eqb_refl.
      - by rewrite Nat.eqb_refl.
      - intros i n Hn. rewrite Nat.eqb_refl, Hab', Nat.eqb_refl. pose proof (trait_at i_swap i n Hn) as Ht.
        rewrite (swaps_at i n Hs Hn) in Ht. by rewrite Ht.
      - intros k Hk. assert (k <> a /\ k <> b) as [K1%Nat.eqb_neq K2%Nat.eqb_neq] by set_solver. cbn. by rewrite K1, K2. }
    edestruct (check_ok (Value SwapY) (fun o => like p o b) w1) as (w2 & E2 & S2); [apply (like_ok w1 b p u V2); by rewrite (proj1 (A1 p Dp))..|].
    edestruct (check_ok (Value SwapX) (fun o => like q o a) w2) as (w3 & E3 & S3).
    1,2: apply (like_ok w2 a q v); rewrite (proj1 S2); [done|]; by rewrite (proj1 (A1 q Dq)).
    assert (same w1 w3) as S13 by (by eapply same_trans).
    edestruct (check_ok (Value SelfSwap) (fun o => like p o b) (c_swap M w3 b b)) as (w4 & E4 & S4).
    1,2: apply (like_ok (c_swap M w3 b b) b p u); cbn; unfold do_swap; rewrite Nat.eqb_refl; cbn; rewrite (proj1 S13); [done|]; by rewrite (proj1 (A1 p Dp)).
    exists w4.
    assert (forall k, h_val w4 k = h_val w1 k /\ forall i, h_id w4 k i = h_id w1 k i) as H4.
    { intros k. rewrite (proj1 S4). cbn. unfold do_swap. rewrite Nat.eqb_refl. cbn. rewrite (proj1 S13). split; [done|].
      intros i. rewrite (proj1 (proj2 S4)). cbn. unfold do_swap. rewrite Nat.eqb_refl. cbn. by rewrite (proj1 (proj2 S13)). }
    split_and!.
    - unfold swap_check. eapply bind_eq_nil; [reflexivity|]. eapply bind_eq_nil; [reflexivity|]. eapply bind_eq_nil; [reflexivity|]. rewrite <- Hw1.
      eapply bind_eq_nil; [exact E2|]. eapply bind_eq_nil; [exact E3|]. cbn iota. cbn [andb].
      rewrite <- (app_nil_r (if forallb i_move infos then _ else _)). eapply bind_eq; [|eapply bind_eq_nil; [reflexivity|exact E4]].
      eapply action_eq; [done|]. apply (swap_allocations_ok Hdiff); try done. by rewrite <- Hw1.
    - by rewrite (proj1 (H4 a)).
    - by rewrite (proj1 (H4 b)).
    - intros i n Hn. rewrite (proj2 (H4 a)), (proj2 (H4 b)). by apply (I1 i n).
    - intros k Hk. destruct (A1 k Hk) as [A1v A1i]. rewrite (proj1 (H4 k)). split; [done|]. intros i. by rewrite (proj2 (H4 k)).
  Qed.

  Notation clones := (like 10%nat, like 11%nat).

  Lemma apart_trans w1 w2 w3 l l' : apart w1 w2 l -> apart w2 w3 l' -> apart w1 w3 (l ++ l').
  Proof.
    intros H1 H2 k Hk. assert (k ∉ l /\ k ∉ l') as [K1 K2] by set_solver. destruct (H1 k K1) as [V1 I1], (H2 k K2) as [V2 I2].
    split; [by rewrite V2|]. intros i. by rewrite I2.
  Qed.

  Lemma move_only_report w x y (order : option comparison) : cloned w x y -> x <> y -> (forall o, order = Some o -> cmp x y = o) ->
    failures (move_only_semantics M infos mut order clones None None) w = expected_move_only infos K streams x y.
  Proof using All.
    intros [D1 D2 D3 D4] Hxy Ho.
    destruct (para_move_ok w x 0 12 14 0 10 p_x) as (w1 & E1 & V1 & I1 & X1 & A1); [done..|by apply (bool_decide_unpack _); vm_compute|].
    destruct (para_move_ok w1 y 1 13 15 1 11 p_para_move) as (w2 & E2 & V2 & I2 & X2 & A2);
      [by rewrite (proj1 (A1 13%nat ltac:(set_solver)))|by rewrite (proj1 (A1 11%nat ltac:(set_solver)))|by apply (bool_decide_unpack _); vm_compute|].
    assert (h_val w2 0 = x /\ h_val w2 10 = x /\ h_val w2 11 = y /\ forall i, h_id w2 0 i <> h_id w2 1 i) as (F0 & F10 & F11 & Fi).
    { split_and!.
      - by rewrite (proj1 (A2 0%nat ltac:(set_solver))).
      - by rewrite (proj1 (A2 10%nat ltac:(set_solver))), (proj1 (A1 10%nat ltac:(set_solver))).
      - by rewrite (proj1 (A2 11%nat ltac:(set_solver))), (proj1 (A1 11%nat ltac:(set_solver))).
      - intros i. rewrite I2, X1, (proj2 (A2 0%nat ltac:(set_solver))), I1. lia. }
    destruct (prerequisites_ok (cmp := cmp) (infos := infos) (K := K) (moved := moved) (streams := streams) (three := three)
      Hfree Hcmp order w2 0 1 (Some clones)) as (w3 & E3 & S3).
    { by rewrite F0, V2. } { by rewrite F0, V2. }
    { intros lx ly w' [= <- <-] Hw'. split; [apply (like_ok w' 0 10 x)|apply (like_ok w' 1 11 y)]; by rewrite (proj1 Hw'). }
    destruct (move_ok w3 x 0 2 3 10) as (w4 & E4 & V4 & I4 & A4); [by rewrite (proj1 S3)..|by apply (bool_decide_unpack _); vm_compute|].
    assert (h_val w4 1 = y /\ h_val w4 10 = x /\ h_val w4 11 = y /\ forall i n, infos !! i = Some n -> h_id w4 3 i <> h_id w4 1 i) as (G1 & G10 & G11 & Gi).
    { split_and!.
      - by rewrite (proj1 (A4 1%nat ltac:(set_solver))), (proj1 S3).
      - by rewrite (proj1 (A4 10%nat ltac:(set_solver))), (proj1 S3).
      - by rewrite (proj1 (A4 11%nat ltac:(set_solver))), (proj1 S3).
      - intros i n _. rewrite I4, (proj2 (A4 1%nat ltac:(set_solver))), !(proj1 (proj2 S3)). apply Fi. }
    assert (exists w6, (if forallb i_swap infos then
           bind M (swap_check M infos 3 1 (fst clones) (snd clones) (swap_allocations M infos 3 1)) (fun b : bool =>
           (if b then move_assign M infos mut 1 3 (snd clones) None else ret M tt))
         else move_assign M infos mut 3 1 (snd clones) None) w4 =
      (tt, w6,
       (if forallb i_swap infos && forallb i_move infos then
          per infos (fun i _ => wrong i ESwapX (fst (k_swap K i x y)) (0, 0) ++ wrong i ESwapY (snd (k_swap K i x y)) (0, 0)) else []) ++
       per infos (fun i n => wrong i EMoveAssign (k_move_assign K i (i_move n) x y)
         (if i_move n then p_move_assign (i_predictions n) else p_move_assign_no_prop (i_predictions n))) ++
       per infos (fun i n => wrong i EMutationMoveAssign (k_mutate K i y) (p_mutation (i_predictions n)))) /\ apart w4 w6 [1%nat; 3%nat])
      as (w6 & E6 & A6).
    { destruct (forallb i_swap infos) eqn:Hs.
      - destruct (swap_ok w4 x y 3 1 10 11) as (w5 & E5 & V5 & V5' & I5 & A5); try done; [set_solver..|].
        destruct (move_assign_stage (cmp := cmp) (moved := moved) (streams := streams) (three := three) Hfree Hinfos f w5 x y 1 3 (like 11))
          as (w6 & E6 & A6); try done.
        { intros i n Hn. rewrite (proj1 (I5 i n Hn)), (proj2 (I5 i n Hn)). by apply (Gi i n). }
        { intros w' Hw' Hk. apply (like_ok w' 1 11 y Hw'). rewrite Hk by done. by rewrite (proj1 (A5 11%nat ltac:(set_solver))). }
        exists w6. split.
        + eapply bind_eq; [exact E5|]. cbn iota. exact E6.
        + intros k Hk. destruct (A6 k ltac:(set_solver) ltac:(set_solver)) as [A6v A6i]. destruct (A5 k ltac:(set_solver)) as [A5v A5i].
          split; [by rewrite A6v|]. intros i. by rewrite A6i.
      - destruct (move_assign_stage (cmp := cmp) (moved := moved) (streams := streams) (three := three) Hfree Hinfos f w4 x y 3 1 (like 11))
          as (w6 & E6 & A6); try done.
        { intros w' Hw' Hk. apply (like_ok w' 3 11 y Hw'). by rewrite Hk. }
        exists w6. split; [exact E6|]. intros k Hk. apply A6; set_solver. }
    destruct (serialization_stage (cmp := cmp) (K := K) (moved := moved) (streams := streams) (three := three) Hinfos f w6 y 0 11 (like 11))
      as (w7 & E7 & A7 & I7).
    { by rewrite (proj1 (A6 11%nat ltac:(set_solver))). }
    { intros w' Hw' Hk. apply (like_ok w' 0 11 y Hw'). rewrite Hk by done. by rewrite (proj1 (A6 11%nat ltac:(set_solver))). }
    assert (exists b w8, move_only_body M infos mut order clones None None w2 = (b, w8,
      per infos (fun i n => wrong i EMove (k_move K i x) (p_move (i_predictions n))) ++
      (if forallb i_swap infos && forallb i_move infos then
         per infos (fun i _ => wrong i ESwapX (fst (k_swap K i x y)) (0, 0) ++ wrong i ESwapY (snd (k_swap K i x y)) (0, 0)) else []) ++
      per infos (fun i n => wrong i EMoveAssign (k_move_assign K i (i_move n) x y)
        (if i_move n then p_move_assign (i_predictions n) else p_move_assign_no_prop (i_predictions n))) ++
      per infos (fun i n => wrong i EMutationMoveAssign (k_mutate K i y) (p_mutation (i_predictions n))) ++
      (if streams then per infos (fun i _ => wrong i ESerialization (k_write K i y) (0, 0)) else []))) as (b & w8 & E8).
    { exists true, w7. unfold move_only_body. eapply bind_eq_nil; [exact E3|]. cbn iota. eapply bind_eq; [exact E4|]. cbn iota.
      rewrite (swappable_eq Hdiff).
      match goal with |- _ = (_, _, ?a ++ ?b ++ ?c ++ ?d) => replace (a ++ b ++ c ++ d) with ((a ++ b ++ c) ++ d) by (by rewrite <- !app_assoc) end.
      eapply bind_eq; [exact E6|]. rewrite <- (app_nil_r (if streams then _ else _)). eapply bind_eq; [|reflexivity].
      revert E7. cbn [c_serialize machine]. unfold serialization_check. cbn [c_serialize machine]. by destruct streams. }
    unfold failures, move_only_semantics, expected_move_only.
    assert (bind M (para_move_check M infos 0 12 14 0 (fst clones) p_x) (fun bx => bind M (para_move_check M infos 1 13 15 1 (snd clones) p_para_move) (fun b_y =>
      if bx && b_y then bind M (guarded M (move_only_body M infos mut order clones None None)) (fun _ => ret M tt) else ret M tt)) w =
      (tt, w8, expected_move_only infos K streams x y)) as ->; [|done].
    unfold expected_move_only. eapply bind_eq; [exact E1|]. eapply bind_eq; [exact E2|]. cbn [andb].
    match goal with |- _ = (_, _, ?l) => rewrite <- (app_nil_r l) end. eapply bind_eq; [|reflexivity].
    rewrite (guarded_eq _ _ _ _ _ E8). reflexivity.
  Qed.
End move_only.

Section exact.
  Context {V : Type} (infos : list info) (K : costs V) (streams : bool).
  Lemma move_only_exact x y : expected_move_only infos K streams x y = [] <-> forall i n, infos !! i = Some n -> predicted_move_only infos K streams x y i n.
  Proof.
    unfold expected_move_only. split.
    - intros H.
      apply app_eq_nil in H as [B1 H]. apply app_eq_nil in H as [B2 H]. apply app_eq_nil in H as [B3 H]. apply app_eq_nil in H as [B4 H].
      apply app_eq_nil in H as [B5 H]. apply app_eq_nil in H as [B6 B7].
      rewrite per_nil in B1, B2, B3, B5, B6. intros i n Hi.
      specialize (B1 i n Hi). specialize (B2 i n Hi). specialize (B3 i n Hi). specialize (B5 i n Hi). specialize (B6 i n Hi). rewrite wrong_nil in *.
      split; try done.
      + intros Hs Hm. rewrite Hs, Hm in B4. cbn [andb] in B4. rewrite per_nil in B4. specialize (B4 i n Hi).
        apply app_eq_nil in B4 as [B4 B4']. rewrite wrong_nil in B4, B4'. cbn [snd] in *. destruct (k_swap K i x y) as [p q]. cbn in *.
        f_equal; lia.
      + intros Hs. rewrite Hs, per_nil in B7. specialize (B7 i n Hi). rewrite wrong_nil in B7. cbn in B7. lia.
    - intros H. repeat (apply both_nil; split).
      all: try (apply per_nil; intros i n Hi; destruct (H i n Hi); rewrite ?wrong_nil; done).
      + destruct (forallb i_swap infos) eqn:Hs, (forallb i_move infos) eqn:Hm; cbn [andb]; [|done..].
        apply per_nil. intros i n Hi. destruct (H i n Hi). rewrite b_swap by done. done.
      + destruct streams; [|done]. apply per_nil. intros i n Hi. destruct (H i n Hi). rewrite b_write by done. done.
  Qed.
End exact.
