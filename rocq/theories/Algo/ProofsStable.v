(** Lemmas for C02: merge sort with a buffer. *)
From stdpp Require Import list.
From Verif.Base Require Import Outcome Order ListLemmas.
From Verif.Algo Require Import Model Spec.

Lemma sorted_by_nil {A} (lt : A -> A -> bool) : sorted_by lt [].
Proof. intros i j x y _ Hx. done. Qed.

Lemma sorted_by_cons {A} (lt : A -> A -> bool) x l :
  sorted_by lt (x :: l) <-> Forall (fun y => lt y x = false) l /\ sorted_by lt l.
Proof.
  split.
  - intros H. split.
    + apply Forall_lookup. intros i y Hy. apply (H 0 (S i) x y); [lia|done|done].
    + intros i j u v Hij Hu Hv. apply (H (S i) (S j) u v); [lia|done|done].
  - intros [HF Hs] i j u v Hij Hu Hv. destruct j as [|j]; [lia|].
    destruct i as [|i]; cbn in Hu, Hv.
    + simplify_eq. rewrite Forall_lookup in HF. by eapply HF.
    + eapply (Hs i j); [lia|done|done].
Qed.

Section stable.
  Context {A B : Type} (comp : B -> B -> bool) (proj : A -> B).
  Let lt (x y : A) : bool := comp (proj x) (proj y).
  Hypothesis Hsw : strict_weak lt.

  Lemma merge_nil_r l : merge comp proj l [] = l.
  Proof. by destruct l. Qed.

  Lemma merge_cons x l1 y l2 :
    merge comp proj (x :: l1) (y :: l2) =
    if lt y x then y :: merge comp proj (x :: l1) l2 else x :: merge comp proj l1 (y :: l2).
  Proof. reflexivity. Qed.

  Lemma merge_perm l1 l2 : merge comp proj l1 l2 ≡ₚ l1 ++ l2.
  Proof.
    revert l2. induction l1 as [|x l1 IH1]; intros l2; [by destruct l2|].
    induction l2 as [|y l2 IH2]; [by rewrite merge_nil_r, app_nil_r|].
    rewrite merge_cons. destruct (lt y x).
    - rewrite IH2. by rewrite Permutation_middle.
    - rewrite IH1. done.
  Qed.

  Lemma merge_sorted l1 l2 :
    sorted_by lt l1 -> sorted_by lt l2 -> sorted_by lt (merge comp proj l1 l2).
  Proof.
    revert l2. induction l1 as [|x l1 IH1]; intros l2 H1 H2; [by destruct l2|].
    induction l2 as [|y l2 IH2]; [by rewrite merge_nil_r|].
    rewrite merge_cons.
    pose proof (proj1 (sorted_by_cons _ _ _) H1) as [HF1 Hs1].
    pose proof (proj1 (sorted_by_cons _ _ _) H2) as [HF2 Hs2].
    destruct (lt y x) eqn:E; apply sorted_by_cons; (split; [|auto]);
      rewrite merge_perm; apply Forall_app; split; try done.
    - constructor; [by apply sw_asym|].
      eapply Forall_impl; [exact HF1|]. intros z Hz. cbn in Hz.
      eapply (sw_neg_trans lt Hsw y x z); [by apply sw_asym|done].
    - constructor; [done|].
      eapply Forall_impl; [exact HF2|]. intros z Hz. cbn in Hz.
      by eapply (sw_neg_trans lt Hsw x y z).
  Qed.

  Lemma tied_neg x y z : tied lt x y = true -> lt y z = true -> tied lt x z = false.
  Proof.
    unfold tied. intros Hxy Hyz. apply andb_true_iff in Hxy as [Hxy Hyx].
    apply negb_true_iff in Hxy, Hyx.
    assert (lt x z = true) as ->; [|done].
    destruct (lt x z) eqn:E; [done|].
    pose proof (sw_neg_trans lt Hsw z x y) as Hn. rewrite Hn in Hyz; done.
  Qed.

  Lemma filter_none_tied x l :
    Forall (fun y => tied lt x y = false) l -> filter (fun y => tied lt x y = true) l = [].
  Proof.
    induction 1 as [|y l Hy _ IH]; [done|]. rewrite filter_cons_False; [done|]. by rewrite Hy.
  Qed.

  Lemma merge_stable l1 l2 :
    sorted_by lt l1 -> sorted_by lt l2 -> stable lt (l1 ++ l2) (merge comp proj l1 l2).
  Proof.
    intros H1 H2 w. rewrite filter_app. revert l2 H1 H2.
    induction l1 as [|x l1 IH1]; intros l2 H1 H2; [by destruct l2|].
    induction l2 as [|y l2 IH2]; [by rewrite merge_nil_r, app_nil_r|].
    rewrite merge_cons.
    pose proof (proj1 (sorted_by_cons _ _ _) H1) as [HF1 Hs1].
    pose proof (proj1 (sorted_by_cons _ _ _) H2) as [HF2 Hs2].
    destruct (lt y x) eqn:E.
    - rewrite (filter_cons _ y). rewrite IH2 by done.
      rewrite (filter_cons _ y l2).
      destruct (decide (tied lt w y = true)) as [Hy|Hy]; [|done].
      rewrite (filter_none_tied w (x :: l1)); [done|].
      constructor; [by eapply tied_neg|].
      eapply Forall_impl; [exact HF1|]. intros z Hz. cbn in Hz.
      eapply tied_neg; [exact Hy|]. by eapply (sw_lt_le_trans lt Hsw y x z).
    - rewrite (filter_cons _ x). rewrite IH1 by done.
      rewrite (filter_cons _ x l1). by case_decide.
  Qed.

  Lemma stable_sort_go_spec fuel l out :
    length l < fuel -> length l <= length out ->
    exists l' out', stable_sort_go comp proj fuel l out = Ok (l', out') /\
      l' ≡ₚ l /\ sorted_by lt l' /\ stable lt l l' /\
      length out' = length out /\ drop (length l) out' = drop (length l) out.
  Proof.
    revert l out. induction fuel as [|fuel IH]; intros l out Hf Hout; [lia|].
    cbn [stable_sort_go]. destruct (decide (length l < 2)) as [H2|H2].
    { exists l, out. repeat split; try done.
      intros i j x y Hij Hx Hy. apply lookup_lt_Some in Hy. lia. }
    rewrite decide_False by lia.
    set (half := length l / 2).
    assert (0 < half) by (unfold half; lia). assert (half < length l) by (unfold half; lia).
    assert (length (take half l) = half) as Ht by (rewrite take_length; lia).
    destruct (IH (take half l) out) as (l1 & out1 & -> & HP1 & Hs1 & Hst1 & Ho1 & Hd1); [lia|lia|].
    cbn [rbind fst snd].
    destruct (IH (drop half l) (drop half out1)) as (l2 & out2 & -> & HP2 & Hs2 & Hst2 & Ho2 & Hd2).
    { rewrite drop_length. lia. }
    { rewrite !drop_length. lia. }
    cbn [rbind fst snd].
    set (m := merge comp proj l1 l2).
    assert (m ≡ₚ l) as HPm.
    { unfold m. rewrite merge_perm, HP1, HP2. by rewrite take_drop. }
    assert (length m = length l) as Hm by (by rewrite HPm).
    rewrite drop_length in Ho2.
    assert (drop (length l) (take half out1 ++ out2) = drop (length l) out) as Hdrop.
    { rewrite drop_app_ge by (rewrite take_length; lia). rewrite take_length.
      rewrite drop_length in Hd2.
      replace (length l - half `min` length out1) with (length l - half) by lia.
      rewrite Hd2, drop_drop. replace (half + (length l - half)) with (length l) by lia.
      rewrite Ht in Hd1.
      transitivity (drop (length l - half) (drop half out1)).
      { rewrite drop_drop. f_equal. lia. }
      rewrite Hd1, drop_drop. f_equal. lia. }
    exists m, (m ++ drop (length l) out). rewrite Hdrop.
    rewrite take_app_alt by done.
    split; [done|]. split; [done|]. split; [by apply merge_sorted|]. split.
    { intros w. unfold m. rewrite (merge_stable l1 l2 Hs1 Hs2 w), filter_app.
      rewrite (Hst1 w), (Hst2 w), <- filter_app. by rewrite take_drop. }
    split.
    { rewrite app_length, drop_length. lia. }
    by rewrite drop_app_alt.
  Qed.

  Lemma stable_sort_buffered_spec l out :
    length l <= length out ->
    exists l' out', stable_sort_buffered comp proj l out = Ok (l', out') /\
      l' ≡ₚ l /\ sorted_by lt l' /\ stable lt l l' /\
      length out' = length out /\ drop (length l) out' = drop (length l) out.
  Proof. intros H. apply stable_sort_go_spec; lia. Qed.

  Lemma stable_sort_spec d l :
    exists l', stable_sort comp proj d l = Ok l' /\ l' ≡ₚ l /\ sorted_by lt l' /\ stable lt l l'.
  Proof.
    unfold stable_sort.
    destruct (stable_sort_buffered_spec l
      match d with Some x => replicate (length l) x | None => l end)
      as (l' & out' & -> & HP & Hs & Hst & _).
    { destruct d; [by rewrite replicate_length|done]. }
    by exists l'.
  Qed.
End stable.
