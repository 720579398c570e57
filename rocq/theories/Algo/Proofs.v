(** Lemmas for C01-C04: heap operations and heap sort. *)
From stdpp Require Import list.
From Verif.Base Require Import Outcome Order ListLemmas.
From Verif.Algo Require Import Model Spec.

Section heap.
  Context {A B : Type} (comp : B -> B -> bool) (proj : A -> B).
  Let lt (x y : A) : bool := comp (proj x) (proj y).
  Hypothesis Hsw : strict_weak lt.

  Notation parent j := ((j - 1) / 2).

  (** Heap formulated through parents. *)
  Definition heap_at (l : list A) (j : nat) : Prop :=
    forall x y, l !! parent j = Some x -> l !! j = Some y -> lt x y = false.

  Lemma is_heap_parent n l :
    is_heap lt n l <-> forall j, 0 < j -> j < n -> heap_at l j.
  Proof.
    split.
    - intros H j Hj Hn x y Hx Hy. apply (H (parent j) j x y Hn); [lia|done|done].
    - intros H i j x y Hn Hij Hx Hy.
      assert (i = parent j) as -> by lia.
      apply (H j); [lia|done|done|done].
  Qed.

  Lemma le_trans x y z : lt y x = false -> lt z y = false -> lt z x = false.
  Proof. by apply sw_neg_trans. Qed.
  Lemma lt_le x y : lt x y = true -> lt y x = false.
  Proof. by apply sw_asym. Qed.

  Lemma bubble_up_go_spec fuel l c n :
    c < fuel -> c < n -> n <= length l ->
    (forall j, 0 < j -> j < n -> j <> c -> heap_at l j) ->
    (0 < c -> forall j x y, 0 < j -> j < n -> parent j = c -> l !! parent c = Some x -> l !! j = Some y ->
       lt x y = false) ->
    exists l', bubble_up_go comp proj fuel l c = Ok l' /\ l' ≡ₚ l /\
      (forall j, 0 < j -> j < n -> heap_at l' j) /\ (forall k, n <= k -> l' !! k = l !! k).
  Proof.
    revert l c. induction fuel as [|fuel IH]; intros l c Hf Hc Hn Hh Hg; [lia|].
    cbn [bubble_up_go]. destruct (decide (c = 0)) as [->|Hc0].
    { exists l. repeat split; try done. intros j Hj0 Hj. apply Hh; lia. }
    destruct (rget_lt l (parent c)) as (p & -> & Hp); [lia|]. cbn [rbind].
    destruct (rget_lt l c) as (y & -> & Hy); [lia|]. cbn [rbind].
    fold (lt p y). destruct (lt p y) eqn:Elt.
    - destruct (rswap_exists l (parent c) c) as [l1 Hs]; [lia|lia|].
      rewrite Hs. cbn [rbind].
      pose proof (rswap_perm _ _ _ _ Hs) as Hperm.
      apply rswap_ok_lookup in Hs as [Hlen Hl1].
      destruct (IH l1 (parent c)) as (l' & HR & HP & HH & HK); [lia|lia|lia| | |].
      + intros j Hj0 Hjn Hjp u v Hu Hv.
        rewrite Hl1 in Hu, Hv.
        destruct (decide (j = parent c)); [lia|].
        destruct (decide (j = c)) as [->|Hjc].
        * rewrite decide_True in Hu by done.
          simplify_eq. by apply lt_le.
        * destruct (decide (parent j = parent c)) as [Hpp|Hpp].
          -- (* sibling *) assert (u = y) as -> by congruence.
             assert (lt p v = false) as Hpv.
             { apply (Hh j Hj0 Hjn Hjc p v); [by rewrite Hpp|done]. }
             eapply (le_trans v p y); [done|by apply lt_le].
          -- destruct (decide (parent j = c)) as [Hpc|Hpc].
             ++ eapply Hg; [lia|exact Hj0|done|exact Hpc|done|done].
             ++ apply (Hh j Hj0 Hjn Hjc u v); done.
      + intros Hp0 j u v Hj0 Hjn Hpj Hu Hv.
        rewrite Hl1 in Hu, Hv.
        rewrite decide_False in Hu by lia. rewrite decide_False in Hu by lia.
        destruct (decide (j = parent c)); [lia|].
        assert (lt u p = false) as Hup.
        { apply (Hh (parent c)); [lia|lia|lia|done|done]. }
        destruct (decide (j = c)) as [->|Hjc].
        * by simplify_eq.
        * assert (lt p v = false).
          { apply (Hh j Hj0 Hjn Hjc p v); [by rewrite Hpj|done]. }
          by eapply (le_trans v p u).
      + exists l'. split; [done|]. split; [by rewrite HP|]. split; [done|].
        intros k Hk. rewrite HK by done. rewrite Hl1.
        rewrite decide_False by lia. rewrite decide_False by lia. done.
    - exists l. repeat split; try done. intros j Hj0 Hjn.
      destruct (decide (j = c)) as [->|Hjc]; [|by apply Hh].
      intros u v Hu Hv. simplify_eq. done.
  Qed.

  Lemma bubble_up_spec l c :
    c < length l -> is_heap lt c l ->
    exists l', bubble_up comp proj l c = Ok l' /\ l' ≡ₚ l /\ is_heap lt (S c) l' /\
      (forall k, c < k -> l' !! k = l !! k).
  Proof.
    intros Hc Hh. rewrite is_heap_parent in Hh.
    destruct (bubble_up_go_spec (S c) l c (S c)) as (l' & HR & HP & HH & HK); try lia.
    { intros j Hj0 Hjn Hjc. apply Hh; lia. }
    exists l'. split; [done|]. split; [done|]. split.
    { by apply is_heap_parent. }
    intros k Hk. apply HK. lia.
  Qed.

  Lemma make_heap_loop_spec l c k :
    0 < c -> c + k <= length l -> is_heap lt c l ->
    exists l', make_heap_loop comp proj l c k = Ok l' /\ l' ≡ₚ l /\ is_heap lt (c + k) l' /\
      (forall i, c + k <= i -> l' !! i = l !! i).
  Proof.
    revert l c. induction k as [|k IH]; intros l c Hc Hlen Hh; cbn [make_heap_loop].
    { exists l. rewrite Nat.add_0_r. done. }
    destruct (bubble_up_spec l c) as (l1 & -> & HP1 & HH1 & HK1); [lia|done|]. cbn [rbind].
    rewrite Nat.add_1_r.
    destruct (IH l1 (S c)) as (l' & HR & HP & HH & HK); [lia|rewrite HP1; lia|done|].
    exists l'. split; [done|]. split; [by rewrite HP|]. split.
    - by replace (c + S k) with (S c + k) by lia.
    - intros i Hi. rewrite HK by lia. apply HK1. lia.
  Qed.

  Lemma make_heap_spec l n :
    n <= length l ->
    exists l', make_heap comp proj l n = Ok l' /\ l' ≡ₚ l /\ is_heap lt n l' /\
      (forall i, n <= i -> l' !! i = l !! i).
  Proof.
    intros Hn. unfold make_heap. destruct (decide (n <= 1)) as [H1|H1].
    { exists l. repeat split; try done. rewrite is_heap_parent. lia. }
    destruct (make_heap_loop_spec l 1 (n - 1)) as (l' & HR & HP & HH & HK); [lia|lia| |].
    { rewrite is_heap_parent. lia. }
    exists l'. replace (1 + (n - 1)) with n in * by lia. done.
  Qed.

  Lemma bubble_down_go_spec fuel l c n :
    0 < fuel -> n < fuel + c -> n <= length l -> (n <= 1 \/ c < n) ->
    (forall j, 0 < j -> j < n -> parent j <> c -> heap_at l j) ->
    (0 < c -> forall j x y, 0 < j -> j < n -> parent j = c -> l !! parent c = Some x -> l !! j = Some y ->
       lt x y = false) ->
    exists l', bubble_down_go comp proj fuel l c n = Ok l' /\ l' ≡ₚ l /\
      (forall j, 0 < j -> j < n -> heap_at l' j) /\ (forall k, n <= k -> l' !! k = l !! k).
  Proof.
    revert l c. induction fuel as [|fuel IH]; intros l c Hf0 Hf Hn Hc Hh Hg; [lia|].
    cbn [bubble_down_go]. destruct (decide (n <= 1)) as [Hn1|Hn1].
    { exists l. repeat split; try done. intros j Hj0 Hj. lia. }
    destruct (decide (2 * (c + 1) < n)) as [Hr|Hr].
    - destruct (rget_lt l (2 * (c + 1))) as (r & -> & Hgr); [lia|]. cbn [rbind].
      destruct (rget_lt l (2 * (c + 1) - 1)) as (lf & -> & Hlf); [lia|]. cbn [rbind].
      fold (lt r lf).
      set (d := if lt r lf then 2 * (c + 1) - 1 else 2 * (c + 1)).
      assert (d = 2 * c + 1 \/ d = 2 * c + 2) as Hd by (unfold d; destruct (lt r lf); lia).
      destruct (rget_lt l c) as (y & -> & Hy); [lia|]. cbn [rbind].
      destruct (rget_lt l d) as (z & -> & Hz); [lia|]. cbn [rbind].
      (* the dominant child dominates its sibling *)
      assert (forall j v, 0 < j -> j < n -> parent j = c -> l !! j = Some v -> lt z v = false) as Hdom.
      { assert ((lt r lf = true /\ z = lf) \/ (lt r lf = false /\ z = r)) as Hz'.
        { unfold d in Hz. destruct (lt r lf); [left|right]; (split; [done|congruence]). }
        intros j v Hj0 Hjn Hpj Hv.
        assert (j = 2 * (c + 1) - 1 \/ j = 2 * (c + 1)) as [-> | ->] by lia.
        - assert (v = lf) as -> by congruence.
          destruct Hz' as [[_ ->]|[E ->]]; [apply (sw_irrefl _ Hsw)|done].
        - assert (v = r) as -> by congruence.
          destruct Hz' as [[E ->]|[_ ->]]; [by apply lt_le|apply (sw_irrefl _ Hsw)]. }
      clearbody d.
      fold (lt y z). destruct (lt y z) eqn:Elt.
      + destruct (rswap_exists l d c) as [l1 Hs]; [lia|lia|].
        rewrite Hs. cbn [rbind].
        pose proof (rswap_perm _ _ _ _ Hs) as Hperm.
        apply rswap_ok_lookup in Hs as [Hlen Hl1].
        destruct (IH l1 d) as (l' & HR & HP & HH & HK); [lia|lia|lia|lia| | |].
        * intros j Hj0 Hjn Hjd u v Hu Hv. rewrite Hl1 in Hu, Hv.
          rewrite decide_False in Hu by lia.
          destruct (decide (j = d)) as [->|Hjd'].
          { rewrite decide_True in Hu by lia. simplify_eq. by apply lt_le. }
          destruct (decide (j = c)) as [->|Hjc].
          { rewrite decide_False in Hu by lia.
            apply (Hg ltac:(lia) d u v); [lia|lia|lia|done|done]. }
          destruct (decide (parent j = c)) as [Hpc|Hpc].
          { assert (u = z) as -> by congruence. by apply (Hdom j). }
          by apply (Hh j Hj0 Hjn Hpc).
        * intros Hd0 j u v Hj0 Hjn Hpj Hu Hv. rewrite Hl1 in Hu, Hv.
          rewrite decide_False in Hu by lia. rewrite decide_True in Hu by lia.
          rewrite decide_False in Hv by lia. rewrite decide_False in Hv by lia.
          apply (Hh j Hj0 Hjn); [lia|by rewrite Hpj|done].
        * exists l'. split; [done|]. split; [by rewrite HP|]. split; [done|].
          intros k Hk. rewrite HK by done. rewrite Hl1.
          rewrite decide_False by lia. rewrite decide_False by lia. done.
      + exists l. repeat split; try done. intros j Hj0 Hjn.
        destruct (decide (parent j = c)) as [Hpc|Hpc]; [|by apply Hh].
        intros u v Hu Hv. rewrite Hpc in Hu. assert (u = y) as -> by congruence.
        eapply (le_trans v z y); [by apply (Hdom j)|done].
    - destruct (decide (2 * c + 1 < n)) as [Hl|Hl].
      + destruct (rget_lt l c) as (y & -> & Hy); [lia|]. cbn [rbind].
        destruct (rget_lt l (2 * c + 1)) as (z & -> & Hz); [lia|]. cbn [rbind].
        fold (lt y z). destruct (lt y z) eqn:Elt.
        * destruct (rswap_exists l (2 * c + 1) c) as [l1 Hs]; [lia|lia|].
          rewrite Hs. exists l1. split; [done|].
          split; [by eapply rswap_perm|].
          apply rswap_ok_lookup in Hs as [Hlen Hl1]. split.
          -- intros j Hj0 Hjn u v Hu Hv. rewrite Hl1 in Hu, Hv.
             rewrite decide_False in Hu by lia.
             destruct (decide (j = 2 * c + 1)) as [->|Hjd'].
             { rewrite decide_True in Hu by lia. simplify_eq. by apply lt_le. }
             destruct (decide (j = c)) as [->|Hjc].
             { rewrite decide_False in Hu by lia.
               apply (Hg ltac:(lia) (2 * c + 1) u v); [lia|lia|lia|done|done]. }
             rewrite decide_False in Hu by lia.
             apply (Hh j Hj0 Hjn); [lia|done|done].
          -- intros k Hk. rewrite Hl1.
             rewrite decide_False by lia. rewrite decide_False by lia. done.
        * exists l. repeat split; try done. intros j Hj0 Hjn.
          destruct (decide (parent j = c)) as [Hpc|Hpc]; [|by apply Hh].
          intros u v Hu Hv. assert (j = 2 * c + 1) as -> by lia. rewrite Hpc in Hu. by simplify_eq.
      + exists l. repeat split; try done. intros j Hj0 Hjn. apply Hh; lia.
  Qed.

  (** After replacing the root of a heap, [bubble_down] at the root restores the heap. *)
  Lemma bubble_down_spec l n :
    n <= length l ->
    (forall i j x y, 0 < i -> j < n -> j = 2 * i + 1 \/ j = 2 * i + 2 ->
       l !! i = Some x -> l !! j = Some y -> lt x y = false) ->
    exists l', bubble_down comp proj l 0 n = Ok l' /\ l' ≡ₚ l /\ is_heap lt n l' /\
      (forall k, n <= k -> l' !! k = l !! k).
  Proof.
    intros Hn Hh.
    destruct (bubble_down_go_spec (S n) l 0 n) as (l' & HR & HP & HH & HK); try lia.
    { intros j Hj0 Hjn Hp u v Hu Hv. apply (Hh (parent j) j); [lia|done|lia|done|done]. }
    exists l'. split; [done|]. split; [done|]. split; [|done]. by apply is_heap_parent.
  Qed.

  Lemma heap_root_max n l x y j :
    is_heap lt n l -> j < n -> l !! 0 = Some x -> l !! j = Some y -> n <= length l -> lt x y = false.
  Proof.
    intros Hh. rewrite is_heap_parent in Hh. revert y.
    induction (lt_wf j) as [j _ IH]. intros y Hj Hx Hy Hn.
    destruct (decide (j = 0)) as [->|Hj0].
    { simplify_eq. apply (sw_irrefl _ Hsw). }
    destruct (lookup_in_range l (parent j)) as [z Hz]; [lia|].
    eapply (le_trans y z x).
    - by apply (Hh j ltac:(lia) Hj).
    - apply (IH (parent j)); [lia|lia|done|done|done].
  Qed.

  Lemma sort_loop_spec l n :
    n <= length l -> is_heap lt n l ->
    (* the tail from n on is sorted and dominates the heap *)
    (forall i j x y, n <= j -> i < j -> l !! i = Some x -> l !! j = Some y -> lt y x = false) ->
    exists l', sort_loop comp proj l n = Ok l' /\ l' ≡ₚ l /\ sorted_by lt l'.
  Proof.
    revert l. induction n as [|n IH]; intros l Hn Hh Hs; cbn [sort_loop].
    { exists l. split; [done|]. split; [done|]. intros i j x y Hij Hx Hy.
      by apply (Hs i j x y ltac:(lia)). }
    destruct (rswap_exists l 0 n) as [l1 Hsw1]; [lia|lia|]. rewrite Hsw1. cbn [rbind].
    pose proof (rswap_perm _ _ _ _ Hsw1) as HP1.
    apply rswap_ok_lookup in Hsw1 as [Hlen1 Hl1].
    destruct (bubble_down_spec l1 n) as (l2 & HR2 & HP2 & HH2 & HK2).
    { lia. }
    { intros i j x y Hi Hj Hij Hx Hy. rewrite Hl1 in Hx, Hy.
      rewrite decide_False in Hx by lia. rewrite decide_False in Hx by lia.
      rewrite decide_False in Hy by lia. rewrite decide_False in Hy by lia.
      apply (Hh i j x y); [lia|done|done|done]. }
    rewrite HR2. cbn [rbind].
    assert (length l2 = length l) as Hlen2 by (by rewrite HP2, Hlen1).
    destruct (IH l2) as (l' & HR & HP & Hsrt); [lia|done| |].
    - (* elements below n in l2 are those below n in l1 *)
      intros i j x y Hnj Hij Hx Hy.
      rewrite HK2 in Hy by done.
      (* some index i' < S n (if i < n) of l holds x *)
      assert (exists i', (i < n -> i' < S n) /\ (n <= i -> l1 !! i = Some x /\ i' = i) /\
                (i < n -> l !! i' = Some x)) as (i' & Hi'1 & Hi'2 & Hi'3).
      { destruct (decide (i < n)) as [Hin|Hin].
        - assert (take n l2 ≡ₚ take n l1) as Htk.
          { by apply take_perm. }
          assert (x ∈ take n l1) as Hxin.
          { rewrite <- Htk. apply elem_of_list_lookup. exists i. by rewrite lookup_take. }
          apply elem_of_list_lookup in Hxin as [i1 Hi1].
          apply lookup_take_Some in Hi1 as [Hi1 Hi1n].
          rewrite Hl1 in Hi1.
          destruct (decide (i1 = 0)); [exists n|destruct (decide (i1 = n)); [lia|exists i1]];
            (split; [lia|]; split; [lia|done]).
        - exists i. rewrite <- HK2 by lia. split; [lia|]. split; [done|lia]. }
      rewrite Hl1 in Hy.
      destruct (decide (j = 0)) as [->|]; [lia|].
      destruct (decide (j = n)) as [->|Hjn].
      + apply (heap_root_max (S n) l y x i'); [done|lia|done| |lia].
        apply Hi'3. lia.
      + destruct (decide (i < n)) as [Hin|Hin].
        * apply (Hs i' j); [lia| |by apply Hi'3|done]. specialize (Hi'1 Hin). lia.
        * destruct (Hi'2 ltac:(lia)) as [Hx1 ->]. rewrite Hl1 in Hx1.
          destruct (decide (i = 0)); [|destruct (decide (i = n))].
          -- apply (Hs n j); [lia|lia|done|done].
          -- apply (Hs 0 j); [lia|lia|done|done].
          -- apply (Hs i j); [lia|lia|done|done].
    - exists l'. split; [done|]. split; [|done]. by rewrite HP, HP2.
  Qed.

  Lemma sort_spec l :
    exists l', sort comp proj l = Ok l' /\ l' ≡ₚ l /\ sorted_by lt l'.
  Proof.
    unfold sort. destruct (decide (length l <= 1)) as [H|H].
    { exists l. split; [done|]. split; [done|].
      intros i j x y Hij Hx Hy. apply lookup_lt_Some in Hy. lia. }
    destruct (make_heap_spec l (length l)) as (h & -> & HP & HH & HK); [lia|]. cbn [rbind].
    assert (length h = length l) as Hlen by (by rewrite HP).
    destruct (sort_loop_spec h (length l)) as (l' & HR & HP' & Hs); [lia|done| |].
    { intros i j x y Hj Hij Hx Hy. apply lookup_lt_Some in Hy. lia. }
    exists l'. split; [done|]. split; [by rewrite HP'|done].
  Qed.
End heap.
