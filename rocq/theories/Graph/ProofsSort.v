(** Heap sort by swaps, with a comparator which may say anything of elements that are tied. *)
From stdpp Require Import list.
From Verif.Base Require Import Outcome Order ListLemmas.
From Verif.Algo Require Import Spec.
From Verif.Graph Require Import Model ModelWeighted ModelSort Spec SpecWeighted SpecSort ProofsWeighted.

Section heap.
  Context {S A : Type} (less : S -> nat -> nat -> res bool) (swap : nat -> nat -> S -> res S) (first : nat).
  Context (lt : A -> A -> bool) (K : S -> list A) (P : S -> Prop).
  Hypothesis Hsw : strict_weak lt.
  Hypothesis Hless : forall s i j x y, P s -> K s !! i = Some x -> K s !! j = Some y ->
    exists b, less s (first + i) (first + j) = Ok b /\ (b = true -> lt y x = false) /\ (b = false -> lt x y = false).
  Hypothesis Hswap : forall s i j, P s -> i < length (K s) -> j < length (K s) ->
    exists s', swap (first + i) (first + j) s = Ok s' /\ P s' /\ rswap (K s) i j = Ok (K s').

  Notation parent j := ((j - 1) / 2).
  Notation Suc := Datatypes.S.

  (** Heap formulated through parents. *)
  Definition heap_at (l : list A) (j : nat) : Prop :=
    forall x y, l !! parent j = Some x -> l !! j = Some y -> lt x y = false.

  Lemma is_heap_parent n l :
    is_heap lt n l <-> forall j, 0 < j -> j < n -> heap_at l j.
  Proof.
    split.
    - intros H j Hj Hn x y Hx Hy. apply (H (parent j) j x y Hn); [lia|done|done].
    - intros H i j x y Hn Hij Hx Hy.
      assert (i = parent j) as -> by lia.
      apply (H j); [lia|done|done|done].
  Qed.

  Lemma le_trans x y z : lt y x = false -> lt z y = false -> lt z x = false.
  Proof. by apply sw_neg_trans. Qed.

  Lemma bubble_up_go_spec fuel s c n :
    P s -> c < fuel -> c < n -> n <= length (K s) ->
    (forall j, 0 < j -> j < n -> j <> c -> heap_at (K s) j) ->
    (0 < c -> forall j x y, 0 < j -> j < n -> parent j = c -> K s !! parent c = Some x -> K s !! j = Some y ->
       lt x y = false) ->
    exists s', bubble_up_go less swap first fuel s c = Ok s' /\ P s' /\ K s' ≡ₚ K s /\
      (forall j, 0 < j -> j < n -> heap_at (K s') j) /\ (forall k, n <= k -> K s' !! k = K s !! k).
  Proof.
    revert s c. induction fuel as [|fuel IH]; intros s c HP Hf Hc Hn Hh Hg; [lia|].
    cbn [bubble_up_go]. destruct (decide (c = 0)) as [->|Hc0].
    { exists s. repeat split; try done. intros j Hj0 Hj. apply Hh; lia. }
    destruct (lookup_in_range (K s) (parent c)) as [p Hp]; [lia|].
    destruct (lookup_in_range (K s) c) as [y Hy]; [lia|].
    destruct (Hless s (parent c) c p y HP Hp Hy) as (b & -> & Hb1 & Hb2). cbn [rbind]. destruct b.
    - specialize (Hb1 eq_refl). clear Hb2.
      destruct (Hswap s (parent c) c HP) as (s1 & -> & HP1 & Hs); [lia|lia|]. cbn [rbind].
      pose proof (rswap_perm _ _ _ _ Hs) as Hperm.
      apply rswap_ok_lookup in Hs as [Hlen Hl1].
      destruct (IH s1 (parent c)) as (s' & HR & HP' & HPm & HH & HK); [done|lia|lia|lia| | |].
      + intros j Hj0 Hjn Hjp u v Hu Hv.
        rewrite Hl1 in Hu, Hv.
        destruct (decide (j = parent c)); [lia|].
        destruct (decide (j = c)) as [->|Hjc].
        * rewrite decide_True in Hu by done.
          simplify_eq. done.
        * destruct (decide (parent j = parent c)) as [Hpp|Hpp].
          -- (* sibling *) assert (u = y) as -> by congruence.
             assert (lt p v = false) as Hpv.
             { apply (Hh j Hj0 Hjn Hjc p v); [by rewrite Hpp|done]. }
             by eapply (le_trans v p y).
          -- destruct (decide (parent j = c)) as [Hpc|Hpc].
             ++ eapply Hg; [lia|exact Hj0|done|exact Hpc|done|done].
             ++ apply (Hh j Hj0 Hjn Hjc u v); done.
      + intros Hp0 j u v Hj0 Hjn Hpj Hu Hv.
        rewrite Hl1 in Hu, Hv.
        rewrite decide_False in Hu by lia. rewrite decide_False in Hu by lia.
        destruct (decide (j = parent c)); [lia|].
        assert (lt u p = false) as Hup.
        { apply (Hh (parent c)); [lia|lia|lia|done|done]. }
        destruct (decide (j = c)) as [->|Hjc].
        * by simplify_eq.
        * assert (lt p v = false).
          { apply (Hh j Hj0 Hjn Hjc p v); [by rewrite Hpj|done]. }
          by eapply (le_trans v p u).
      + exists s'. split; [done|]. split; [done|]. split; [by rewrite HPm|]. split; [done|].
        intros k Hk. rewrite HK by done. rewrite Hl1.
        rewrite decide_False by lia. rewrite decide_False by lia. done.
    - specialize (Hb2 eq_refl). exists s. repeat split; try done. intros j Hj0 Hjn.
      destruct (decide (j = c)) as [->|Hjc]; [|by apply Hh].
      intros u v Hu Hv. simplify_eq. done.
  Qed.

  Lemma bubble_up_spec s c :
    P s -> c < length (K s) -> is_heap lt c (K s) ->
    exists s', bubble_up less swap first s c = Ok s' /\ P s' /\ K s' ≡ₚ K s /\ is_heap lt (Suc c) (K s') /\
      (forall k, c < k -> K s' !! k = K s !! k).
  Proof.
    intros HP Hc Hh. rewrite is_heap_parent in Hh.
    destruct (bubble_up_go_spec (Suc c) s c (Suc c)) as (s' & HR & HP' & HPm & HH & HK); try lia; try done.
    { intros j Hj0 Hjn Hjc. apply Hh; lia. }
    exists s'. split; [done|]. split; [done|]. split; [done|]. split.
    { by apply is_heap_parent. }
    intros k Hk. apply HK. lia.
  Qed.

  Lemma make_heap_loop_spec s c k :
    P s -> 0 < c -> c + k <= length (K s) -> is_heap lt c (K s) ->
    exists s', make_heap_loop less swap first s c k = Ok s' /\ P s' /\ K s' ≡ₚ K s /\ is_heap lt (c + k) (K s').
  Proof.
    revert s c. induction k as [|k IH]; intros s c HP Hc Hlen Hh; cbn [make_heap_loop].
    { exists s. rewrite Nat.add_0_r. done. }
    destruct (bubble_up_spec s c) as (s1 & -> & HP1 & HPm1 & HH1 & HK1); [done|lia|done|]. cbn [rbind].
    rewrite Nat.add_1_r.
    destruct (IH s1 (Suc c)) as (s' & HR & HP' & HPm & HH); [done|lia|rewrite HPm1; lia|done|].
    exists s'. split; [done|]. split; [done|]. split; [by rewrite HPm|].
    by replace (c + Suc k) with (Suc c + k) by lia.
  Qed.

  Lemma make_heap_spec s n :
    P s -> n <= length (K s) ->
    exists s', make_heap less swap first s n = Ok s' /\ P s' /\ K s' ≡ₚ K s /\ is_heap lt n (K s').
  Proof.
    intros HP Hn. unfold make_heap. destruct (decide (n <= 1)) as [H1|H1].
    { exists s. repeat split; try done. rewrite is_heap_parent. lia. }
    destruct (make_heap_loop_spec s 1 (n - 1)) as (s' & HR & HP' & HPm & HH); [done|lia|lia| |].
    { rewrite is_heap_parent. lia. }
    exists s'. replace (1 + (n - 1)) with n in * by lia. done.
  Qed.

  Lemma bubble_down_go_spec fuel s c n :
    P s -> 0 < fuel -> n < fuel + c -> n <= length (K s) -> (n <= 1 \/ c < n) ->
    (forall j, 0 < j -> j < n -> parent j <> c -> heap_at (K s) j) ->
    (0 < c -> forall j x y, 0 < j -> j < n -> parent j = c -> K s !! parent c = Some x -> K s !! j = Some y ->
       lt x y = false) ->
    exists s', bubble_down_go less swap first fuel s c n = Ok s' /\ P s' /\ K s' ≡ₚ K s /\
      (forall j, 0 < j -> j < n -> heap_at (K s') j) /\ (forall k, n <= k -> K s' !! k = K s !! k).
  Proof.
    revert s c. induction fuel as [|fuel IH]; intros s c HP Hf0 Hf Hn Hc Hh Hg; [lia|].
    cbn [bubble_down_go]. destruct (decide (n <= 1)) as [Hn1|Hn1].
    { exists s. repeat split; try done. intros j Hj0 Hj. lia. }
    destruct (decide (2 * (c + 1) < n)) as [Hr|Hr].
    - destruct (lookup_in_range (K s) (2 * (c + 1))) as [r Hgr]; [lia|].
      destruct (lookup_in_range (K s) (2 * (c + 1) - 1)) as [lf Hlf]; [lia|].
      destruct (Hless s _ _ r lf HP Hgr Hlf) as (b & -> & Hb1 & Hb2). cbn [rbind].
      set (d := if b then 2 * (c + 1) - 1 else 2 * (c + 1)).
      assert (d = 2 * c + 1 \/ d = 2 * c + 2) as Hd by (unfold d; destruct b; lia).
      destruct (lookup_in_range (K s) c) as [y Hy]; [lia|].
      destruct (lookup_in_range (K s) d) as [z Hz]; [lia|].
      (* the dominant child dominates its sibling *)
      assert (forall j v, 0 < j -> j < n -> parent j = c -> K s !! j = Some v -> lt z v = false) as Hdom.
      { assert ((b = true /\ z = lf) \/ (b = false /\ z = r)) as Hz'.
        { unfold d in Hz. destruct b; [left|right]; (split; [done|congruence]). }
        intros j v Hj0 Hjn Hpj Hv.
        assert (j = 2 * (c + 1) - 1 \/ j = 2 * (c + 1)) as [-> | ->] by lia.
        - assert (v = lf) as -> by congruence.
          destruct Hz' as [[_ ->]|[E ->]]; [apply (sw_irrefl _ Hsw)|by apply Hb2].
        - assert (v = r) as -> by congruence.
          destruct Hz' as [[E ->]|[_ ->]]; [by apply Hb1|apply (sw_irrefl _ Hsw)]. }
      clearbody d. clear Hb1 Hb2 b.
      destruct (Hless s c d y z HP Hy Hz) as (b & -> & Hb1 & Hb2). cbn [rbind]. destruct b.
      + specialize (Hb1 eq_refl). clear Hb2.
        destruct (Hswap s d c HP) as (s1 & -> & HP1 & Hs); [lia|lia|]. cbn [rbind].
        pose proof (rswap_perm _ _ _ _ Hs) as Hperm.
        apply rswap_ok_lookup in Hs as [Hlen Hl1].
        destruct (IH s1 d) as (s' & HR & HP' & HPm & HH & HK); [done|lia|lia|lia|lia| | |].
        * intros j Hj0 Hjn Hjd u v Hu Hv. rewrite Hl1 in Hu, Hv.
          rewrite decide_False in Hu by lia.
          destruct (decide (j = d)) as [->|Hjd'].
          { rewrite decide_True in Hu by lia. simplify_eq. done. }
          destruct (decide (j = c)) as [->|Hjc].
          { rewrite decide_False in Hu by lia.
            apply (Hg ltac:(lia) d u v); [lia|lia|lia|done|done]. }
          destruct (decide (parent j = c)) as [Hpc|Hpc].
          { assert (u = z) as -> by congruence. by apply (Hdom j). }
          by apply (Hh j Hj0 Hjn Hpc).
        * intros Hd0 j u v Hj0 Hjn Hpj Hu Hv. rewrite Hl1 in Hu, Hv.
          rewrite decide_False in Hu by lia. rewrite decide_True in Hu by lia.
          rewrite decide_False in Hv by lia. rewrite decide_False in Hv by lia.
          apply (Hh j Hj0 Hjn); [lia|by rewrite Hpj|done].
        * exists s'. split; [done|]. split; [done|]. split; [by rewrite HPm|]. split; [done|].
          intros k Hk. rewrite HK by done. rewrite Hl1.
          rewrite decide_False by lia. rewrite decide_False by lia. done.
      + specialize (Hb2 eq_refl). exists s. repeat split; try done. intros j Hj0 Hjn.
        destruct (decide (parent j = c)) as [Hpc|Hpc]; [|by apply Hh].
        intros u v Hu Hv. rewrite Hpc in Hu. assert (u = y) as -> by congruence.
        eapply (le_trans v z y); [by apply (Hdom j)|done].
    - destruct (decide (2 * c + 1 < n)) as [Hl|Hl].
      + destruct (lookup_in_range (K s) c) as [y Hy]; [lia|].
        destruct (lookup_in_range (K s) (2 * c + 1)) as [z Hz]; [lia|].
        destruct (Hless s c (2 * c + 1) y z HP Hy Hz) as (b & -> & Hb1 & Hb2). cbn [rbind]. destruct b.
        * specialize (Hb1 eq_refl). clear Hb2.
          destruct (Hswap s (2 * c + 1) c HP) as (s1 & -> & HP1 & Hs); [lia|lia|].
          exists s1. split; [done|]. split; [done|].
          split; [by eapply rswap_perm|].
          apply rswap_ok_lookup in Hs as [Hlen Hl1]. split.
          -- intros j Hj0 Hjn u v Hu Hv. rewrite Hl1 in Hu, Hv.
             rewrite decide_False in Hu by lia.
             destruct (decide (j = 2 * c + 1)) as [->|Hjd'].
             { rewrite decide_True in Hu by lia. simplify_eq. done. }
             destruct (decide (j = c)) as [->|Hjc].
             { rewrite decide_False in Hu by lia.
               apply (Hg ltac:(lia) (2 * c + 1) u v); [lia|lia|lia|done|done]. }
             rewrite decide_False in Hu by lia.
             apply (Hh j Hj0 Hjn); [lia|done|done].
          -- intros k Hk. rewrite Hl1.
             rewrite decide_False by lia. rewrite decide_False by lia. done.
        * specialize (Hb2 eq_refl). exists s. repeat split; try done. intros j Hj0 Hjn.
          destruct (decide (parent j = c)) as [Hpc|Hpc]; [|by apply Hh].
          intros u v Hu Hv. assert (j = 2 * c + 1) as -> by lia. rewrite Hpc in Hu. by simplify_eq.
      + exists s. repeat split; try done. intros j Hj0 Hjn. apply Hh; lia.
  Qed.

  (** After replacing the root of a heap, [bubble_down] at the root restores the heap. *)
  Lemma bubble_down_spec s n :
    P s -> n <= length (K s) ->
    (forall i j x y, 0 < i -> j < n -> j = 2 * i + 1 \/ j = 2 * i + 2 ->
       K s !! i = Some x -> K s !! j = Some y -> lt x y = false) ->
    exists s', bubble_down less swap first s 0 n = Ok s' /\ P s' /\ K s' ≡ₚ K s /\ is_heap lt n (K s') /\
      (forall k, n <= k -> K s' !! k = K s !! k).
  Proof.
    intros HP Hn Hh.
    destruct (bubble_down_go_spec (Suc n) s 0 n) as (s' & HR & HP' & HPm & HH & HK); try lia; try done.
    { intros j Hj0 Hjn Hp u v Hu Hv. apply (Hh (parent j) j); [lia|done|lia|done|done]. }
    exists s'. split; [done|]. split; [done|]. split; [done|]. split; [|done]. by apply is_heap_parent.
  Qed.

  Lemma heap_root_max n l x y j :
    is_heap lt n l -> j < n -> l !! 0 = Some x -> l !! j = Some y -> n <= length l -> lt x y = false.
  Proof.
    intros Hh. rewrite is_heap_parent in Hh. revert y.
    induction (lt_wf j) as [j _ IH]. intros y Hj Hx Hy Hn.
    destruct (decide (j = 0)) as [->|Hj0].
    { simplify_eq. apply (sw_irrefl _ Hsw). }
    destruct (lookup_in_range l (parent j)) as [z Hz]; [lia|].
    eapply (le_trans y z x).
    - by apply (Hh j ltac:(lia) Hj).
    - apply (IH (parent j)); [lia|lia|done|done|done].
  Qed.

  Lemma sort_loop_spec s n :
    P s -> n <= length (K s) -> is_heap lt n (K s) ->
    (* the tail from n on is sorted and dominates the heap *)
    (forall i j x y, n <= j -> i < j -> K s !! i = Some x -> K s !! j = Some y -> lt y x = false) ->
    exists s', sort_loop less swap first s n = Ok s' /\ P s' /\ K s' ≡ₚ K s /\ sorted_by lt (K s').
  Proof.
    revert s. induction n as [|n IH]; intros s HP Hn Hh Hs; cbn [sort_loop].
    { exists s. split; [done|]. split; [done|]. split; [done|]. intros i j x y Hij Hx Hy.
      by apply (Hs i j x y ltac:(lia)). }
    destruct (Hswap s 0 n HP) as (s1 & -> & HP1 & Hsw1); [lia|lia|]. cbn [rbind].
    pose proof (rswap_perm _ _ _ _ Hsw1) as HPm1.
    apply rswap_ok_lookup in Hsw1 as [Hlen1 Hl1].
    destruct (bubble_down_spec s1 n) as (s2 & HR2 & HP2 & HPm2 & HH2 & HK2).
    { done. }
    { lia. }
    { intros i j x y Hi Hj Hij Hx Hy. rewrite Hl1 in Hx, Hy.
      rewrite decide_False in Hx by lia. rewrite decide_False in Hx by lia.
      rewrite decide_False in Hy by lia. rewrite decide_False in Hy by lia.
      apply (Hh i j x y); [lia|done|done|done]. }
    rewrite HR2. cbn [rbind].
    assert (length (K s2) = length (K s)) as Hlen2 by (by rewrite HPm2, Hlen1).
    destruct (IH s2) as (s' & HR & HP' & HPm & Hsrt); [done|lia|done| |].
    - (* elements below n in K s2 are those below n in K s1 *)
      intros i j x y Hnj Hij Hx Hy.
      rewrite HK2 in Hy by done.
      assert (exists i', (i < n -> i' < Suc n) /\ (n <= i -> K s1 !! i = Some x /\ i' = i) /\
                (i < n -> K s !! i' = Some x)) as (i' & Hi'1 & Hi'2 & Hi'3).
      { destruct (decide (i < n)) as [Hin|Hin].
        - assert (take n (K s2) ≡ₚ take n (K s1)) as Htk.
          { by apply take_perm. }
          assert (x ∈ take n (K s1)) as Hxin.
          { rewrite <- Htk. apply elem_of_list_lookup. exists i. by rewrite lookup_take. }
          apply elem_of_list_lookup in Hxin as [i1 Hi1].
          apply lookup_take_Some in Hi1 as [Hi1 Hi1n].
          rewrite Hl1 in Hi1.
          destruct (decide (i1 = 0)); [exists n|destruct (decide (i1 = n)); [lia|exists i1]];
            (split; [lia|]; split; [lia|done]).
        - exists i. rewrite <- HK2 by lia. split; [lia|]. split; [done|lia]. }
      rewrite Hl1 in Hy.
      destruct (decide (j = 0)) as [->|]; [lia|].
      destruct (decide (j = n)) as [->|Hjn].
      + apply (heap_root_max (Suc n) (K s) y x i'); [done|lia|done| |lia].
        apply Hi'3. lia.
      + destruct (decide (i < n)) as [Hin|Hin].
        * apply (Hs i' j); [lia| |by apply Hi'3|done]. specialize (Hi'1 Hin). lia.
        * destruct (Hi'2 ltac:(lia)) as [Hx1 ->]. rewrite Hl1 in Hx1.
          destruct (decide (i = 0)); [|destruct (decide (i = n))].
          -- apply (Hs n j); [lia|lia|done|done].
          -- apply (Hs 0 j); [lia|lia|done|done].
          -- apply (Hs i j); [lia|lia|done|done].
    - exists s'. split; [done|]. split; [done|]. split; [|done]. by rewrite HPm, HPm2.
  Qed.

  Lemma sort_range_spec s :
    P s -> exists s', sort_range less swap first s (length (K s)) = Ok s' /\ P s' /\ K s' ≡ₚ K s /\ sorted_by lt (K s').
  Proof.
    intros HP. unfold sort_range. destruct (decide (length (K s) <= 1)) as [H|H].
    { exists s. split; [done|]. split; [done|]. split; [done|].
      intros i j x y Hij Hx Hy. apply lookup_lt_Some in Hy. lia. }
    destruct (make_heap_spec s (length (K s))) as (h & -> & HPh & HPm & HH); [done|lia|]. cbn [rbind].
    assert (length (K h) = length (K s)) as Hlen by (by rewrite HPm).
    destruct (sort_loop_spec h (length (K s))) as (s' & HR & HP' & HPm' & Hs); [done|lia|done| |].
    { intros i j x y Hj Hij Hx Hy. apply lookup_lt_Some in Hy. lia. }
    exists s'. split; [done|]. split; [done|]. split; [by rewrite HPm'|done].
  Qed.
End heap.

Section nodes.
  Context {W V : Type} `{!EqDecision W}.
  Implicit Types g : wgraph W V.

  Lemma transpose_inj i j : Inj (=) (=) (transpose i j).
  Proof. intros a b. unfold transpose. repeat case_decide; congruence. Qed.

  Lemma renumbered_refl g : renumbered id g g.
  Proof.
    split; [intros a b; done|]. split; [done|]. split; [done|]. split; [|done].
    intros a. unfold id. rewrite <- (map_id (row (edges g) a)) at 1. apply map_ext. by intros [].
  Qed.

  Lemma renumbered_trans f f' g g1 g2 : renumbered f g g1 -> renumbered f' g1 g2 -> renumbered (f' ∘ f) g g2.
  Proof.
    intros (Hi & Ho & Hl & Hr & Hw) (Hi' & Ho' & Hl' & Hr' & Hw').
    split; [intros a b E; by apply Hi, Hi'|].
    split; [intros a; cbn; rewrite <- Hl, Ho', Hl; apply Ho|].
    split; [by rewrite Hl'|]. split.
    - intros a. cbn. rewrite Hr', Hr, map_map. apply map_ext. by intros [].
    - intros a. cbn. by rewrite Hw', Hw.
  Qed.

  Lemma swapped_renumbered fl i j g g' a b : consistent fl g -> weights g !! i = Some a -> weights g !! j = Some b ->
    is_swapped i j (edges g) (edges g') -> weights g' = <[i := b]> (<[j := a]> (weights g)) ->
    renumbered (transpose i j) g g'.
  Proof.
    intros [_ Hl] Ha Hb [Ho Hr] Hw. pose proof (lookup_lt_Some _ _ _ Ha). pose proof (lookup_lt_Some _ _ _ Hb).
    split; [apply transpose_inj|]. split.
    { intros x. unfold transpose. repeat case_decide; subst; try done; unfold order in *; split; lia. }
    split; [done|]. split; [done|].
    intros x. rewrite Hw. unfold transpose. repeat case_decide; subst.
    - destruct (decide (i = j)) as [->|].
      + rewrite list_lookup_insert by (rewrite insert_length; done). congruence.
      + rewrite list_lookup_insert_ne by done. by rewrite list_lookup_insert by done.
    - by rewrite list_lookup_insert by (rewrite insert_length; done).
    - by rewrite !list_lookup_insert_ne by done.
  Qed.

  Lemma sort_nodes_all fl lt less first last g :
    strict_weak lt -> compares lt less -> consistent fl g -> first <= last -> last <= order (edges g) ->
    exists g' f, sort_nodes fl less first last g = Ok g' /\ consistent fl g'
      /\ renumbered f g g' /\ stays_outside first last f /\ sorted_between lt first last (weights g').
  Proof.
    intros Hlt Hc Hg Hfl Hlast.
    pose (K := fun g : wgraph W V => take (last - first) (drop first (weights g))).
    pose (P := fun g' => consistent fl g' /\ length (weights g') = length (weights g)
                         /\ exists f, renumbered f g g' /\ stays_outside first last f).
    assert (forall g' i, K g' !! i = if decide (i < last - first) then weights g' !! (first + i) else None) as HK.
    { intros g' i. unfold K. case_decide; [by rewrite lookup_take, lookup_drop by done|]. apply lookup_take_ge. lia. }
    assert (length (weights g) = order (edges g)) as Hlen by apply Hg.
    assert (forall g', P g' -> length (K g') = last - first) as HKl.
    { intros g' (_ & HL & _). unfold K. rewrite take_length, drop_length. lia. }
    destruct (sort_range_spec less (swap_at fl) first lt K P Hlt) with (s := g) as (g' & HR & HP & _ & Hs).
    - intros s i j x y HP Hx Hy. rewrite HK in Hx, Hy. case_decide; [|done]. case_decide; [|done].
      destruct (Hc s (first + i) (first + j) x y Hx Hy) as (b & Hb & H1 & H2). exists b. split; [done|]. split; intros ->.
      + destruct (lt y x) eqn:E; [|done]. by specialize (H2 eq_refl).
      + destruct (lt x y) eqn:E; [|done]. by specialize (H1 eq_refl).
    - intros s i j HP Hi Hj. rewrite (HKl s HP) in Hi, Hj. destruct HP as (Hcs & HLs & f & Hf & Hout).
      destruct (lookup_in_range (weights s) (first + i)) as [x Hx]; [lia|].
      destruct (lookup_in_range (weights s) (first + j)) as [y Hy]; [lia|].
      destruct (swap_nodes_w_ok fl _ _ s x y Hcs Hx Hy) as (s' & Hs' & Hc' & Hsw & Hw).
      exists s'. unfold swap_at. rewrite Hs'. split; [done|].
      pose proof (swapped_renumbered _ _ _ _ _ _ _ Hcs Hx Hy Hsw Hw) as Hren. split.
      + split; [done|]. split; [by rewrite Hw, !insert_length|]. exists (transpose (first + i) (first + j) ∘ f).
        split; [by eapply renumbered_trans|]. intros a Ha. cbn. rewrite (Hout a Ha). unfold transpose.
        case_decide; [lia|]. case_decide; [lia|done].
      + unfold rswap. rewrite !HK. rewrite !decide_True by done. rewrite Hx, Hy. f_equal.
        apply list_eq. intros k. rewrite HK. rewrite Hw.
        assert (length (K s) = last - first) as HKs by (unfold K; rewrite take_length, drop_length; lia).
        destruct (decide (k = i)) as [->|].
        { rewrite list_lookup_insert by (rewrite insert_length; lia). rewrite decide_True by lia.
          by rewrite list_lookup_insert by (rewrite insert_length; lia). }
        rewrite list_lookup_insert_ne by done. destruct (decide (k = j)) as [->|].
        { rewrite list_lookup_insert by lia. rewrite decide_True by lia. rewrite list_lookup_insert_ne by lia.
          by rewrite list_lookup_insert by lia. }
        rewrite list_lookup_insert_ne by done. rewrite HK. case_decide; [|done]. by rewrite !list_lookup_insert_ne by lia.
    - split; [done|]. split; [done|]. exists id. split; [apply renumbered_refl|done].
    - destruct HP as (Hc' & HL & f & Hf & Hout). exists g', f. rewrite HKl in HR; [|].
      2: { split; [done|]. split; [done|]. exists id. split; [apply renumbered_refl|done]. }
      split; [exact HR|]. split; [done|]. split; [done|]. split; [done|].
      intros i j x y Hi Hij Hj Hx Hy. apply (Hs (i - first) (j - first) x y); [lia| |].
      + rewrite HK, decide_True by lia. by replace (first + (i - first)) with i by lia.
      + rewrite HK, decide_True by lia. by replace (first + (j - first)) with j by lia.
  Qed.
End nodes.

Lemma nat_ltb_strict_weak : strict_weak Nat.ltb.
Proof.
  split.
  - intros x. apply Nat.ltb_irrefl.
  - intros x y z Hxy Hyz. apply Nat.ltb_lt in Hxy, Hyz. apply Nat.ltb_lt. lia.
  - intros x y z H1 H2 H3 H4. apply Nat.ltb_ge in H1, H2, H3, H4. split; apply Nat.ltb_ge; lia.
Qed.

Lemma in_range_all {W} (g : graph W) : forallb (forallb (fun e => tgt e <? length g)) g = true -> in_range g.
Proof.
  intros H i e He. rewrite forallb_forall in H. unfold row in He. destruct (g !! i) as [r|] eqn:E; [|by apply elem_of_nil in He].
  cbn in He. specialize (H r). rewrite forallb_forall in H. apply Nat.ltb_lt. apply H.
  - apply elem_of_list_In. by eapply elem_of_list_lookup_2.
  - by apply elem_of_list_In.
Qed.
