(** Lemmas for C03: clustering. *)
From stdpp Require Import list.
From Verif.Base Require Import Outcome Order ListLemmas.
From Verif.Algo Require Import Model Spec.

Section cluster.
  Context {A B : Type} (comp : B -> B -> bool) (proj : A -> B).
  Let eqv (x y : A) : bool := comp (proj x) (proj y).
  Hypothesis He : equivalence eqv.

  Lemma cluster_skip_spec x l :
    cluster_skip comp proj x l <= length l /\
    forall i y, i < cluster_skip comp proj x l -> l !! i = Some y -> eqv y x = true.
  Proof.
    induction l as [|z l [IH1 IH2]]; cbn [cluster_skip]; [split; [done|lia]|].
    fold (eqv z x). destruct (eqv z x) eqn:E; cbn [length]; (split; [lia|]); [|lia].
    intros [|i] y Hi Hy; cbn in Hy; [by simplify_eq|]. apply (IH2 i); [lia|done].
  Qed.

  Lemma cluster_loop_spec b l c e k :
    0 < e -> e <= c -> c + k = length l -> l !! 0 = Some b ->
    (forall i y, i < e -> l !! i = Some y -> eqv y b = true) ->
    (forall i y, e <= i -> i < c -> l !! i = Some y -> eqv y b = false) ->
    exists l' e', cluster_loop comp proj l c e k = Ok (l', e') /\ l' ≡ₚ l /\
      0 < e' /\ e' <= length l /\ l' !! 0 = Some b /\
      (forall i y, i < e' -> l' !! i = Some y -> eqv y b = true) /\
      (forall i y, e' <= i -> l' !! i = Some y -> eqv y b = false).
  Proof.
    revert l c e. induction k as [|k IH]; intros l c e He0 Hec Hlen Hb H1 H2; cbn [cluster_loop].
    { exists l, e. repeat split; try done; [lia|].
      intros i y Hi Hy. apply (H2 i); [done| |done]. apply lookup_lt_Some in Hy. lia. }
    destruct (rget_lt l c) as (y & -> & Hy); [lia|]. cbn [rbind].
    destruct (rget_lt l 0) as (b' & -> & Hb'); [lia|]. cbn [rbind].
    assert (b' = b) as -> by congruence. clear Hb'.
    fold (eqv y b). destruct (eqv y b) eqn:E.
    - destruct (rswap_exists l e c) as [l1 Hs]; [lia|lia|]. rewrite Hs. cbn [rbind].
      pose proof (rswap_perm _ _ _ _ Hs) as HP1.
      apply rswap_ok_lookup in Hs as [Hlen1 Hl1].
      destruct (IH l1 (c + 1) (e + 1)) as (l' & e' & HR & HP & Hrest); try lia.
      + rewrite Hl1. rewrite decide_False by lia. by rewrite decide_False by lia.
      + intros i z Hi Hz. rewrite Hl1 in Hz.
        destruct (decide (i = e)); [by simplify_eq|].
        rewrite decide_False in Hz by lia. apply (H1 i); [lia|done].
      + intros i z Hi1 Hi2 Hz. rewrite Hl1 in Hz.
        destruct (decide (i = e)); [lia|].
        destruct (decide (i = c)) as [->|].
        * apply (H2 e); [lia|lia|done].
        * apply (H2 i); [lia|lia|done].
      + exists l', e'. split; [done|]. split; [by rewrite HP|]. by rewrite Hlen1 in Hrest.
    - destruct (IH l (c + 1) e) as (l' & e' & HR); try lia; try done.
      + intros i z Hi1 Hi2 Hz. destruct (decide (i = c)) as [->|]; [congruence|].
        apply (H2 i); [lia|lia|done].
      + by exists l', e'.
  Qed.

  Lemma cluster_go_spec fuel l :
    length l < fuel ->
    exists l', cluster_go comp proj fuel l = Ok l' /\ l' ≡ₚ l /\ contiguous eqv l'.
  Proof.
    revert l. induction fuel as [|fuel IH]; intros l Hf; [lia|]. cbn [cluster_go].
    destruct l as [|b l0]; [exists []; by repeat split|].
    set (l := b :: l0) in *.
    destruct (cluster_skip_spec b l) as [Hs1 Hs2].
    assert (0 < cluster_skip comp proj b l) as Hpos.
    { cbn. fold (eqv b b). rewrite (eqv_refl _ He). lia. }
    destruct (cluster_loop_spec b l (cluster_skip comp proj b l) (cluster_skip comp proj b l)
      (length l - cluster_skip comp proj b l)) as (l1 & e & -> & HP & He0 & Hel & Hb & Hin & Hout);
      try lia; try done.
    cbn [rbind fst snd].
    assert (length l1 = length l) as Hlen by (by rewrite HP).
    destruct (IH (drop e l1)) as (tl & -> & HPt & Hct).
    { rewrite drop_length. lia. }
    cbn [rbind]. eexists. split; [done|]. split.
    { rewrite HPt, take_drop. done. }
    assert (length (take e l1) = e) as Hte by (rewrite take_length; lia).
    assert (forall i y, e <= i -> (take e l1 ++ tl) !! i = Some y -> eqv y b = false) as Hout'.
    { intros i y Hi Hy. rewrite lookup_app_r in Hy by lia.
      apply elem_of_list_lookup_2 in Hy. rewrite HPt in Hy.
      apply elem_of_list_lookup in Hy as [i' Hi']. rewrite lookup_drop in Hi'.
      apply (Hout (e + i')); [lia|done]. }
    assert (forall i y, i < e -> (take e l1 ++ tl) !! i = Some y -> eqv y b = true) as Hin'.
    { intros i y Hi Hy. rewrite lookup_app_l in Hy by lia.
      rewrite lookup_take in Hy by done. by apply (Hin i). }
    intros i j k x y z Hij Hjk Hx Hy Hz Hxz.
    destruct (decide (k < e)) as [Hk|Hk].
    { apply (eqv_trans _ He _ b); [apply (Hin' i); [lia|done]|].
      apply (eqv_sym _ He). apply (Hin' j); [lia|done]. }
    destruct (decide (i < e)) as [Hi|Hi].
    { exfalso. pose proof (Hin' i x Hi Hx). pose proof (Hout' k z ltac:(lia) Hz) as Hzb.
      rewrite (eqv_trans _ He z x b) in Hzb; [done|by apply (eqv_sym _ He)|done]. }
    rewrite lookup_app_r in Hx, Hy, Hz by lia.
    eapply (Hct (i - length (take e l1)) (j - length (take e l1)) (k - length (take e l1)));
      [lia|lia|exact Hx|exact Hy|exact Hz|done].
  Qed.

  Lemma cluster_spec l :
    exists l', cluster comp proj l = Ok l' /\ l' ≡ₚ l /\ contiguous eqv l'.
  Proof. apply cluster_go_spec. lia. Qed.
End cluster.
