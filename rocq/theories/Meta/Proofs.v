(** Lemmas for C30 and C31. *)
From stdpp Require Import list.
From Verif.Base Require Import Outcome Order ListLemmas.
From Verif.Meta Require Import Model Spec.

Lemma concat_sequences_spec acc seqs : concat_sequences acc seqs = acc ++ mjoin seqs.
Proof.
  revert acc. induction seqs as [|s seqs IH]; intros acc; cbn [concat_sequences].
  - by rewrite app_nil_r.
  - rewrite IH. change (mjoin (s :: seqs)) with (s ++ mjoin seqs). by rewrite app_assoc.
Qed.

Lemma reverse_sequence_spec s : reverse_sequence s = reverse s.
Proof.
  induction s as [|i s IH]; [done|]. rewrite reverse_cons, <- IH. destruct s as [|j s]; [done|].
  cbn [reverse_sequence]. rewrite concat_sequences_spec. done.
Qed.

Lemma rotate_sequence_spec s : rotate_sequence s = drop 1 s ++ take 1 s.
Proof. destruct s as [|i s]; [done|]. cbn. by rewrite take_0, drop_0. Qed.

Lemma partial_sum_impl_spec i is rem :
  exists out, partial_sum_impl i is rem = out ++ i :: is /\ length out = length rem /\
    forall k, k < length rem -> reverse out !! k = Some (i + foldr Nat.add 0 (take (S k) rem)).
Proof.
  revert i is. induction rem as [|n rem IH]; intros i is; cbn [partial_sum_impl].
  - exists []. split; [done|]. split; [done|]. cbn. lia.
  - destruct (IH (i + n) (i :: is)) as (out & Ho & Hl & Hk). exists (out ++ [i + n]).
    split; [by rewrite Ho, <- app_assoc|]. split; [rewrite app_length; cbn; lia|].
    intros k Hlt. rewrite reverse_app. cbn [app]. change (reverse [i + n]) with [i + n].
    destruct k as [|k]; cbn.
    + f_equal. rewrite take_0. cbn. lia.
    + rewrite Hk by (cbn in Hlt; lia). f_equal. cbn. lia.
Qed.

Lemma partial_sum_spec s :
  length (sequence_partial_sum s) = length s /\
  forall k, k < length s -> sequence_partial_sum s !! k = Some (foldr Nat.add 0 (take (S k) s)).
Proof.
  destruct s as [|i s]; cbn [sequence_partial_sum]; [cbn; split; [done|lia]|].
  rewrite reverse_sequence_spec. destruct (partial_sum_impl_spec i [] s) as (out & -> & Hl & Hk).
  rewrite reverse_app. change (reverse [i]) with [i]. cbn [app]. split.
  - cbn. rewrite reverse_length. lia.
  - intros [|k] H; cbn.
    + rewrite take_0. cbn. f_equal. lia.
    + rewrite Hk by (cbn in H; lia). f_equal.
Qed.

Section types.
  Context {A : Type}.
  Implicit Types ts us : list A.

  Lemma elements_some ts is : Forall (fun i => i < length ts) is ->
    exists l, elements ts is = Some l /\ length l = length is /\
      forall k i, is !! k = Some i -> l !! k = ts !! i.
  Proof.
    induction 1 as [|i is Hi _ (l & Hl & Hlen & Hk)]; [by exists []|].
    destruct (lookup_in_range ts i Hi) as [t Ht]. exists (t :: l).
    unfold elements in *. cbn. rewrite Ht. cbn. rewrite Hl. cbn.
    split; [done|]. split; [by rewrite Hlen|].
    intros [|k] j; cbn; [intros [= <-]; done|apply Hk].
  Qed.

  Lemma elements_none ts is : ~ Forall (fun i => i < length ts) is -> elements ts is = None.
  Proof.
    unfold elements. intros H. destruct (mapM _ is) as [l|] eqn:E; [|done]. destruct H.
    apply mapM_Some in E. clear -E. induction E as [|i t is l Hi _ IH]; constructor; [|done].
    by apply lookup_lt_Some in Hi.
  Qed.

  Lemma elements_app ts is js :
    elements ts (is ++ js) = elements ts is ≫= fun l => elements ts js ≫= fun m => Some (l ++ m).
  Proof.
    unfold elements. induction is as [|i is IH]; cbn.
    - by destruct (mapM _ js).
    - destruct (ts !! i); cbn; [|done]. rewrite IH. destruct (mapM _ is); cbn; [|done].
      by destruct (mapM _ js).
  Qed.

  Lemma elements_range ts a n :
    a + n <= length ts -> elements ts (seq a n) = Some (take n (drop a ts)).
  Proof.
    revert a. induction n as [|n IH]; intros a H; cbn [seq]; [done|].
    destruct (lookup_in_range ts a ltac:(lia)) as [t Ht].
    unfold elements in *. cbn. rewrite Ht. cbn. rewrite IH by lia. cbn. f_equal.
    rewrite (drop_S ts t a Ht). done.
  Qed.

  Lemma shift_seq a n k : shift_sequence (seq a n) k = seq (k + a) n.
  Proof. unfold shift_sequence. revert a. induction n as [|n IH]; intros a; [done|]. cbn. f_equal.
    change (list_fmap _ _ _ ?l) with ((fun i => k + i) <$> l).
    rewrite IH. f_equal. lia. Qed.

  Lemma drop_types_spec ts n : drop_types ts n = Some (drop n ts).
  Proof.
    unfold drop_types. case_decide as H; [by rewrite drop_ge|].
    unfold make_index_sequence, filter_types. rewrite shift_seq, Nat.add_0_r.
    rewrite elements_range by lia. f_equal. apply take_ge. rewrite drop_length. lia.
  Qed.

  Lemma keep_types_spec ts n : keep_types ts n = Some (take n ts).
  Proof.
    unfold keep_types. case_decide as H; [by rewrite take_ge|].
    unfold make_index_sequence, filter_types. rewrite elements_range by lia. by rewrite drop_0.
  Qed.

  Lemma insert_type_spec us t i :
    insert_type us t i = if decide (i <= length us) then Some (take i us ++ t :: drop i us) else None.
  Proof.
    assert ((if decide (i <= length us) then
        elements us (make_index_sequence i) ≫= fun pre =>
        elements us (shift_sequence (make_index_sequence (length us - i)) i) ≫= fun post =>
        Some (pre ++ t :: post) else None) =
      if decide (i <= length us) then Some (take i us ++ t :: drop i us) else None) as E.
    { case_decide as H; [|done]. unfold make_index_sequence.
      rewrite elements_range by lia. cbn. rewrite shift_seq, Nat.add_0_r, elements_range by lia. cbn.
      rewrite drop_0. do 3 f_equal. apply take_ge. rewrite drop_length. lia. }
    unfold insert_type. destruct us as [|u us]; [destruct i; [done|exact E]|exact E].
  Qed.

  Lemma erase_type_spec ts i :
    erase_type ts i = if decide (i < length ts) then Some (take i ts ++ drop (S i) ts) else None.
  Proof.
    assert ((if decide (i < length ts) then
        filter_types ts (concat_sequences (make_index_sequence i)
          [shift_sequence (make_index_sequence (length ts - i - 1)) (i + 1)]) else None) =
      if decide (i < length ts) then Some (take i ts ++ drop (S i) ts) else None) as E.
    { case_decide as H; [|done]. rewrite concat_sequences_spec. cbn. rewrite app_nil_r.
      unfold make_index_sequence, filter_types. rewrite shift_seq.
      pose proof (elements_range ts 0 i ltac:(lia)) as H1.
      pose proof (elements_range ts (i + 1 + 0) (length ts - i - 1) ltac:(lia)) as H2.
      rewrite elements_app, H1. cbn. rewrite H2. cbn. f_equal. rewrite drop_0.
      f_equal. rewrite Nat.add_0_r, Nat.add_1_r. apply take_ge. rewrite drop_length. lia. }
    unfold erase_type. destruct ts as [|t ts]; [destruct i; exact E|].
    destruct i; [|exact E]. cbn. by rewrite decide_True by lia.
  Qed.

  Lemma aggregate_spec (excluded : A -> bool) m total ts pre :
    total = length pre + length ts ->
    elements (pre ++ ts) m = Some (filter (fun t => excluded t = false) pre) ->
    elements (pre ++ ts) (aggregate excluded m total ts) = Some (filter (fun t => excluded t = false) (pre ++ ts)).
  Proof.
    revert m pre. induction ts as [|t ts IH]; intros m pre Ht Hm; cbn [aggregate].
    - by rewrite app_nil_r in *.
    - rewrite concat_sequences_spec. cbn [mjoin list_join].
      rewrite (cons_middle t pre ts), app_assoc. apply IH.
      + rewrite app_length. cbn in *. lia.
      + rewrite <- app_assoc. cbn [app]. rewrite filter_app. rewrite elements_app, Hm. cbn. unfold elements.
        destruct (excluded t) eqn:E; cbn.
        * rewrite decide_False by congruence. done.
        * rewrite decide_True by done. cbn [length] in Ht.
          replace (total - length ts - 1) with (length pre) by lia.
          rewrite list_lookup_middle by done. done.
  Qed.

  Lemma filter_by_trait_spec (excluded : A -> bool) ts :
    filter_by_trait excluded ts = Some (filter (fun t => excluded t = false) ts).
  Proof. apply (aggregate_spec excluded [] (length ts) ts []); done. Qed.

  Lemma make_filtered_sequence_spec (excluded : A -> bool) ts :
    make_filtered_sequence excluded ts =
      filter (fun i => excluded <$> ts !! i = Some false) (seq 0 (length ts)).
  Proof.
    assert (forall (rest pre : list A) (m : list nat),
      ts = pre ++ rest ->
      aggregate excluded m (length ts) rest =
        m ++ filter (fun i => excluded <$> ts !! i = Some false)
               (seq (length pre) (length rest))) as H; [|apply (H ts [] []); done].
    induction rest as [|t rest IH]; intros pre m Hts; cbn [aggregate].
    - by rewrite app_nil_r.
    - rewrite (IH (pre ++ [t])) by (by rewrite <- app_assoc).
      rewrite concat_sequences_spec. cbn [mjoin list_join seq length].
      rewrite filter_cons.
      replace (length ts - length rest - 1) with (length pre) by (rewrite Hts, app_length; cbn; lia).
      rewrite app_length. cbn [length]. rewrite Nat.add_1_r.
      assert (ts !! length pre = Some t) as Hl by (rewrite Hts; by apply list_lookup_middle).
      destruct (excluded t) eqn:E.
      + rewrite decide_False by (rewrite Hl; cbn; congruence). by rewrite app_nil_r.
      + rewrite decide_True by (rewrite Hl; cbn; congruence). rewrite app_nil_r, <- app_assoc. done.
  Qed.

  Lemma reverse_types_spec ts : reverse_types ts = reverse ts.
  Proof.
    induction ts as [|t ts IH]; [done|]. rewrite reverse_cons, <- IH. destruct ts as [|u ts]; [done|].
    done.
  Qed.

  Lemma find_if_spec (p : A -> bool) ts :
    (forall j t, j < find_if p ts -> ts !! j = Some t -> p t = false) /\
    (find_if p ts = length ts \/ exists t, ts !! find_if p ts = Some t /\ p t = true).
  Proof.
    induction ts as [|t ts [IH1 IH2]]; cbn [find_if].
    - split; [lia|by left].
    - destruct (p t) eqn:E.
      + split; [lia|right; by exists t].
      + split.
        * intros [|j] u Hj; cbn; [congruence|]. apply IH1. lia.
        * cbn. destruct IH2 as [->|IH2]; [by left|by right].
  Qed.

  Section ordered.
    Context (comp : A -> A -> bool) (sw : strict_weak comp).

    (** [pos] separates the elements before [t] from the others. *)
    Definition lower_bound_at ts (t : A) (pos : nat) : Prop :=
      pos <= length ts /\
      (forall i x, i < pos -> ts !! i = Some x -> comp x t = true) /\
      (forall i x, pos <= i -> ts !! i = Some x -> comp x t = false).

    Lemma lower_bound_get_spec fuel ts t lo hi :
      sorted_by comp ts -> lo <= hi -> hi <= length ts -> hi - lo < fuel ->
      (forall i x, i < lo -> ts !! i = Some x -> comp x t = true) ->
      (forall i x, hi <= i -> ts !! i = Some x -> comp x t = false) ->
      exists pos, lower_bound_get comp fuel ts t lo hi = Some pos /\ lower_bound_at ts t pos.
    Proof.
      intros Hs. revert lo hi. induction fuel as [|fuel IH]; intros lo hi Hlo Hhi Hf H1 H2; [lia|].
      cbn [lower_bound_get]. case_decide as He.
      - subst hi. exists lo. split; [done|]. split; [done|]. by split.
      - set (p := (lo + hi) / 2). assert (lo <= p /\ p < hi) as [Hp1 Hp2] by (unfold p; lia).
        destruct (lookup_in_range ts p ltac:(lia)) as [x Hx]. rewrite Hx. destruct (comp x t) eqn:E.
        + apply IH; try lia; [|done]. intros i y Hi Hy. destruct (decide (i = p)) as [->|]; [congruence|].
          pose proof (Hs i p y x ltac:(lia) Hy Hx) as Hyx.
          destruct (comp y t) eqn:E'; [done|]. pose proof (sw_neg_trans comp sw t y x E' Hyx). congruence.
        + apply IH; try lia; [done|]. intros i y Hi Hy. destruct (decide (i = p)) as [->|]; [congruence|].
          pose proof (Hs p i x y ltac:(lia) Hx Hy) as Hyx.
          apply (sw_neg_trans comp sw t x y E Hyx).
    Qed.

    Lemma lower_bound_spec ts t :
      sorted_by comp ts -> exists pos, lower_bound comp ts t = Some pos /\ lower_bound_at ts t pos.
    Proof.
      intros Hs. apply lower_bound_get_spec; try done; try lia.
      intros i x Hi Hx. apply lookup_lt_Some in Hx. lia.
    Qed.

    Lemma sorted_drop ts n : sorted_by comp ts -> sorted_by comp (drop n ts).
    Proof. intros H i j x y Hij. rewrite !lookup_drop. apply H. lia. Qed.
    Lemma sorted_take ts n : sorted_by comp ts -> sorted_by comp (take n ts).
    Proof.
      intros H i j x y Hij Hi Hj. apply lookup_take_Some in Hi as [Hi _].
      apply lookup_take_Some in Hj as [Hj _]. by apply (H i j).
    Qed.
    Lemma sorted_cons t ts :
      sorted_by comp (t :: ts) <-> sorted_by comp ts /\ forall x, x ∈ ts -> comp x t = false.
    Proof.
      split.
      - intros H. split.
        + intros i j x y Hij Hi Hj. by apply (H (S i) (S j) x y); [lia|..].
        + intros x Hx. apply elem_of_list_lookup in Hx as [i Hi]. by apply (H 0 (S i) t x); [lia|..].
      - intros [H1 H2] [|i] [|j] x y Hij Hi Hj; try lia.
        + cbn in *. injection Hi as ->. apply H2. by apply elem_of_list_lookup_2 in Hj.
        + cbn in *. apply (H1 i j); [lia|done..].
    Qed.

    Lemma insert_sorted us t pos :
      pos <= length us -> sorted_by comp us ->
      (forall i x, i < pos -> us !! i = Some x -> comp t x = false) ->
      (forall i x, pos <= i -> us !! i = Some x -> comp x t = false) ->
      sorted_by comp (take pos us ++ t :: drop pos us).
    Proof.
      intros Hp Hs H1 H2 i j x y Hij Hi Hj.
      assert (length (take pos us) = pos) as Hl by (rewrite take_length; lia).
      assert (forall k z, (take pos us ++ t :: drop pos us) !! k = Some z ->
                (k < pos /\ us !! k = Some z) \/ (k = pos /\ z = t) \/ (pos < k /\ us !! (k - 1) = Some z)) as Hc.
      { intros k z Hk. destruct (decide (k < pos)) as [Hlt|Hge].
        - left. split; [done|]. rewrite lookup_app_l in Hk by lia. by apply lookup_take_Some in Hk as [? _].
        - rewrite lookup_app_r in Hk by lia. rewrite Hl in Hk.
          destruct (k - pos) as [|m] eqn:Em; simpl in Hk.
          + right. left. split; [lia|congruence].
          + right. right. split; [lia|]. rewrite lookup_drop in Hk.
            by replace (pos + m) with (k - 1) in Hk by lia. }
      destruct (Hc _ _ Hi) as [[Hi1 Hi2]|[[Hi1 Hi2]|[Hi1 Hi2]]];
      destruct (Hc _ _ Hj) as [[Hj1 Hj2]|[[Hj1 Hj2]|[Hj1 Hj2]]]; try lia.
      - by apply (Hs i j).
      - subst. by apply (H1 i).
      - apply (Hs i (j - 1)); [lia|done..].
      - subst x. apply (H2 (j - 1)); [lia|done].
      - apply (Hs (i - 1) (j - 1)); [lia|done..].
    Qed.

    Lemma merge_one_spec t us i :
      sorted_by comp us -> i <= length us ->
      (forall k x, k < i -> us !! k = Some x -> comp t x = false) ->
      exists us' pos, merge_one comp t us i = Some (us', pos) /\
        i <= pos /\ pos <= length us /\ us' = take pos us ++ t :: drop pos us /\
        (forall k x, k < pos -> us !! k = Some x -> comp t x = false) /\
        sorted_by comp us'.
    Proof.
      intros Hs Hi Hlo. unfold merge_one. rewrite drop_types_spec. cbn [mbind option_bind].
      destruct (lower_bound_spec (drop i us) t (sorted_drop us i Hs)) as (lb & -> & Hb & Hb1 & Hb2). cbn [mbind option_bind].
      rewrite drop_length in Hb. rewrite insert_type_spec, decide_True by lia. cbn [mbind option_bind].
      assert (forall k x, k < i + lb -> us !! k = Some x -> comp t x = false) as Hpre.
      { intros k x Hk Hx. destruct (decide (k < i)); [by apply (Hlo k)|].
        apply (sw_asym comp sw). apply (Hb1 (k - i)); [lia|]. rewrite lookup_drop.
        by replace (i + (k - i)) with k by lia. }
      exists (take (i + lb) us ++ t :: drop (i + lb) us), (i + lb).
      split; [done|]. split; [lia|]. split; [lia|]. split; [done|]. split; [done|].
      apply insert_sorted; [lia|done|done|].
      intros k x Hk Hx. apply (Hb2 (k - i)); [lia|]. rewrite lookup_drop.
      by replace (i + (k - i)) with k by lia.
    Qed.

    Lemma merge_from_position_spec ts us i :
      sorted_by comp ts -> sorted_by comp us -> i <= length us ->
      (forall t k x, head ts = Some t -> k < i -> us !! k = Some x -> comp t x = false) ->
      exists l, merge_from_position comp ts us i = Some l /\ l ≡ₚ ts ++ us /\ sorted_by comp l.
    Proof.
      revert us i. induction ts as [|t ts IH]; intros us i Hts Hus Hi Hlo.
      { by exists us. }
      destruct ts as [|t' ts]; cbn [merge_from_position].
      - destruct (merge_one_spec t us i Hus Hi) as (us' & pos & -> & _ & Hp & -> & _ & Hs').
        { intros k x Hk. by apply (Hlo t k x). }
        cbn. eexists. split; [done|]. split; [|done].
        rewrite <- Permutation_middle. by rewrite take_drop.
      - destruct (merge_one_spec t us 0 Hus) as (us' & pos & -> & _ & Hp & -> & Hpre & Hs'); [lia|lia|].
        cbn. apply sorted_cons in Hts as [Hts Htl].
        destruct (IH (take pos us ++ t :: drop pos us) (pos + 1)) as (l & Hl & Hperm & Hsl); try done.
        { rewrite app_length, take_length. cbn. lia. }
        { intros u k x Hu Hk Hx. cbn in Hu. injection Hu as <-.
          destruct (decide (k < pos)) as [Hlt|Hge].
          - rewrite lookup_app_l in Hx by (rewrite take_length; lia). apply lookup_take_Some in Hx as [Hx _].
            specialize (Hpre k x Hlt Hx). specialize (Htl t' ltac:(left)).
            apply (sw_neg_trans comp sw x t t'); done.
          - assert (k = pos) as -> by lia. rewrite list_lookup_middle in Hx by (rewrite take_length; lia).
            injection Hx as <-. apply Htl. left. }
        exists l. split; [exact Hl|]. split; [|done]. rewrite Hperm.
        rewrite <- (Permutation_middle (take pos us)), take_drop. cbn.
        rewrite <- Permutation_middle. by rewrite Permutation_swap.
    Qed.

    Lemma merge_types_spec ts us :
      sorted_by comp ts -> sorted_by comp us ->
      exists l, merge_types comp ts us = Some l /\ l ≡ₚ ts ++ us /\ sorted_by comp l.
    Proof.
      intros Hts Hus.
      assert (exists l, merge_from_position comp ts us 0 = Some l /\ l ≡ₚ ts ++ us /\ sorted_by comp l) as Hgen.
      { apply merge_from_position_spec; try done; lia. }
      unfold merge_types. destruct us as [|u us].
      { exists ts. split; [by destruct ts as [|? [|? ?]]|]. split; [by rewrite app_nil_r|done]. }
      destruct ts as [|t [|t' ts]]; [by exists (u :: us)| |exact Hgen].
      destruct us as [|u' us]; [|exact Hgen].
      destruct (comp t u) eqn:E.
      - exists [t; u]. split; [done|]. split; [done|]. apply sorted_cons. split; [done|].
        intros x Hx. apply elem_of_list_singleton in Hx as ->. by apply (sw_asym comp sw).
      - exists [u; t]. split; [done|]. split; [apply Permutation_swap|]. apply sorted_cons. split; [done|].
        intros x Hx. by apply elem_of_list_singleton in Hx as ->.
    Qed.

    Lemma stable_sort_types_spec fuel ts :
      length ts < fuel ->
      exists l, stable_sort_types comp fuel ts = Some l /\ l ≡ₚ ts /\ sorted_by comp l.
    Proof.
      revert ts. induction fuel as [|fuel IH]; intros ts Hf; [lia|]. cbn [stable_sort_types].
      assert (sorted_by comp (@nil A)) as Hnil by done.
      destruct ts as [|t [|t' ts]].
      - by exists [].
      - exists [t]. split; [done|]. split; [done|]. intros [|i] [|j] x y Hij Hi Hj; try lia; done.
      - set (l0 := t :: t' :: ts) in *. rewrite keep_types_spec, drop_types_spec. cbn [mbind option_bind].
        assert (2 <= length l0) as Hl by (cbn; lia).
        destruct (IH (take (length l0 / 2) l0)) as (l & -> & Hpl & Hsl); [rewrite take_length; lia|].
        destruct (IH (drop (length l0 / 2) l0)) as (r & -> & Hpr & Hsr); [rewrite drop_length; lia|].
        cbn [mbind option_bind].
        destruct (merge_types_spec l r Hsl Hsr) as (m & -> & Hm & Hsm). exists m. split; [done|].
        split; [|done]. rewrite Hm, Hpl, Hpr. by rewrite take_drop.
    Qed.

    Lemma stable_sort_spec ts :
      exists l, stable_sort comp ts = Some l /\ l ≡ₚ ts /\ sorted_by comp l.
    Proof. apply stable_sort_types_spec. lia. Qed.
  End ordered.
End types.

(** *** Types *)
Lemma ty_eqb_eq : forall a b, ty_eqb a b = true <-> a = b.
Proof.
  fix IH 1. intros [n|l] [m|k]; cbn; try (split; [done|congruence]).
  - rewrite Nat.eqb_eq. split; congruence.
  - revert k. induction l as [|x l IHl]; intros [|y k]; try (split; [done|congruence]).
    rewrite andb_true_iff, IH, IHl. split; [intros [-> [= ->]]; done|intros [= -> ->]; done].
Qed.

Lemma existsb_ty t ts : existsb (ty_eqb t) ts = true <-> t ∈ ts.
Proof.
  rewrite existsb_exists. split.
  - intros (x & Hx & He). apply ty_eqb_eq in He as ->. by apply elem_of_list_In.
  - intros H. exists t. split; [by apply elem_of_list_In|by apply ty_eqb_eq].
Qed.

Lemma dedup_add pre d t :
  dedup_of pre d -> dedup_of (pre ++ [t]) (faithful_add d t).
Proof.
  intros (Hnd & Hmem & Hord). unfold faithful_add. destruct (existsb (ty_eqb t) d) eqn:E.
  - apply existsb_ty in E. split; [done|]. split.
    + intros x. rewrite Hmem, elem_of_app, elem_of_list_singleton. split; [by left|].
      intros [H| ->]; [done|by apply Hmem].
    + intros i j x y Hi Hj Hij. destruct (Hord i j x y Hi Hj Hij) as (n & m & Hn & Hm & Hnm & Hfirst).
      exists n, m. split; [by apply lookup_app_l_Some|]. split; [by apply lookup_app_l_Some|]. split; [done|].
      intros k Hk. apply lookup_app_Some in Hk as [Hk|[Hk1 Hk2]]; [by apply Hfirst|].
      apply lookup_lt_Some in Hm. lia.
  - assert (t ∉ d) as Ht by (intros H; apply existsb_ty in H; congruence). split; [|split].
    + apply NoDup_app. split; [done|]. split.
      * intros x Hx H. apply elem_of_list_singleton in H as ->. done.
      * apply NoDup_singleton.
    + intros x. by rewrite !elem_of_app, Hmem, !elem_of_list_singleton.
    + intros i j x y Hi Hj Hij.
      apply lookup_app_Some in Hj as [Hj|[Hj1 Hj2]].
      * pose proof (lookup_lt_Some _ _ _ Hj). rewrite lookup_app_l in Hi by lia.
        destruct (Hord i j x y Hi Hj Hij) as (n & m & Hn & Hm & Hnm & Hfirst).
        exists n, m. split; [by apply lookup_app_l_Some|]. split; [by apply lookup_app_l_Some|]. split; [done|].
        intros k Hk. apply lookup_app_Some in Hk as [Hk|[Hk1 Hk2]]; [by apply Hfirst|].
        apply lookup_lt_Some in Hm. lia.
      * apply list_lookup_singleton_Some in Hj2 as [Hj2 <-].
        rewrite lookup_app_l in Hi by lia.
        assert (x ∈ pre) as Hx by (apply Hmem; by apply elem_of_list_lookup_2 in Hi).
        apply elem_of_list_lookup in Hx as [n Hn]. pose proof (lookup_lt_Some _ _ _ Hn).
        exists n, (length pre). split; [by apply lookup_app_l_Some|].
        split; [by rewrite lookup_app_r, Nat.sub_diag|]. split; [done|].
        intros k Hk. apply lookup_app_Some in Hk as [Hk|[Hk1 Hk2]]; [|done].
        destruct Ht. apply Hmem. by apply elem_of_list_lookup_2 in Hk.
Qed.

Lemma dedup_all pre d us : dedup_of pre d -> dedup_of (pre ++ us) (faithful_all d us).
Proof.
  revert pre d. induction us as [|u us IH]; intros pre d H; cbn [faithful_all].
  - by rewrite app_nil_r.
  - rewrite (cons_middle u), app_assoc. apply IH. by apply dedup_add.
Qed.

Lemma dedup_singleton (t : ty) : dedup_of [t] [t].
Proof.
  split; [apply NoDup_singleton|]. split; [done|].
  intros i j x y Hi Hj Hij. apply list_lookup_singleton_Some in Hi as [-> _].
  apply list_lookup_singleton_Some in Hj as [-> _]. lia.
Qed.

Lemma faithful_spec args :
  match args with t :: _ :: _ => is_type_list t = false | _ => True end ->
  dedup_of args (faithful_type_list args).
Proof.
  destruct args as [|t [|u args]]; cbn [faithful_type_list].
  - intros _. split; [apply NoDup_nil_2|]. split; [done|]. intros i j x y Hi. by rewrite lookup_nil in Hi.
  - intros _. destruct t; apply dedup_singleton.
  - intros H. destruct t as [n|l]; [|done]. apply (dedup_all [TBase n] [TBase n] (u :: args)), dedup_singleton.
Qed.

Lemma shift_sequence_spec s n i : shift_sequence s n !! i = Nat.add n <$> s !! i.
Proof. unfold shift_sequence. apply list_lookup_fmap. Qed.

(** *** Unions *)

Lemma contains_spec {A} (same : A -> A -> bool) (u : A) ts :
  contains same ts u = true <-> exists t, t ∈ ts /\ same u t = true.
Proof.
  unfold contains. rewrite existsb_exists. split; intros (t & Ht & Hs); exists t; (split; [by apply elem_of_list_In|done]).
Qed.

Lemma dedup_trans (pre d us r : list ty) : dedup_of pre d -> dedup_of (d ++ us) r -> dedup_of (pre ++ us) r.
Proof.
  intros (Hd1 & Hd2 & Hd3) (Hr1 & Hr2 & Hr3). split; [done|]. split.
  { intros x. rewrite Hr2, !elem_of_app, Hd2. done. }
  intros i j x y Hi Hj Hij. destruct (Hr3 i j x y Hi Hj Hij) as (n & m & Hn & Hm & Hnm & Hfirst).
  destruct (decide (m < length d)) as [Hmd|Hmd].
  - rewrite lookup_app_l in Hn by lia. rewrite lookup_app_l in Hm by lia.
    destruct (Hd3 n m x y Hn Hm Hnm) as (n' & m' & Hn' & Hm' & Hlt & Hfst). exists n', m'.
    split; [by apply lookup_app_l_Some|]. split; [by apply lookup_app_l_Some|]. split; [done|].
    intros k Hk. apply lookup_app_Some in Hk as [Hk|[Hk _]]; [by apply Hfst|]. apply lookup_lt_Some in Hm'. lia.
  - rewrite lookup_app_r in Hm by lia.
    assert (Hyd : y ∉ pre).
    { rewrite <- Hd2. intros (k & Hk)%elem_of_list_lookup. pose proof (lookup_lt_Some _ _ _ Hk).
      specialize (Hfirst k ltac:(by apply lookup_app_l_Some)). lia. }
    assert (exists n', (pre ++ us) !! n' = Some x /\ n' < length pre + (m - length d)) as (n' & Hn' & Hlt).
    { apply lookup_app_Some in Hn as [Hn|[Hge Hn]].
      - assert (Hx : x ∈ pre) by (apply Hd2; by eapply elem_of_list_lookup_2). apply elem_of_list_lookup in Hx as [n' Hn'].
        exists n'. split; [by apply lookup_app_l_Some|]. apply lookup_lt_Some in Hn'. lia.
      - exists (length pre + (n - length d)). split; [|lia]. rewrite lookup_app_r by lia. rewrite <- Hn. f_equal. lia. }
    exists n', (length pre + (m - length d)). split; [done|]. split.
    { rewrite lookup_app_r by lia. rewrite <- Hm. f_equal. lia. }
    split; [done|]. intros k Hk. apply lookup_app_Some in Hk as [Hk|[Hk Hk']].
    + destruct Hyd. by eapply elem_of_list_lookup_2.
    + specialize (Hfirst (length d + (k - length pre))). rewrite lookup_app_r in Hfirst by lia.
      replace (length d + (k - length pre) - length d) with (k - length pre) in Hfirst by lia. specialize (Hfirst Hk'). lia.
Qed.

Lemma no_lists_faithful (l : list ty) : Forall (fun t => is_type_list t = false) l -> dedup_of l (faithful_type_list l).
Proof. intros H. apply faithful_spec. destruct l as [|t [|u l]]; [done|done|]. by inversion H. Qed.

Lemma union_spec args : forall acc pre, dedup_of pre acc ->
  Forall (fun t => is_type_list t = false) acc -> Forall (Forall (fun t => is_type_list t = false)) args ->
  dedup_of (pre ++ concat args) (type_list_union acc args).
Proof.
  induction args as [|us args IH]; intros acc pre Hd Ha Hall; cbn [type_list_union concat].
  { by rewrite app_nil_r. }
  inversion Hall as [|? ? Hus Hargs]; subst. assert (Hau : Forall (fun t => is_type_list t = false) (acc ++ us)) by by apply Forall_app.
  pose proof (no_lists_faithful _ Hau) as Hf. rewrite app_assoc. apply IH; [by eapply dedup_trans| |done].
  apply Forall_forall. intros x Hx. rewrite Forall_forall in Hau. apply Hau. by apply Hf.
Qed.

Lemma union_all us vs args :
  Forall (Forall (fun t => is_type_list t = false)) (us :: vs :: args) ->
  dedup_of (concat (us :: vs :: args)) (type_list_union us (vs :: args)).
Proof.
  intros H. inversion H as [|? ? Hus H']; subst. inversion H' as [|? ? Hvs Hargs]; subst. cbn [type_list_union].
  assert (Hau : Forall (fun t => is_type_list t = false) (us ++ vs)) by by apply Forall_app.
  pose proof (no_lists_faithful _ Hau) as Hf. cbn [concat]. rewrite app_assoc. apply union_spec; [done| |done].
  apply Forall_forall. intros x Hx. rewrite Forall_forall in Hau. apply Hau. by apply Hf.
Qed.
