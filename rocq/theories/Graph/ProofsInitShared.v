From stdpp Require Import list.
From Verif.Base Require Import Outcome Order ListLemmas.
From Verif.Graph Require Import Model ModelShared ModelInit Spec SpecShared SpecInit.
From Verif.Graph Require Import ProofsBase ProofsPartial ProofsCount ProofsShared ProofsInit.
Local Open Scope res_scope.

(** *** Counting places *)
Section count_places.
  Context {W : Type} `{!EqDecision W}.
  Implicit Types g : graph W.

  Lemma places_cnt (h : W) k r : length (places (fun e => bool_decide (wt e = h)) k r) = cnt h r.
  Proof.
    revert k. induction r as [|e r IH]; intros k; [done|]. cbn [places]. rewrite cnt_cons. unfold one.
    case_bool_decide as Hx.
    - rewrite decide_True by done. simpl. by rewrite IH.
    - rewrite decide_False by done. by rewrite IH.
  Qed.

  Fixpoint all_places g (h : W) (n : nat) : list (nat * nat) :=
    match n with
    | O => []
    | S n => all_places g h n ++ map (pair n) (places (fun e => bool_decide (wt e = h)) 0 (row g n))
    end.

  Lemma all_places_length g h n : length (all_places g h n) = nsum (fun i => cnt h (row g i)) n.
  Proof.
    induction n as [|n IH]; [done|]. cbn [all_places nsum]. rewrite app_length, map_length, places_cnt. lia.
  Qed.

  Lemma all_places_elem g h n p :
    p ∈ all_places g h n -> p.1 < n /\ exists e, row g p.1 !! p.2 = Some e /\ wt e = h.
  Proof.
    induction n as [|n IH]; cbn [all_places]; [by intros ?%elem_of_nil|]. rewrite elem_of_app. intros [H|H].
    - apply IH in H as [? ?]. split; [lia|done].
    - apply elem_of_list_fmap in H as (k & -> & Hk). apply places_elem in Hk as (_ & e & He & Hw).
      cbn [fst snd]. split; [lia|]. exists e. rewrite Nat.sub_0_r in He. split; [done|]. by apply bool_decide_eq_true in Hw.
  Qed.

  Lemma all_places_NoDup g h n : NoDup (all_places g h n).
  Proof.
    induction n as [|n IH]; cbn [all_places]; [constructor|]. apply NoDup_app. split; [done|]. split.
    - intros p Hp Hq. apply all_places_elem in Hp as [Hp _]. apply elem_of_list_fmap in Hq as (k & -> & _). simpl in Hp. lia.
    - apply NoDup_fmap_2; [intros ?? [=]; done|]. apply places_NoDup.
  Qed.

  Lemma occ_two g h p1 p2 :
    (forall i k e, row g i !! k = Some e -> wt e = h -> (i, k) = p1 \/ (i, k) = p2) -> occ g h <= 2.
  Proof.
    intros H. unfold occ. rewrite <- all_places_length. change 2 with (length [p1; p2]).
    apply submseteq_length, NoDup_submseteq; [apply all_places_NoDup|].
    intros [i k] Hp. apply all_places_elem in Hp as (_ & e & He & Hw). simpl in He.
    destruct (H i k e He Hw) as [-> | ->]; [left|right; left].
  Qed.
End count_places.

Section build.
  Context {W : Type} `{!EqDecision W}.
  Implicit Types e x : edge W.
  Implicit Types r : list (edge W).
  Implicit Types m : wmode W.

  Context (m : wmode W) (g : graph W) (Hm : mode_ok m) (Htidy : tidy m g) (Hrec : reciprocal g).

  (** Where the edges to [j] with weight [w] start in the edges of [i]. *)
  Definition lo (i j : nat) (w : W) : nat := prefix_len (fun e => negb (same_edge e (Edge j 0 w))) (row g i).

  Lemma interval i j w k e :
    row g i !! k = Some e -> tgt e = j /\ wt e = w <-> lo i j w <= k < lo i j w + count g i j w.
  Proof.
    intros Hk. destruct (Htidy i) as [Hs Ha]. destruct (matching_facts m (Edge j 0 w) (row g i) Hm Hs Ha) as (Hc & Hle & Hin & Hout).
    set (p := matching m (Edge j 0 w) (row g i)) in *. cbn [tgt wt] in *. rewrite count_hits, <- Hc.
    destruct (decide (p.2 = 0)) as [Hz|Hz].
    { split; [|lia]. intros [H1 H2]. exfalso. apply (Hout k e); [lia|done|]. done. }
    assert (Hlo : lo i j w = p.1).
    { apply Nat.le_antisymm.
      - destruct (decide (lo i j w <= p.1)) as [|Hgt]; [done|]. exfalso. destruct (lookup_in_range (row g i) p.1) as [z Hz']; [lia|].
        assert (Hlt : p.1 < lo i j w) by lia.
        pose proof (prefix_len_lt (fun e => negb (same_edge e (Edge j 0 w))) (row g i) p.1 z Hlt Hz') as Hf. cbn beta in Hf.
        assert (same_edge z (Edge j 0 w) = true); [|by rewrite H in Hf].
        apply same_edge_iff. apply (Hin p.1); [lia|done].
      - destruct (decide (p.1 <= lo i j w)) as [|Hgt]; [done|]. exfalso. destruct (lookup_in_range (row g i) (lo i j w)) as [z Hz']; [lia|].
        pose proof (prefix_len_at (fun e => negb (same_edge e (Edge j 0 w))) (row g i) z Hz') as Hf. cbn beta in Hf.
        apply (Hout (lo i j w) z); [lia|done|]. apply same_edge_iff. by destruct (same_edge z (Edge j 0 w)). }
    rewrite Hlo. split.
    - intros [H1 H2]. destruct (decide (p.1 <= k < p.1 + p.2)) as [|Hn]; [done|]. exfalso.
      apply (Hout k e); [lia|done|]. done.
    - intros H. apply (Hin k e H Hk).
  Qed.

  Lemma count_range i j w : 0 < count g i j w -> lo i j w + count g i j w <= length (row g i).
  Proof.
    intros Hp. destruct (hits_pos j w (row g i) Hp) as (k & e & Hk & Ht & Hw).
    destruct (Htidy i) as [Hs Ha]. destruct (matching_facts m (Edge j 0 w) (row g i) Hm Hs Ha) as (Hc & Hle & Hin & Hout).
    set (p := matching m (Edge j 0 w) (row g i)) in *. cbn [tgt wt] in *. rewrite count_hits in *. rewrite <- Hc in *.
    destruct (lookup_in_range (row g i) p.1) as [z Hz]; [lia|].
    destruct (Hin p.1 z ltac:(lia) Hz) as [H1 H2]. cbn [tgt wt] in *.
    destruct (proj1 (interval i j w p.1 z Hz) (conj H1 H2)) as [Hlo _]. lia.
  Qed.

  Lemma lo_matching i j w : 0 < count g i j w -> matching m (Edge j 0 w) (row g i) = (lo i j w, count g i j w).
  Proof.
    intros Hp. destruct (Htidy i) as [Hs Ha]. destruct (matching_facts m (Edge j 0 w) (row g i) Hm Hs Ha) as (Hc & Hle & Hin & Hout).
    destruct (matching m (Edge j 0 w) (row g i)) as [s c]. cbn [fst snd tgt wt] in *. rewrite count_hits in *. rewrite <- Hc in *. f_equal.
    pose proof (count_range i j w ltac:(rewrite count_hits; lia)) as Hr. rewrite count_hits, <- Hc in Hr.
    destruct (lookup_in_range (row g i) s) as [z Hz]; [lia|].
    destruct (Hin s z ltac:(lia) Hz) as [H1 H2]. cbn [tgt wt] in *.
    destruct (proj1 (interval i j w s z Hz) (conj H1 H2)) as [H3 _].
    destruct (lookup_in_range (row g i) (lo i j w)) as [y Hy]; [lia|].
    assert (Hy' : tgt y = j /\ wt y = w). { apply (interval i j w (lo i j w) y Hy). rewrite count_hits, <- Hc. lia. }
    destruct (decide (s <= lo i j w)); [lia|]. exfalso. apply (Hout (lo i j w) y); [lia|done|]. exact Hy'.
  Qed.

  Definition at_place (p : nat * nat) : option (edge W) := row g p.1 !! p.2.

  (** The other half of an edge, and the half which is made first. *)
  Definition mate (p : nat * nat) : nat * nat :=
    match at_place p with
    | None => p
    | Some e =>
        let j := p.2 - lo p.1 (tgt e) (wt e) in
        if decide (tgt e = p.1) then (p.1, if Nat.even j then p.2 + 1 else p.2 - 1)
        else (tgt e, lo (tgt e) p.1 (wt e) + j)
    end.

  Definition first_half (p : nat * nat) : bool :=
    match at_place p with
    | None => true
    | Some e => if decide (tgt e = p.1) then Nat.even (p.2 - lo p.1 (tgt e) (wt e)) else negb (tgt e <? p.1)
    end.

  Definition rep (p : nat * nat) : nat * nat := if first_half p then p else mate p.

  Lemma mate_facts p e :
    at_place p = Some e ->
    (mate p).1 = tgt e
    /\ (exists e', at_place (mate p) = Some e' /\ tgt e' = p.1 /\ wt e' = wt e)
    /\ mate (mate p) = p /\ mate p <> p
    /\ first_half (mate p) = negb (first_half p)
    /\ (first_half p = false -> (mate p).1 < p.1 \/ (mate p).1 = p.1 /\ (mate p).2 < p.2).
  Proof.
    destruct p as [i k]. intros He. unfold at_place in He. cbn [fst snd] in He.
    pose proof (proj1 (interval i (tgt e) (wt e) k e He) (conj eq_refl eq_refl)) as Hk.
    destruct Hrec as (_ & Hsym & Heven).
    destruct (decide (tgt e = i)) as [Hti|Hti].
    - rewrite Hti in Hk. assert (Hmk : mate (i, k) = (i, if Nat.even (k - lo i i (wt e)) then k + 1 else k - 1)).
      { unfold mate, at_place. cbn [fst snd]. rewrite He. rewrite decide_True by done. by rewrite Hti. }
      set (k' := if Nat.even (k - lo i i (wt e)) then k + 1 else k - 1) in *.
      assert (Hc : Nat.Even (count g i i (wt e))) by apply Heven.
      assert (Hk' : lo i i (wt e) <= k' < lo i i (wt e) + count g i i (wt e)
        /\ Nat.even (k' - lo i i (wt e)) = negb (Nat.even (k - lo i i (wt e)))
        /\ (if Nat.even (k' - lo i i (wt e)) then k' + 1 else k' - 1) = k /\ k' <> k).
      { unfold k'. destruct (Nat.even (k - lo i i (wt e))) eqn:E.
        - apply Nat.even_spec in E. destruct E as [a Ha], Hc as [b Hb].
          replace (k + 1 - lo i i (wt e)) with (S (2 * a)) by lia.
          rewrite Nat.even_succ, Nat.odd_mul. cbn [Nat.odd Nat.even negb andb]. split; [lia|]. split; [done|]. split; [lia|lia].
        - assert (E' : Nat.odd (k - lo i i (wt e)) = true) by (unfold Nat.odd; by rewrite E).
          apply Nat.odd_spec in E' as [a Ha]. replace (k - 1 - lo i i (wt e)) with (2 * a) by lia.
          rewrite Nat.even_mul. cbn [Nat.even orb]. split; [lia|]. split; [done|]. lia. }
      clearbody k'. destruct Hk' as (Hr & Hev & Hback & Hne).
      pose proof (count_range i i (wt e) ltac:(lia)) as Hlen.
      destruct (lookup_in_range (row g i) k') as [e' He']; [lia|].
      destruct (proj2 (interval i i (wt e) k' e' He') Hr) as [Ht' Hw'].
      rewrite Hmk. cbn [fst snd]. unfold at_place at 1. cbn [fst snd].
      assert (Hmk' : mate (i, k') = (i, k)).
      { unfold mate, at_place. cbn [fst snd]. rewrite He', Ht', Hw', decide_True by done. by rewrite Hback. }
      split; [done|]. split; [eauto|]. split; [done|]. split; [congruence|].
      unfold first_half, at_place. cbn [fst snd]. rewrite He, He', Ht', Hw', Hti, !decide_True by done. split; [done|].
      intros Hf. right. split; [done|]. rewrite Hev, Hf in Hback. cbn [negb] in Hback. lia.
    - assert (Hmk : mate (i, k) = (tgt e, lo (tgt e) i (wt e) + (k - lo i (tgt e) (wt e)))).
      { unfold mate, at_place. cbn [fst snd]. rewrite He. by rewrite decide_False by done. }
      set (k' := lo (tgt e) i (wt e) + (k - lo i (tgt e) (wt e))) in *.
      pose proof (Hsym i (tgt e) (wt e)) as Hc.
      assert (Hr : lo (tgt e) i (wt e) <= k' < lo (tgt e) i (wt e) + count g (tgt e) i (wt e)) by (unfold k'; lia).
      pose proof (count_range (tgt e) i (wt e) ltac:(lia)) as Hlen.
      destruct (lookup_in_range (row g (tgt e)) k') as [e' He']; [lia|].
      destruct (proj2 (interval (tgt e) i (wt e) k' e' He') Hr) as [Ht' Hw'].
      rewrite Hmk. cbn [fst snd]. unfold at_place at 1. cbn [fst snd].
      assert (Hmk' : mate (tgt e, k') = (i, k)).
      { unfold mate, at_place. cbn [fst snd]. rewrite He', Ht', Hw', decide_False by done. f_equal. unfold k'. lia. }
      split; [done|]. split; [eauto|]. split; [done|]. split; [congruence|].
      unfold first_half, at_place. cbn [fst snd]. rewrite He, He', Ht'. rewrite !decide_False by done. split.
      + destruct (Nat.ltb_spec i (tgt e)), (Nat.ltb_spec (tgt e) i); try lia; done.
      + intros Hf. left. destruct (Nat.ltb_spec (tgt e) i); [lia|done].
  Qed.

  Lemma rep_facts p e :
    at_place p = Some e ->
    (exists e', at_place (rep p) = Some e' /\ wt e' = wt e) /\ rep (rep p) = rep p
    /\ ((rep p).1 < p.1 \/ (rep p).1 = p.1 /\ (rep p).2 <= p.2).
  Proof.
    intros He. destruct (mate_facts p e He) as (H1 & (e' & He' & _ & Hw) & H3 & H4 & H5 & H6).
    unfold rep at 1 3 4 5 6 7. destruct (first_half p) eqn:Hf.
    - split; [eauto|]. unfold rep. rewrite Hf. split; [done|]. lia.
    - split; [eauto|]. unfold rep. rewrite H5. cbn [negb]. split; [done|]. specialize (H6 eq_refl). lia.
  Qed.

  Lemma rep_same p q e e' :
    at_place p = Some e -> at_place q = Some e' -> rep p = rep q -> q = p \/ q = mate p.
  Proof.
    intros He He' H. destruct (mate_facts p e He) as (_ & _ & H3 & _). destruct (mate_facts q e' He') as (_ & _ & H4 & _).
    unfold rep in H. destruct (first_half p), (first_half q); [left|right|right|left]; congruence.
  Qed.

  (** *** The invariant *)

  Record inv (st : sgraph W) (i k : nat) : Prop := {
    inv_len : length (sedges st) = S i;
    inv_full : forall a, a < i -> length (row (sedges st) a) = length (row g a);
    inv_here : length (row (sedges st) i) = k;
    inv_edge : forall a b (e' : edge nat), row (sedges st) a !! b = Some e' ->
      exists e, row g a !! b = Some e /\ tgt e' = tgt e /\ heap st !! wt e' = Some (wt e);
    inv_addr : forall p q (e1 e2 : edge nat), row (sedges st) p.1 !! p.2 = Some e1 -> row (sedges st) q.1 !! q.2 = Some e2 ->
      wt e1 = wt e2 <-> rep p = rep q
  }.

  Lemma inv_done st i k p (e' : edge nat) : inv st i k -> row (sedges st) p.1 !! p.2 = Some e' -> p.1 < i \/ p.1 = i /\ p.2 < k.
  Proof.
    intros H He. pose proof (row_some_lt _ _ _ _ He) as Hl. rewrite (inv_len _ _ _ H) in Hl.
    destruct (decide (p.1 = i)) as [Hi|]; [|lia]. right. split; [done|]. rewrite Hi in He.
    apply lookup_lt_Some in He. by rewrite (inv_here _ _ _ H) in He.
  Qed.

  Lemma inv_present st i k p e :
    inv st i k -> at_place p = Some e -> p.1 < i \/ p.1 = i /\ p.2 < k -> is_Some (row (sedges st) p.1 !! p.2).
  Proof.
    intros H He Hd. apply lookup_lt_is_Some. destruct Hd as [Hd|[Hi Hd]].
    - rewrite (inv_full _ _ _ H) by done. unfold at_place in He. by apply lookup_lt_Some in He.
    - rewrite Hi. by rewrite (inv_here _ _ _ H).
  Qed.

  (** Adding an edge at the place in turn. *)
  Lemma inv_push st i k e a hp :
    inv st i k -> row g i !! k = Some e ->
    (forall b v, heap st !! b = Some v -> hp !! b = Some v) -> hp !! a = Some (wt e) ->
    (forall q (e2 : edge nat), row (sedges st) q.1 !! q.2 = Some e2 -> a = wt e2 <-> rep (i, k) = rep q) ->
    exists st', push (sedges st) i (Edge (tgt e) 0 a) = Ok (sedges st') /\ heap st' = hp /\ inv st' i (S k).
  Proof.
    intros H He Hhp Ha Haddr. pose proof (inv_len _ _ _ H) as Hl. unfold push.
    rewrite rget_row by lia. cbn [rbind]. exists (SGraph (<[i := row (sedges st) i ++ [Edge (tgt e) 0 a]]> (sedges st)) hp).
    cbn [sedges heap]. split; [done|]. split; [done|].
    set (es := <[i := _]> (sedges st)).
    assert (Hrow : row es i = row (sedges st) i ++ [Edge (tgt e) 0 a]) by (apply row_insert_eq; lia).
    assert (Hrow' : forall b, b <> i -> row es b = row (sedges st) b) by (intros b Hb; apply row_insert_ne; lia).
    assert (Hlook : forall p (e1 : edge nat), row es p.1 !! p.2 = Some e1 ->
      (p = (i, k) /\ e1 = Edge (tgt e) 0 a) \/ row (sedges st) p.1 !! p.2 = Some e1).
    { intros [b c] e1. cbn [fst snd]. destruct (decide (b = i)) as [->|Hb]; [|rewrite Hrow' by done; by right].
      rewrite Hrow, lookup_app_Some. intros [H1|[H1 H2]]; [by right|]. left.
      rewrite (inv_here _ _ _ H) in *. apply list_lookup_singleton_Some in H2 as [H2 <-]. split; [|done]. f_equal. lia. }
    split; cbn [sedges heap].
    - unfold es. by rewrite insert_length.
    - intros b Hb. rewrite Hrow' by lia. by apply (inv_full _ _ _ H).
    - rewrite Hrow, app_length, (inv_here _ _ _ H). simpl. lia.
    - intros b c e' He'. destruct (Hlook (b, c) e' He') as [[[= -> ->] ->]|Hold].
      + exists e. done.
      + destruct (inv_edge _ _ _ H b c e' Hold) as (x & ? & ? & ?). exists x. auto.
    - intros p q e1 e2 H1 H2. destruct (Hlook p e1 H1) as [[-> ->]|Hp], (Hlook q e2 H2) as [[-> ->]|Hq]; cbn [wt].
      + done.
      + by apply Haddr.
      + pose proof (Haddr p e1 Hp) as Hx. split; intros; symmetry; apply Hx; congruence.
      + by apply (inv_addr _ _ _ H).
  Qed.

  Lemma add_first st i k e :
    inv st i k -> row g i !! k = Some e -> first_half (i, k) = true ->
    exists st', add_shared true i (tgt e) None (wt e) st = Ok st' /\ inv st' i (S k).
  Proof.
    intros H He Hf. destruct (inv_push st i k e (length (heap st)) (heap st ++ [wt e]) H He) as (st' & H1 & H2 & H3).
    - intros b v Hb. by apply lookup_app_l_Some.
    - rewrite lookup_app_r by lia. by rewrite Nat.sub_diag.
    - intros q e2 Hq. destruct (inv_edge _ _ _ H _ _ _ Hq) as (x & Hx & _ & Hh). split.
      + intros Hlen. rewrite <- Hlen, lookup_ge_None_2 in Hh; [done|lia].
      + unfold rep at 1. rewrite Hf. intros Heq. exfalso. destruct (rep_facts q x Hx) as (_ & _ & Hr).
        rewrite <- Heq in Hr. cbn [fst snd] in Hr. pose proof (inv_done _ _ _ _ _ H Hq). lia.
    - exists st'. cbn [add_shared]. rewrite H1. cbn [rbind]. split; [|done]. destruct st'. simpl in *. by subst.
  Qed.

  Lemma add_second st i k e :
    inv st i k -> row g i !! k = Some e -> first_half (i, k) = false ->
    exists st', add_shared true i (tgt e) (Some (mate (i, k)).2) (wt e) st = Ok st' /\ inv st' i (S k).
  Proof.
    intros H He Hf. assert (Hrep : rep (i, k) = mate (i, k)) by (unfold rep; by rewrite Hf).
    destruct (mate_facts (i, k) e He) as (Hm1 & (e0 & He0 & _ & Hw0) & _ & _ & _ & Hearlier).
    specialize (Hearlier Hf). cbn [fst snd] in Hearlier.
    destruct (inv_present st i k (mate (i, k)) e0 H He0 Hearlier) as [p Hp].
    destruct (inv_edge _ _ _ H _ _ _ Hp) as (x & Hx & _ & Hh).
    assert (x = e0) as -> by (unfold at_place in He0; congruence).
    destruct (inv_push st i k e (wt p) (heap st) H He) as (st' & H1 & H2 & H3).
    - done.
    - by rewrite Hh, Hw0.
    - intros q e2 Hq. rewrite (inv_addr _ _ _ H (mate (i, k)) q p e2 Hp Hq).
      destruct (rep_facts (i, k) e He) as (_ & Hrr & _). rewrite Hrep in Hrr. rewrite Hrr, Hrep. done.
    - exists st'. cbn [add_shared]. rewrite <- Hm1, (get_row _ _ _ _ Hp). cbn [rbind]. rewrite Hm1, H1. cbn [rbind].
      split; [|done]. destruct st'. simpl in *. by subst.
  Qed.

  (** *** Groups *)

  Lemma add_loops_ok st i w k r :
    inv st i k -> lo i i w <= k -> r = take (lo i i w + count g i i w - k) (drop k (row g i)) ->
    0 < count g i i w -> k <= lo i i w + count g i i w ->
    exists st', add_loops true i k r st = Ok st' /\ inv st' i (lo i i w + count g i i w).
  Proof.
    revert st k. induction r as [|e r IH]; intros st k H Hlo Hr Hc Hk.
    - assert (Hlen : length (take (lo i i w + count g i i w - k) (drop k (row g i))) = 0) by by rewrite <- Hr.
      rewrite take_length, drop_length in Hlen. pose proof (count_range i i w Hc).
      assert (k = lo i i w + count g i i w) as <- by lia. exists st. done.
    - assert (Hlen : length (take (lo i i w + count g i i w - k) (drop k (row g i))) = S (length r)) by by rewrite <- Hr.
      rewrite take_length, drop_length in Hlen. pose proof (count_range i i w Hc) as Hcr.
      assert (He : row g i !! k = Some e).
      { assert (H0 : take (lo i i w + count g i i w - k) (drop k (row g i)) !! 0 = Some e) by by rewrite <- Hr.
        apply lookup_take_Some in H0 as [H0 _]. by rewrite lookup_drop, Nat.add_0_r in H0. }
      destruct (proj2 (interval i i w k e He) ltac:(lia)) as [Ht Hw].
      destruct Hrec as (_ & _ & Heven). pose proof (Heven i w) as [b Hb].
      assert (Hodd : Nat.odd (length (e :: r)) = negb (first_half (i, k))).
      { unfold first_half, at_place. cbn [fst snd]. rewrite He, Ht, Hw, decide_True by done.
        replace (length (e :: r)) with (2 * b - (k - lo i i w)) by (simpl; lia).
        rewrite Nat.odd_sub, Nat.odd_mul by lia. cbn [Nat.odd Nat.even negb andb xorb].
        unfold Nat.odd. by destruct (Nat.even (k - lo i i w)). }
      cbn [add_loops]. rewrite Hodd.
      assert (Hnext : forall st', inv st' i (S k) -> exists st'', add_loops true i (S k) r st' = Ok st'' /\ inv st'' i (lo i i w + count g i i w)).
      { intros st' H'. apply (IH st' (S k) H'); [lia| |done|lia].
        assert (Hd : drop k (row g i) = e :: drop (S k) (row g i)) by by apply drop_S.
        rewrite Hd in Hr. replace (lo i i w + count g i i w - k) with (S (lo i i w + count g i i w - S k)) in Hr by lia.
        by injection Hr. }
      destruct (first_half (i, k)) eqn:Hf; cbn [negb].
      + destruct (add_first st i k e H He Hf) as (st' & H1 & H2). rewrite Ht in H1. rewrite H1. cbn [rbind]. by apply Hnext.
      + destruct (add_second st i k e H He Hf) as (st' & H1 & H2).
        assert (Hmate : (mate (i, k)).2 = k - 1).
        { unfold first_half, at_place in Hf. unfold mate, at_place. cbn [fst snd] in *. rewrite He in *. rewrite Ht in *.
          rewrite decide_True in Hf by done. rewrite decide_True by done. cbn [snd]. by rewrite Hf. }
        rewrite Hmate, Ht in H1. rewrite H1. cbn [rbind]. by apply Hnext.
  Qed.

  Lemma add_links_ok st i t w k r :
    inv st i k -> t <> i -> lo i t w <= k -> r = take (lo i t w + count g i t w - k) (drop k (row g i)) ->
    0 < count g i t w -> k <= lo i t w + count g i t w ->
    exists st', add_links true i t (lo t i w + count g t i w) r st = Ok st' /\ inv st' i (lo i t w + count g i t w).
  Proof.
    revert st k. induction r as [|e r IH]; intros st k H Hti Hlo Hr Hc Hk.
    - assert (Hlen : length (take (lo i t w + count g i t w - k) (drop k (row g i))) = 0) by by rewrite <- Hr.
      rewrite take_length, drop_length in Hlen. pose proof (count_range i t w Hc).
      assert (k = lo i t w + count g i t w) as <- by lia. exists st. done.
    - assert (Hlen : length (take (lo i t w + count g i t w - k) (drop k (row g i))) = S (length r)) by by rewrite <- Hr.
      rewrite take_length, drop_length in Hlen. pose proof (count_range i t w Hc) as Hcr.
      assert (He : row g i !! k = Some e).
      { assert (H0 : take (lo i t w + count g i t w - k) (drop k (row g i)) !! 0 = Some e) by by rewrite <- Hr.
        apply lookup_take_Some in H0 as [H0 _]. by rewrite lookup_drop, Nat.add_0_r in H0. }
      destruct (proj2 (interval i t w k e He) ltac:(lia)) as [Ht Hw].
      destruct Hrec as (_ & Hsym & _). pose proof (Hsym i t w) as Hs.
      assert (Hf : first_half (i, k) = negb (t <? i)).
      { unfold first_half, at_place. cbn [fst snd]. rewrite He, Ht, decide_False by done. done. }
      cbn [add_links].
      assert (Hnext : forall st', inv st' i (S k) -> exists st'', add_links true i t (lo t i w + count g t i w) r st' = Ok st'' /\ inv st'' i (lo i t w + count g i t w)).
      { intros st' H'. apply (IH st' (S k) H'); [done|lia| |done|lia].
        assert (Hd : drop k (row g i) = e :: drop (S k) (row g i)) by by apply drop_S.
        rewrite Hd in Hr. replace (lo i t w + count g i t w - k) with (S (lo i t w + count g i t w - S k)) in Hr by lia.
        by injection Hr. }
      destruct (t <? i) eqn:Hlt; cbn [negb] in Hf.
      + destruct (add_second st i k e H He Hf) as (st' & H1 & H2).
        assert (Hmate : (mate (i, k)).2 = lo t i w + count g t i w - length (e :: r)).
        { unfold mate, at_place. cbn [fst snd]. rewrite He, Ht, Hw, decide_False by done. cbn [snd length]. lia. }
        rewrite Hmate, Ht in H1. rewrite H1. cbn [rbind]. by apply Hnext.
      + destruct (add_first st i k e H He Hf) as (st' & H1 & H2). rewrite Ht in H1. rewrite H1. cbn [rbind]. by apply Hnext.
  Qed.

  Definition ploop (i k : nat) r (st : sgraph W) : res (sgraph W) := add_loops true i k r st.
  Definition plink (i t k : nat) r (tr : nat * nat) (st : sgraph W) : res (sgraph W) :=
    add_links true i t (tr.1 + tr.2) r st.

  Lemma visit_row_process fuel i k r st :
    inv st i k -> r = drop k (row g i) -> length r < fuel ->
    (forall a b x y, a < k -> k <= b -> row g i !! a = Some x -> row g i !! b = Some y -> ~ same x y) ->
    exists st', visit_row m g ploop plink fuel i k r st = Ok st' /\ inv st' i (length (row g i)).
  Proof.
    revert k r st. induction fuel as [|fuel IH]; intros k r st H Hr Hf Hbound; [lia|]. cbn [visit_row].
    destruct r as [|x r].
    - assert (Hlen : length (drop k (row g i)) = 0) by by rewrite <- Hr. rewrite drop_length in Hlen.
      exists st. split; [done|]. assert (k = length (row g i)) as <-; [|done].
      enough (k <= length (row g i)) by lia. rewrite <- (inv_here _ _ _ H).
      destruct (decide (length (row (sedges st) i) <= length (row g i))) as [|Hgt]; [done|].
      destruct (lookup_in_range (row (sedges st) i) (length (row g i))) as [z Hz]; [lia|].
      destruct (inv_edge _ _ _ H _ _ _ Hz) as (y & Hy & _). apply lookup_lt_Some in Hy. lia.
    - destruct (Htidy i) as [Hs Ha].
      assert (Hs' : sorted_by (edge_lt m) (x :: r)) by (rewrite Hr; by apply sorted_drop).
      assert (Ha' : arranged (x :: r)) by (rewrite Hr; by apply arranged_drop).
      rewrite (group_run m x r Hm Hs'). destruct (run_facts x r Ha') as (Hn0 & Hnl & Ht & Hd & Hh).
      set (n := prefix_len (fun e => same_edge e x) (x :: r)) in *. clearbody n.
      assert (Hx : row g i !! k = Some x).
      { rewrite <- (Nat.add_0_r k), <- lookup_drop, <- Hr. done. }
      destruct (proj1 (interval i (tgt x) (wt x) k x Hx) (conj eq_refl eq_refl)) as [Hlo Hhi].
      pose proof (count_range i (tgt x) (wt x) ltac:(lia)) as Hcr.
      assert (Hlok : lo i (tgt x) (wt x) = k).
      { destruct (decide (lo i (tgt x) (wt x) = k)) as [|Hne]; [done|]. exfalso.
        destruct (lookup_in_range (row g i) (lo i (tgt x) (wt x))) as [y Hy]; [lia|].
        apply (Hbound (lo i (tgt x) (wt x)) k y x); [lia|lia|done|done|].
        apply (proj2 (interval i (tgt x) (wt x) _ y Hy)). lia. }
      assert (Hn : n = count g i (tgt x) (wt x)).
      { rewrite Hh. rewrite count_hits. rewrite <- (take_drop k (row g i)), hits_app, <- Hr.
        rewrite (hits_none (tgt x) (wt x) (take k (row g i))); [done|]. intros a e [He Hak]%lookup_take_Some Hse. by apply (Hbound a k e x). }
      assert (Hnext : forall st', inv st' i (k + n) ->
        exists st'', visit_row m g ploop plink fuel i (k + n) (drop n (x :: r)) st' = Ok st'' /\ inv st'' i (length (row g i))).
      { intros st' H'. apply IH; [done| | |].
        - by rewrite Hr, drop_drop.
        - rewrite drop_length. simpl in *. lia.
        - intros a b y z Hak Hbk Hy Hz Hyz. destruct (decide (a < k)).
          + apply (Hbound a b y z); [lia|lia|done..].
          + assert (Hyx : tgt y = tgt x /\ wt y = wt x) by (apply (interval i (tgt x) (wt x) a y Hy); lia).
            assert (Hzx : tgt z = tgt x /\ wt z = wt x). { destruct Hyz as [E1 E2], Hyx as [E3 E4]. split; congruence. }
            apply (interval i (tgt x) (wt x) b z Hz) in Hzx. lia. }
      assert (Hchunk : take n (x :: r) = take (lo i (tgt x) (wt x) + count g i (tgt x) (wt x) - k) (drop k (row g i))).
      { rewrite <- Hr. f_equal. lia. }
      assert (Hend : lo i (tgt x) (wt x) + count g i (tgt x) (wt x) = k + n) by lia.
      destruct (Nat.eqb_spec (tgt x) i) as [Hti|Hti].
      + unfold ploop at 1. rewrite Hti in *.
        destruct (add_loops_ok st i (wt x) k (take n (x :: r)) H) as (st' & H1 & H2); [lia|done|lia|lia|].
        rewrite H1. cbn [rbind]. rewrite Hend in H2. by apply Hnext.
      + destruct Hrec as (Hin & Hsym & _). assert (Htl : tgt x < length g). { apply (Hin i). by eapply elem_of_list_lookup_2. }
        destruct (Nat.ltb_spec (tgt x) (length g)) as [_|]; [|lia]. rewrite rget_row by done. cbn [rbind].
        unfold plink at 1. assert (Hmt : matching m (set_tgt i x) (row g (tgt x)) = (lo (tgt x) i (wt x), count g (tgt x) i (wt x))).
        { rewrite <- lo_matching by (rewrite <- Hsym; lia). unfold matching, set_tgt. destruct m; done. }
        rewrite Hmt. cbn [fst snd].
        destruct (add_links_ok st i (tgt x) (wt x) k (take n (x :: r)) H) as (st' & H1 & H2); [done|lia|done|lia|lia|].
        rewrite H1. cbn [rbind]. rewrite Hend in H2. by apply Hnext.
  Qed.

  Definition pnode (st : sgraph W) : res (sgraph W) := Ok (SGraph (sedges st ++ [[]]) (heap st)).

  (** Everything built up to, but not including, node [i]. *)
  Record built (st : sgraph W) (i : nat) : Prop := {
    built_len : length (sedges st) = i;
    built_full : forall a, a < i -> length (row (sedges st) a) = length (row g a);
    built_edge : forall a b (e' : edge nat), row (sedges st) a !! b = Some e' ->
      exists e, row g a !! b = Some e /\ tgt e' = tgt e /\ heap st !! wt e' = Some (wt e);
    built_addr : forall p q (e1 e2 : edge nat), row (sedges st) p.1 !! p.2 = Some e1 -> row (sedges st) q.1 !! q.2 = Some e2 ->
      wt e1 = wt e2 <-> rep p = rep q
  }.

  Lemma visit_edges_process n i st :
    i + n = length g -> built st i ->
    exists st', visit_edges m g pnode ploop plink (seq i n) st = Ok st' /\ built st' (length g).
  Proof.
    revert i st. induction n as [|n IH]; intros i st Hi H; cbn [seq visit_edges].
    { exists st. split; [done|]. by replace (length g) with i by lia. }
    unfold pnode at 1. cbn [rbind]. rewrite rget_row by lia. cbn [rbind].
    set (st1 := SGraph (sedges st ++ [[]]) (heap st)).
    assert (Hrow : forall a, row (sedges st1) a = row (sedges st) a).
    { intros a. unfold st1. cbn [sedges]. destruct (decide (a < length (sedges st))).
      - by rewrite row_app_l.
      - rewrite row_app_r by lia. rewrite (row_ge (sedges st) a) by lia.
        destruct (a - length (sedges st)) as [|[|]]; done. }
    assert (H1 : inv st1 i 0).
    { split.
      - unfold st1. cbn [sedges]. rewrite app_length, (built_len _ _ H). simpl. lia.
      - intros a Ha. rewrite Hrow. by apply (built_full _ _ H).
      - rewrite Hrow, row_ge; [done|]. by rewrite (built_len _ _ H).
      - intros a b e'. rewrite Hrow. apply (built_edge _ _ H).
      - intros p q e1 e2. rewrite !Hrow. apply (built_addr _ _ H). }
    destruct (visit_row_process (S (length (row g i))) i 0 (row g i) st1 H1) as (st2 & H2 & H3); [by rewrite drop_0|lia|lia|].
    rewrite H2. cbn [rbind]. apply (IH (S i)); [lia|]. split.
    - apply (inv_len _ _ _ H3).
    - intros a Ha. destruct (decide (a = i)) as [->|]; [apply (inv_here _ _ _ H3)|]. apply (inv_full _ _ _ H3). lia.
    - apply (inv_edge _ _ _ H3).
    - apply (inv_addr _ _ _ H3).
  Qed.

  Lemma process_shared_built : exists st, process_shared true m g = Ok st /\ built st (length g).
  Proof.
    destruct (visit_edges_process (length g) 0 (SGraph [] [])) as (st & H1 & H2); [done| |by exists st].
    split; [done|lia| |]; cbn [sedges]; intros *; by rewrite row_ge by (simpl; lia).
  Qed.

  (** *** The result *)

  Lemma built_place st p e : built st (length g) -> at_place p = Some e -> exists e' : edge nat, row (sedges st) p.1 !! p.2 = Some e' /\ tgt e' = tgt e /\ heap st !! wt e' = Some (wt e).
  Proof.
    intros H He. unfold at_place in He. pose proof (row_some_lt _ _ _ _ He) as Hl.
    destruct (lookup_in_range (row (sedges st) p.1) p.2) as [e' He'].
    { rewrite (built_full _ _ H) by done. by apply lookup_lt_Some in He. }
    exists e'. split; [done|]. destruct (built_edge _ _ H _ _ _ He') as (x & Hx & ? & ?). by assert (x = e) as -> by congruence.
  Qed.

  (** With the place of the other half added, the result is an embedded graph. *)
  Definition with_mates (es : graph nat) : graph nat :=
    imap (fun i (z : list (edge nat)) => imap (fun k (e : edge nat) => Edge (tgt e) (mate (i, k)).2 (wt e)) z) es.

  Lemma with_mates_row es i k : row (with_mates es) i !! k = (fun e : edge nat => Edge (tgt e) (mate (i, k)).2 (wt e)) <$> row es i !! k.
  Proof.
    unfold row, with_mates. rewrite list_lookup_imap. destruct (es !! i) as [r|]; [|done]. cbn [fmap option_fmap option_map default from_option id].
    by rewrite list_lookup_imap.
  Qed.

  Lemma built_comp_ok st : built st (length g) -> comp_ok (with_mates (sedges st)).
  Proof.
    intros H i k e He. rewrite with_mates_row in He. apply fmap_Some in He as (e0 & He0 & ->). cbn [tgt comp wt].
    destruct (built_edge _ _ H _ _ _ He0) as (x & Hx & Ht & _).
    destruct (mate_facts (i, k) x Hx) as (H1 & (x' & Hx' & Ht' & Hw') & H3 & H4 & _).
    destruct (built_place st (mate (i, k)) x' H Hx') as (e' & He' & Hte' & _).
    rewrite Ht, <- H1. rewrite with_mates_row, He'. cbn [fmap option_fmap option_map]. eexists. split; [done|]. cbn [tgt comp wt].
    rewrite <- (surjective_pairing (mate (i, k))), H3. split; [by rewrite Hte'|]. split; [done|]. split; [|done].
    apply (built_addr _ _ H (mate (i, k)) (i, k) e' e0 He' He0).
    unfold rep. destruct (mate_facts (i, k) x Hx) as (_ & _ & _ & _ & H5 & _). rewrite H5.
    destruct (first_half (i, k)); cbn [negb]; [by rewrite H3|done].
  Qed.

  Lemma with_mates_hits es j w i : hits j w (row (with_mates es) i) = hits j w (row es i).
  Proof.
    assert (Hr : row (with_mates es) i = imap (fun k (e : edge nat) => Edge (tgt e) (mate (i, k)).2 (wt e)) (row es i)).
    { apply list_eq. intros k. by rewrite with_mates_row, list_lookup_imap. }
    rewrite Hr. clear Hr.
    assert (Hgen : forall (f : nat -> nat) (z : list (edge nat)), hits j w (imap (fun k (e : edge nat) => Edge (tgt e) (f k) (wt e)) z) = hits j w z).
    { intros f z. revert f. induction z as [|e z IH]; intros f; [done|]. rewrite imap_cons, !hits_cons. f_equal. apply (IH (fun k => f (S k))). }
    apply (Hgen (fun k => (mate (i, k)).2)).
  Qed.

  Lemma built_shared_ok st : built st (length g) -> shared_ok Undirected st.
  Proof.
    intros H. pose proof (comp_ok_reciprocal _ (built_comp_ok st H)) as (Hr & Hs & He). split; [|split].
    - split; [|split].
      + intros i e Hin. apply elem_of_list_lookup in Hin as [k Hk].
        rewrite (built_len _ _ H). destruct (built_edge _ _ H _ _ _ Hk) as (x & Hx & -> & _).
        destruct Hrec as (Hin & _). apply (Hin i). by eapply elem_of_list_lookup_2.
      + intros i j w. specialize (Hs i j w). rewrite !count_hits, !with_mates_hits in Hs. done.
      + intros i w. specialize (He i w). rewrite count_hits, with_mates_hits in He. done.
    - intros h. destruct (decide (occ (sedges st) h = 0)); [lia|].
      assert (Hex : exists i k (e : edge nat), row (sedges st) i !! k = Some e /\ wt e = h).
      { unfold occ in n. rewrite <- all_places_length in n. destruct (all_places (sedges st) h (length (sedges st))) as [|p l] eqn:E; [done|].
        assert (Hp : p ∈ all_places (sedges st) h (length (sedges st))) by (rewrite E; left).
        apply all_places_elem in Hp as (_ & e & He' & Hw). eauto. }
      destruct Hex as (i & k & e & Hk & Hw). apply (occ_two _ _ (i, k) (mate (i, k))).
      intros i' k' e' Hk' Hw'. destruct (built_edge _ _ H _ _ _ Hk) as (x & Hx & _). destruct (built_edge _ _ H _ _ _ Hk') as (x' & Hx' & _).
      apply (rep_same (i, k) (i', k') x x' Hx Hx'). apply (built_addr _ _ H (i, k) (i', k') e e' Hk Hk'). congruence.
    - intros h Hh. unfold occ. rewrite <- all_places_length.
      destruct (all_places (sedges st) h (length (sedges st))) as [|p l] eqn:E; [done|]. exfalso.
      assert (Hp : p ∈ all_places (sedges st) h (length (sedges st))) by (rewrite E; left).
      apply all_places_elem in Hp as (_ & e & He' & Hw). destruct (built_edge _ _ H _ _ _ He') as (x & _ & _ & Hx).
      apply lookup_lt_Some in Hx. lia.
  Qed.
End build.

Section shared_init.
  Context {V : Type} `{!EqDecision V}.
  Implicit Types g rows : graph V.

  Lemma construct_shared_undirected m rows :
    mode_ok m -> reciprocal rows ->
    exists g st, construct Undirected m rows = Ok g /\ construct_shared true Undirected m rows = Ok st
      /\ shows Undirected st g /\ shared_ok Undirected st.
  Proof.
    intros Hm Hok. destruct (preprocess_ok m rows Hm) as (g & Hg & Hse & Ht).
    pose proof (proj2 (same_edges_reciprocal g rows Hse) Hok) as Hrec.
    assert (Hv : validate_undirected m g = Ok tt) by (by destruct (validate_undirected_ok m g Hm Ht) as [[-> _]|[_ H]]).
    destruct (process_shared_built m g Hm Ht Hrec) as (st & Hp & Hb).
    exists g, st. cbn [construct construct_shared]. rewrite Hg. cbn [rbind]. rewrite Hv. cbn [rbind].
    split; [done|]. split; [done|]. split; [|by apply (built_shared_ok m g Hm Ht Hrec)].
    split; [by apply (built_len _ _ _ Hb)|]. split.
    - intros i. destruct (decide (i < length g)) as [Hi|Hi]; [by apply (built_full _ _ _ Hb)|].
      rewrite !row_ge; [done|lia|]. rewrite (built_len _ _ _ Hb). lia.
    - intros i k e He. destruct (built_place g st (i, k) e Hb He) as (e' & He' & H1 & H2). cbn [fst snd] in He'. split.
      + rewrite (sweight_row _ _ _ _ He'). unfold rget. by rewrite H2.
      + exists e'. done.
  Qed.

  Lemma construct_shared_throws nrvo fl m rows :
    fl <> Directed -> mode_ok m -> ~ graph_ok fl rows -> exists z, construct_shared nrvo fl m rows = Throw z.
  Proof.
    intros Hfl Hm Hok. destruct (construct_throws fl m rows Hm Hok) as [z Hz]. exists z.
    destruct fl; [done|..]; cbn [construct construct_shared] in *.
    - destruct (preprocess m rows) as [g| | |] eqn:Hg; cbn [rbind] in *; simplify_eq; try done.
      destruct (validate_undirected m g) as [[]| | |]; cbn [rbind] in *; by simplify_eq.
    - destruct (validate_embedded_rows rows 0 rows) as [[]| | |]; cbn [rbind] in *; by simplify_eq.
  Qed.

  Lemma process_row_embedded_facts (r : list (edge V)) h :
    let p := process_row_embedded r h in
    length p.1 = length r
    /\ (forall a v, h !! a = Some v -> p.2 !! a = Some v)
    /\ forall k e, r !! k = Some e -> exists e', p.1 !! k = Some e' /\ tgt e' = tgt e /\ comp e' = comp e /\ p.2 !! wt e' = Some (wt e).
  Proof.
    revert h. induction r as [|e r IH]; intros h p; unfold p; cbn [process_row_embedded fst snd]; [done|].
    destruct (IH (h ++ [wt e])) as (H1 & H2 & H3). set (q := process_row_embedded r (h ++ [wt e])) in *.
    split; [simpl; by rewrite H1|]. split.
    - intros a v Ha. apply H2. by apply lookup_app_l_Some.
    - intros [|k] x Hk.
      + injection Hk as <-. eexists. split; [done|]. split; [done|]. split; [done|]. cbn [wt]. apply H2.
        rewrite lookup_app_r by lia. by rewrite Nat.sub_diag.
      + by apply (H3 k x).
  Qed.

  Lemma process_embedded_facts rows h :
    let st := process_embedded_shared rows h in
    length (sedges st) = length rows
    /\ (forall a v, h !! a = Some v -> heap st !! a = Some v)
    /\ (forall i, length (row (sedges st) i) = length (row rows i))
    /\ forall i k e, row rows i !! k = Some e ->
         exists e', row (sedges st) i !! k = Some e' /\ tgt e' = tgt e /\ comp e' = comp e /\ heap st !! wt e' = Some (wt e).
  Proof.
    revert h. induction rows as [|r rows IH]; intros h st; unfold st; cbn [process_embedded_shared].
    - cbn [sedges heap]. split; [done|]. split; [done|]. split; [done|]. intros i k e He. done.
    - destruct (process_row_embedded_facts r h) as (H1 & H2 & H3). set (p := process_row_embedded r h) in *.
      destruct (IH p.2) as (G1 & G2 & G3 & G4). set (q := process_embedded_shared rows p.2) in *. cbn [sedges heap].
      split; [simpl; by rewrite G1|]. split; [auto|]. split.
      + intros [|i]; [done|]. apply (G3 i).
      + intros [|i] k e He.
        * destruct (H3 k e He) as (e' & ? & ? & ? & ?). exists e'. auto.
        * apply (G4 i k e He).
  Qed.

  Lemma construct_shared_embedded m rows :
    comp_ok rows ->
    exists st, construct_shared true Embedded m rows = Ok st /\ shows Embedded st rows.
  Proof.
    intros Hok. assert (Hv : validate_embedded_rows rows 0 rows = Ok tt) by (by destruct (validate_embedded_ok rows) as [[-> _]|[_ H]]).
    exists (process_embedded_shared rows []). cbn [construct_shared]. rewrite Hv. cbn [rbind]. split; [done|].
    destruct (process_embedded_facts rows []) as (H1 & _ & H3 & H4). split; [done|]. split; [done|].
    intros i k e He. destruct (H4 i k e He) as (e' & He' & ? & ? & Hh). split.
    - rewrite (sweight_row _ _ _ _ He'). unfold rget. by rewrite Hh.
    - by exists e'.
  Qed.

  Lemma sstart_ok fl (g : sgraph V) : fl <> Directed -> sstart fl g -> shared_ok fl g.
  Proof.
    intros Hfl [->|(-> & m & rows & Hm & Hc)]; [by apply empty_shared_ok|].
    assert (Hok : reciprocal rows).
    { cbn [construct_shared] in Hc. destruct (preprocess_ok m rows Hm) as (r & Hr & Hse & Ht). rewrite Hr in Hc. cbn [rbind] in Hc.
      destruct (validate_undirected_ok m r Hm Ht) as [[_ H]|[[x Hx] _]]; [by apply (same_edges_reciprocal r rows Hse)|].
      by rewrite Hx in Hc. }
    destruct (construct_shared_undirected m rows Hm Hok) as (_ & st & _ & H1 & _ & H2). congruence.
  Qed.
End shared_init.
