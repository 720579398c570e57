(** Directed and undirected graphs: the invariants of C13, C15, C16 through every operation. *)
From stdpp Require Import list sorting sets.
From Verif.Base Require Import Outcome ListLemmas.
From Verif.Graph Require Import Model Spec ProofsBase.
Local Open Scope res_scope.

Section partial.
  Context {W : Type} `{!EqDecision W}.
  Implicit Types g : graph W.
  Implicit Types r : list (edge W).

  (** *** Counting *)

  Definition hit (j : nat) (w : W) (e : edge W) : nat :=
    if decide (tgt e = j /\ wt e = w) then 1 else 0.
  Definition hits (j : nat) (w : W) r : nat := length (filter (fun e => tgt e = j /\ wt e = w) r).

  Lemma hits_cons j w e r : hits j w (e :: r) = hit j w e + hits j w r.
  Proof. unfold hits, hit. rewrite filter_cons. by destruct (decide _). Qed.
  Lemma hits_app j w r r' : hits j w (r ++ r') = hits j w r + hits j w r'.
  Proof. unfold hits. by rewrite filter_app, app_length. Qed.
  Lemma hits_delete j w r k e :
    r !! k = Some e -> hits j w r = hit j w e + hits j w (take k r ++ drop (S k) r).
  Proof.
    intros H. rewrite <- (take_drop_middle r k e H) at 1.
    rewrite !hits_app, hits_cons. lia.
  Qed.
  Lemma hits_insert j w r k e e' :
    r !! k = Some e -> hits j w (<[k := e']> r) + hit j w e = hits j w r + hit j w e'.
  Proof.
    intros H. pose proof (lookup_lt_Some _ _ _ H).
    rewrite insert_take_drop by done. rewrite <- (take_drop_middle r k e H) at 3.
    rewrite !hits_app, !hits_cons. lia.
  Qed.
  Lemma hits_perm j w r r' : r ≡ₚ r' -> hits j w r = hits j w r'.
  Proof. intros H. unfold hits. by rewrite H. Qed.
  Lemma hits_pos j w r : 0 < hits j w r -> exists k e, r !! k = Some e /\ tgt e = j /\ wt e = w.
  Proof.
    unfold hits. destruct (filter _ r) as [|e l] eqn:E; simpl; [lia|]. intros _.
    assert (He : e ∈ filter (fun e => tgt e = j /\ wt e = w) r) by (rewrite E; left).
    apply elem_of_list_filter in He as [[??] He]. apply elem_of_list_lookup in He as [k Hk]. eauto.
  Qed.
  Lemma hits_pos_2 j w r k e : r !! k = Some e -> tgt e = j -> wt e = w -> 0 < hits j w r.
  Proof.
    intros H Ht Hw. rewrite (hits_delete j w r k e H). unfold hit.
    rewrite decide_True by done. lia.
  Qed.

  Lemma count_hits g i j w : count g i j w = hits j w (row g i).
  Proof. done. Qed.

  (** One half of an edge. *)
  Definition half (s t : nat) (w0 : W) (i j : nat) (w : W) : nat :=
    if decide (i = s /\ t = j /\ w0 = w) then 1 else 0.
  Definition both (s t : nat) (w0 : W) (i j : nat) (w : W) : nat :=
    half s t w0 i j w + half t s w0 i j w.

  Lemma both_sym s t w0 i j w : both s t w0 i j w = both s t w0 j i w.
  Proof.
    unfold both, half.
    repeat destruct (decide _); try lia; exfalso; naive_solver.
  Qed.
  Lemma both_even s t w0 i w : Nat.Even (both s t w0 i i w).
  Proof.
    exists (half s t w0 i i w). unfold both, half.
    repeat destruct (decide _); try lia; exfalso; naive_solver.
  Qed.

  Lemma half_hit s e i j w :
    half s (tgt e) (wt e) i j w = if decide (i = s) then hit j w e else 0.
  Proof. unfold half, hit. repeat destruct (decide _); try done; exfalso; naive_solver. Qed.

  Lemma count_erase g s k e :
    row g s !! k = Some e ->
    forall i j w, count (<[s := take k (row g s) ++ drop (S k) (row g s)]> g) i j w
                  + half s (tgt e) (wt e) i j w = count g i j w.
  Proof.
    intros H i j w. rewrite !count_hits, row_insert by (by eapply row_some_lt).
    rewrite half_hit. destruct (decide (i = s)) as [->|]; [|lia].
    rewrite (hits_delete j w (row g s) k e H). lia.
  Qed.

  Lemma count_push g s e :
    s < length g ->
    forall i j w, count (<[s := row g s ++ [e]]> g) i j w = count g i j w + half s (tgt e) (wt e) i j w.
  Proof.
    intros H i j w. rewrite !count_hits, row_insert by done.
    rewrite half_hit. destruct (decide (i = s)) as [->|]; [|lia].
    rewrite hits_app, hits_cons. unfold hits at 2. simpl. lia.
  Qed.

  Lemma count_upd g s k e e' :
    row g s !! k = Some e ->
    forall i j w, count (<[s := <[k := e']> (row g s)]> g) i j w + half s (tgt e) (wt e) i j w
                  = count g i j w + half s (tgt e') (wt e') i j w.
  Proof.
    intros H i j w. rewrite !count_hits, row_insert by (by eapply row_some_lt).
    rewrite !half_hit. destruct (decide (i = s)) as [->|]; [|lia].
    by apply hits_insert.
  Qed.

  Lemma in_range_insert g i r :
    in_range g -> (forall e, e ∈ r -> tgt e < length g) -> in_range (<[i := r]> g).
  Proof.
    intros H Hr j e He. rewrite insert_length.
    destruct (decide (i < length g)) as [Hi|Hi].
    - rewrite row_insert in He by done. destruct (decide (j = i)); [auto|eauto].
    - rewrite list_insert_ge in He by lia. eauto.
  Qed.

  Lemma in_range_erase g s k :
    in_range g -> in_range (<[s := take k (row g s) ++ drop (S k) (row g s)]> g).
  Proof.
    intros H. apply in_range_insert; [done|]. intros e He. apply (H s).
    apply elem_of_app in He as [He|He];
      [by apply elem_of_take in He as (?&?&?); eapply elem_of_list_lookup_2
      |by apply elem_of_list_lookup in He as [? He]; rewrite lookup_drop in He; eapply elem_of_list_lookup_2].
  Qed.

  Lemma in_range_upd g s k e e' :
    in_range g -> row g s !! k = Some e -> tgt e' = tgt e -> in_range (<[s := <[k := e']> (row g s)]> g).
  Proof.
    intros H Hk Ht. apply in_range_insert; [done|]. intros e0 He.
    apply elem_of_list_lookup in He as [m Hm].
    apply list_lookup_insert_Some in Hm as [(-> & <- & _)|[_ Hm]].
    - rewrite Ht. apply (H s). by eapply elem_of_list_lookup_2.
    - apply (H s). by eapply elem_of_list_lookup_2.
  Qed.

  Lemma even_cancel a b : Nat.Even (a + b) -> Nat.Even b -> Nat.Even a.
  Proof. intros [x Hx] [y Hy]. exists (x - y). lia. Qed.
  Lemma even_plus a b : Nat.Even a -> Nat.Even b -> Nat.Even (a + b).
  Proof. intros [x Hx] [y Hy]. exists (x + y). lia. Qed.

  (** The whole edge lost or gained. *)
  Lemma reciprocal_less g g' s t w0 :
    reciprocal g -> in_range g' ->
    (forall i j w, count g' i j w + both s t w0 i j w = count g i j w) -> reciprocal g'.
  Proof.
    intros (_ & Hs & He) Hr Hc. split; [done|]. split.
    - intros i j w. pose proof (Hc i j w). pose proof (Hc j i w). pose proof (both_sym s t w0 i j w).
      specialize (Hs i j w). lia.
    - intros i w. pose proof (Hc i i w) as H. specialize (He i w). rewrite <- H in He.
      eapply even_cancel; [done|]. apply both_even.
  Qed.

  Lemma reciprocal_more g g' s t w0 :
    reciprocal g -> in_range g' ->
    (forall i j w, count g' i j w = count g i j w + both s t w0 i j w) -> reciprocal g'.
  Proof.
    intros (_ & Hs & He) Hr Hc. split; [done|]. split.
    - intros i j w. rewrite !Hc, (both_sym s t w0 i j w). by rewrite Hs.
    - intros i w. rewrite Hc. apply even_plus; [done|apply both_even].
  Qed.

  Lemma reciprocal_change g g' s t w0 w1 :
    reciprocal g -> in_range g' ->
    (forall i j w, count g' i j w + both s t w0 i j w = count g i j w + both s t w1 i j w) -> reciprocal g'.
  Proof.
    intros (_ & Hs & He) Hr Hc. split; [done|]. split.
    - intros i j w. pose proof (Hc i j w). pose proof (Hc j i w). pose proof (both_sym s t w0 i j w).
      pose proof (both_sym s t w1 i j w). specialize (Hs i j w). lia.
    - intros i w. pose proof (Hc i i w) as H. specialize (He i w).
      pose proof (both_even s t w1 i w) as He1. pose proof (both_even s t w0 i w) as He0.
      pose proof (even_plus _ _ He He1) as He2. rewrite <- H in He2.
      by eapply even_cancel.
  Qed.

  Lemma reciprocal_same g g' :
    reciprocal g -> in_range g' -> (forall i j w, count g' i j w = count g i j w) -> reciprocal g'.
  Proof.
    intros (_ & Hs & He) Hr Hc. split; [done|]. split.
    - intros i j w. by rewrite !Hc.
    - intros i w. by rewrite Hc.
  Qed.

  (** *** Searching *)

  Lemma find_from_some (p : nat -> edge W -> bool) k r q :
    find_from p k r = Some q -> exists e, k <= q /\ r !! (q - k) = Some e /\ p q e = true
      /\ forall j e', k <= j -> j < q -> r !! (j - k) = Some e' -> p j e' = false.
  Proof.
    revert k. induction r as [|e r IH]; intros k; cbn [find_from]; [done|].
    destruct (p k e) eqn:E.
    - intros [= <-]. exists e. rewrite Nat.sub_diag. repeat split; try done. intros; lia.
    - intros (e' & Hk & Hl & Hp & Hmin)%IH. exists e'. replace (q - k) with (S (q - S k)) by lia.
      repeat split; [lia|done|done|]. intros j e0 Hj1 Hj2 Hj.
      destruct (decide (j = k)) as [->|]; [rewrite Nat.sub_diag in Hj; simpl in Hj; congruence|].
      apply (Hmin j e0); [lia|lia|]. by replace (j - k) with (S (j - S k)) in Hj by lia.
  Qed.

  Lemma find_from_none (p : nat -> edge W -> bool) k r :
    find_from p k r = None -> forall j e, r !! j = Some e -> p (k + j) e = false.
  Proof.
    revert k. induction r as [|e r IH]; intros k; cbn [find_from]; [done|].
    destruct (p k e) eqn:E; [done|]. intros H [|j] e' Hj; simpl in Hj.
    - simplify_eq. by rewrite Nat.add_0_r.
    - replace (k + S j) with (S k + j) by lia. by eapply IH.
  Qed.

  Lemma find_from_exists (p : nat -> edge W -> bool) r j e :
    r !! j = Some e -> p j e = true -> exists q e', find_from p 0 r = Some q /\ r !! q = Some e' /\ p q e' = true.
  Proof.
    intros Hj Hp. destruct (find_from p 0 r) as [q|] eqn:E.
    - destruct (find_from_some _ _ _ _ E) as (e' & _ & Hl & He & _). rewrite Nat.sub_0_r in Hl. eauto.
    - pose proof (find_from_none _ _ _ E _ _ Hj). simpl in *. congruence.
  Qed.

  (** The other half of an edge of an undirected graph exists. *)
  Lemma partner_exists g s k e :
    reciprocal g -> row g s !! k = Some e ->
    exists q e', row g (tgt e) !! q = Some e' /\ tgt e' = s /\ wt e' = wt e /\ (tgt e, q) <> (s, k).
  Proof.
    intros (Hr & Hs & He) Hk. destruct (decide (tgt e = s)) as [Ht|Ht].
    - pose proof (hits_delete s (wt e) _ _ _ Hk) as Hd.
      assert (Hh : hit s (wt e) e = 1) by (unfold hit; by rewrite decide_True).
      assert (Hpos : 0 < hits s (wt e) (take k (row g s) ++ drop (S k) (row g s))).
      { destruct (He s (wt e)) as [m Hm]. rewrite count_hits in Hm. lia. }
      apply hits_pos in Hpos as (q & e' & Hq & Ht' & Hw').
      pose proof (lookup_lt_Some _ _ _ Hk) as Hlt.
      apply lookup_app_Some in Hq as [Hq|[Hge Hq]].
      + apply lookup_take_Some in Hq as [Hq Hlt']. exists q, e'. rewrite Ht.
        repeat split; try done. intros [= ->]. lia.
      + rewrite take_length in *. rewrite lookup_drop in Hq.
        exists (S k + (q - k `min` length (row g s))), e'. rewrite Ht.
        repeat split; try done. intros [=]. lia.
    - assert (Hpos : 0 < count g s (tgt e) (wt e)).
      { rewrite count_hits. by eapply hits_pos_2. }
      rewrite Hs, count_hits in Hpos. apply hits_pos in Hpos as (q & e' & Hq & Ht' & Hw').
      exists q, e'. repeat split; try done. congruence.
  Qed.

  (** *** join *)

  Lemma join_directed n1 n2 w g :
    n1 < length g -> n2 < length g ->
    join Directed n1 n2 w g = Ok (<[n1 := row g n1 ++ [Edge n2 0 w]]> g).
  Proof.
    intros H1 H2. unfold join. rewrite !check_node_ok by done. cbn [rbind add_to_partition].
    by rewrite push_row.
  Qed.

  Lemma join_undirected n1 n2 w g :
    n1 < length g -> n2 < length g ->
    let g1 := <[n1 := row g n1 ++ [Edge n2 0 w]]> g in
    join Undirected n1 n2 w g = Ok (<[n2 := row g1 n2 ++ [Edge n1 0 w]]> g1).
  Proof.
    intros H1 H2 g1. unfold join. rewrite !check_node_ok by done. cbn [rbind add_to_partition].
    rewrite push_row by done. fold g1. cbn [rbind]. unfold reciprocal_join.
    assert (Hl : length g1 = length g) by apply insert_length.
    rewrite rget_row by lia. cbn [rbind].
    assert (Hr : row g1 n1 = row g n1 ++ [Edge n2 0 w]) by (by apply row_insert_eq).
    assert (Hlast : rget (row g1 n1) (length (row g1 n1) - 1) = Ok (Edge n2 0 w)).
    { apply rget_ok. rewrite Hr, app_length. simpl.
      rewrite lookup_app_r by lia. by replace (length (row g n1) + 1 - 1 - length (row g n1)) with 0 by lia. }
    rewrite Hlast. cbn [rbind wt]. by rewrite push_row by lia.
  Qed.

  Lemma in_range_push g n e :
    in_range g -> tgt e < length g -> in_range (<[n := row g n ++ [e]]> g).
  Proof.
    intros H Ht. apply in_range_insert; [done|]. intros e' [He|He]%elem_of_app; [by eapply H|].
    apply elem_of_list_singleton in He as ->. done.
  Qed.

  Lemma join_undirected_ok n1 n2 w g :
    reciprocal g -> n1 < length g -> n2 < length g ->
    exists g', join Undirected n1 n2 w g = Ok g' /\ reciprocal g'
      /\ length g' = length g
      /\ forall i j w', count g' i j w' = count g i j w' + both n1 n2 w i j w'.
  Proof.
    intros Hrec H1 H2. eexists. split; [by apply join_undirected|].
    set (g1 := <[n1 := _]> g). assert (Hl : length g1 = length g) by apply insert_length.
    assert (Hc : forall i j w', count (<[n2 := row g1 n2 ++ [Edge n1 0 w]]> g1) i j w'
      = count g i j w' + both n1 n2 w i j w').
    { intros i j w'. rewrite count_push by lia. unfold g1. rewrite count_push by done. simpl.
      unfold both. lia. }
    split; [|split; [by rewrite insert_length|done]].
    eapply reciprocal_more; [done| |done].
    apply in_range_push; [apply in_range_push; [by apply Hrec|done]|simpl; lia].
  Qed.

  (** *** erase_edge *)

  Lemma erase_edge_directed s k g :
    k < length (row g s) ->
    erase_edge Directed s k g = Ok (<[s := take k (row g s) ++ drop (S k) (row g s)]> g).
  Proof.
    intros H. destruct (lookup_in_range _ _ H) as [e He].
    pose proof (row_some_lt _ _ _ _ He) as Hs. unfold erase_edge, order.
    destruct (Nat.eqb_spec (length g) 0); [lia|]. rewrite check_node_ok by done. cbn [rbind].
    rewrite rget_row by done. cbn [rbind]. destruct (Nat.eqb_spec k (length (row g s))); [lia|].
    apply rget_ok in He. rewrite He. cbn [rbind]. by apply erase_at_row.
  Qed.

  Lemma erase_edge_end fl s k g :
    s < length g -> k = length (row g s) -> erase_edge fl s k g = Ok g.
  Proof.
    intros Hs ->. unfold erase_edge, order. destruct (Nat.eqb_spec (length g) 0); [done|].
    rewrite check_node_ok by done. cbn [rbind]. rewrite rget_row by done. cbn [rbind].
    by rewrite Nat.eqb_refl.
  Qed.

  Lemma is_partner_true s (w : W) e : is_partner s w e = true <-> tgt e = s /\ w = wt e.
  Proof. unfold is_partner. rewrite andb_true_iff, Nat.eqb_eq, bool_decide_eq_true. done. Qed.

  Lemma erase_edge_undirected_ok s k e g :
    reciprocal g -> row g s !! k = Some e ->
    exists g', erase_edge Undirected s k g = Ok g' /\ reciprocal g'
      /\ length g' = length g
      /\ forall i j w, count g' i j w + both s (tgt e) (wt e) i j w = count g i j w.
  Proof.
    intros Hrec Hk. pose proof (row_some_lt _ _ _ _ Hk) as Hs.
    pose proof (lookup_lt_Some _ _ _ Hk) as Hlt.
    destruct (partner_exists _ _ _ _ Hrec Hk) as (q0 & e0 & Hq0 & Ht0 & Hw0 & Hne).
    pose proof (row_some_lt _ _ _ _ Hq0) as Ht.
    unfold erase_edge, order. destruct (Nat.eqb_spec (length g) 0); [lia|].
    rewrite check_node_ok by done. cbn [rbind]. rewrite rget_row by done. cbn [rbind].
    destruct (Nat.eqb_spec k (length (row g s))); [lia|].
    pose proof Hk as Hk'. apply rget_ok in Hk'. rewrite Hk'. cbn [rbind]. clear Hk'.
    destruct (Nat.eqb_spec s (tgt e)) as [Hst|Hst]; cbn [negb].
    - rewrite <- Hst in Hq0, Hne.
      destruct (find_from_exists (fun j e' => negb (j =? k) && is_partner s (wt e) e') (row g s) q0 e0)
        as (q & e' & -> & Hq & Hp); [done| |].
      { apply andb_true_iff. split; [|by apply is_partner_true].
        apply negb_true_iff, Nat.eqb_neq. congruence. }
      apply andb_true_iff in Hp as [Hqk Hp]. apply negb_true_iff, Nat.eqb_neq in Hqk.
      apply is_partner_true in Hp as [Htq Hwq].
      pose proof (lookup_lt_Some _ _ _ Hq) as Hqlt.
      rewrite erase_at_row by done. cbn [rbind].
      set (g1 := <[s := _]> g). assert (Hl : length g1 = length g) by apply insert_length.
      set (d := if q <? k then k - 1 else k).
      assert (Hd : row g1 s !! d = Some e).
      { unfold g1. rewrite row_insert_eq by done. unfold d. destruct (Nat.ltb_spec q k).
        - rewrite lookup_app_r by (rewrite take_length; lia). rewrite lookup_drop, take_length.
          rewrite <- Hk. f_equal. lia.
        - rewrite lookup_app_l by (rewrite take_length; lia). by rewrite lookup_take by lia. }
      rewrite erase_at_row by (by eapply lookup_lt_Some). eexists. split; [done|].
      assert (Hc : forall i j w,
        count (<[s := take d (row g1 s) ++ drop (S d) (row g1 s)]> g1) i j w + both s (tgt e) (wt e) i j w = count g i j w).
      { intros i j w. pose proof (count_erase g1 s d e Hd i j w) as H1.
        pose proof (count_erase g s q e' Hq i j w) as H2. fold g1 in H2.
        unfold both. rewrite <- Hst in *. rewrite Htq, <- Hwq in H2. lia. }
      split; [|split; [rewrite insert_length; lia|done]].
      eapply reciprocal_less; [done| |exact Hc]. apply in_range_erase, in_range_erase, Hrec.
    - rewrite check_node_ok by done. cbn [rbind]. rewrite rget_row by done. cbn [rbind].
      destruct (find_from_exists (fun _ e' => is_partner s (wt e) e') (row g (tgt e)) q0 e0)
        as (q & e' & -> & Hq & Hp); [done| |].
      { by apply is_partner_true. }
      apply is_partner_true in Hp as [Htq Hwq].
      rewrite erase_at_row by done. cbn [rbind].
      set (g1 := <[s := _]> g). assert (Hl : length g1 = length g) by apply insert_length.
      assert (Hq1 : row g1 (tgt e) !! q = Some e').
      { unfold g1. rewrite row_insert_ne by (try congruence; done). done. }
      rewrite erase_at_row by (by eapply lookup_lt_Some). eexists. split; [done|].
      assert (Hc : forall i j w,
        count (<[tgt e := take q (row g1 (tgt e)) ++ drop (S q) (row g1 (tgt e))]> g1) i j w
        + both s (tgt e) (wt e) i j w = count g i j w).
      { intros i j w. pose proof (count_erase g1 (tgt e) q e' Hq1 i j w) as H1.
        pose proof (count_erase g s k e Hk i j w) as H2. fold g1 in H2.
        unfold both. rewrite Htq, <- Hwq in H1. lia. }
      split; [|split; [rewrite insert_length; lia|done]].
      eapply reciprocal_less; [done| |exact Hc]. apply in_range_erase, in_range_erase, Hrec.
  Qed.

  (** *** swap_edges, sort_edges *)

  Lemma reciprocal_perm_row g i r :
    reciprocal g -> i < length g -> r ≡ₚ row g i -> reciprocal (<[i := r]> g).
  Proof.
    intros H Hi Hp. eapply reciprocal_same; [done| |].
    - apply in_range_insert; [by apply H|]. intros e He. rewrite Hp in He. by eapply (proj1 H).
    - intros a j w. rewrite !count_hits, row_insert by done.
      destruct (decide (a = i)) as [->|]; [|done]. by apply hits_perm.
  Qed.

  Lemma in_range_perm_row g i r :
    in_range g -> i < length g -> r ≡ₚ row g i -> in_range (<[i := r]> g).
  Proof.
    intros H Hi Hp. apply in_range_insert; [done|]. intros e He. rewrite Hp in He. by eapply H.
  Qed.

  Lemma swap_edges_row n i j g :
    (exists r, n < length g /\ swap_edges n i j g = Ok (<[n := r]> g) /\ r ≡ₚ row g n)
    \/ swap_edges n i j g = Throw OutOfRange.
  Proof.
    unfold swap_edges. destruct (decide (n < length g)) as [Hn|Hn];
      [rewrite check_node_ok by done|rewrite check_node_throw by done; by right].
    cbn [rbind]. rewrite rget_row by done. cbn [rbind].
    destruct (Nat.ltb_spec i (length (row g n))); [|by right].
    destruct (Nat.ltb_spec j (length (row g n))); [|by right]. cbn [andb].
    destruct (rswap_exists (row g n) i j) as [r Hr]; [done|done|]. rewrite Hr. cbn [rbind].
    left. exists r. split; [done|]. split; [done|]. by eapply rswap_perm.
  Qed.

  Lemma sort_edges_row i1 k1 i2 k2 sorter g :
    iter_ok g i1 k1 -> iter_ok g i2 k2 -> (i1 = i2 -> k1 <= k2) -> (forall l, sorter l ≡ₚ l) ->
    sort_edges i1 k1 i2 k2 sorter g = Ok g \/
    exists r, i1 < length g /\ sort_edges i1 k1 i2 k2 sorter g = Ok (<[i1 := r]> g) /\ r ≡ₚ row g i1.
  Proof.
    intros [H1 Hk1] [H2 Hk2] Hle Hs. unfold sort_edges.
    destruct (Nat.eqb_spec i1 i2) as [->|]; cbn [negb]; [|by left].
    specialize (Hle eq_refl). rewrite rget_row by done. cbn [rbind].
    destruct (Nat.leb_spec k1 k2); [|lia]. destruct (Nat.leb_spec k2 (length (row g i2))); [|lia].
    cbn [andb]. right. eexists. split; [done|]. split; [done|]. rewrite Hs.
    rewrite <- (take_drop k1 (row g i2)) at 4. apply Permutation_app_head.
    rewrite <- (take_drop (k2 - k1) (drop k1 (row g i2))) at 2. rewrite drop_drop.
    by replace (k1 + (k2 - k1)) with k2 by lia.
  Qed.

  (** *** Weights *)

  Lemma find_partner_undirected g s k e :
    reciprocal g -> row g s !! k = Some e ->
    exists q e', find_partner Undirected s k g = Ok (tgt e, q)
      /\ row g (tgt e) !! q = Some e' /\ tgt e' = s /\ wt e' = wt e /\ (tgt e, q) <> (s, k).
  Proof.
    intros Hrec Hk. pose proof (row_some_lt _ _ _ _ Hk) as Hs.
    destruct (partner_exists _ _ _ _ Hrec Hk) as (q0 & e0 & Hq0 & Ht0 & Hw0 & Hne).
    pose proof (row_some_lt _ _ _ _ Hq0) as Ht.
    unfold find_partner. rewrite (get_row _ _ _ _ Hk). cbn [rbind].
    rewrite check_node_ok by done. cbn [rbind]. rewrite rget_row by done. cbn [rbind].
    destruct (Nat.eqb_spec s (tgt e)) as [Hst|Hst].
    - edestruct (find_from_exists (fun j e' => negb (j =? k) &&
        bool_decide (tgt e' = tgt e) && bool_decide (wt e' = wt e)) (row g (tgt e)) q0 e0)
        as (q & e' & -> & Hq & Hp); [done| |].
      { rewrite !andb_true_iff, !bool_decide_eq_true, negb_true_iff, Nat.eqb_neq.
        repeat split; congruence. }
      rewrite !andb_true_iff, !bool_decide_eq_true, negb_true_iff, Nat.eqb_neq in Hp.
      destruct Hp as [[??]?]. exists q, e'. repeat split; try congruence.
    - edestruct (find_from_exists (fun _ e' => (tgt e' =? s) && bool_decide (wt e' = wt e))
        (row g (tgt e)) q0 e0) as (q & e' & -> & Hq & Hp); [done| |].
      { by rewrite andb_true_iff, bool_decide_eq_true, Nat.eqb_eq. }
      rewrite andb_true_iff, bool_decide_eq_true, Nat.eqb_eq in Hp.
      destruct Hp as [??]. exists q, e'. repeat split; try congruence.
  Qed.

  (** Two different positions are written. *)
  Definition write2 g (s k t q : nat) (e1 e2 : edge W) : graph W :=
    let g1 := <[t := <[q := e2]> (row g t)]> g in
    <[s := <[k := e1]> (row g1 s)]> g1.

  Lemma write2_row g s k t q e1 e2 i m :
    (t, q) <> (s, k) -> is_Some (row g s !! k) -> is_Some (row g t !! q) ->
    row (write2 g s k t q e1 e2) i !! m =
      if decide ((i, m) = (s, k)) then Some e1 else
      if decide ((i, m) = (t, q)) then Some e2 else row g i !! m.
  Proof.
    intros Hne [x Hk] [y Hq]. pose proof (row_some_lt _ _ _ _ Hk). pose proof (row_some_lt _ _ _ _ Hq).
    pose proof (lookup_lt_Some _ _ _ Hk). pose proof (lookup_lt_Some _ _ _ Hq).
    unfold write2. set (g1 := <[t := _]> g).
    assert (Hl : length g1 = length g) by apply insert_length.
    rewrite row_insert by lia.
    assert (Hg1 : forall a b, row g1 a !! b = if decide ((a, b) = (t, q)) then Some e2 else row g a !! b).
    { intros a b. unfold g1. rewrite row_insert by done. destruct (decide (a = t)) as [->|].
      - destruct (decide (b = q)) as [->|].
        + rewrite decide_True by done. by rewrite list_lookup_insert.
        + rewrite decide_False by congruence. by rewrite list_lookup_insert_ne.
      - by rewrite decide_False by congruence. }
    destruct (decide (i = s)) as [->|].
    - destruct (decide (m = k)) as [->|].
      + rewrite decide_True by done. rewrite list_lookup_insert; [done|].
        assert (Hx : is_Some (row g1 s !! k)); [|destruct Hx as [? Hx]; by eapply lookup_lt_Some].
        rewrite Hg1. destruct (decide _); eauto.
      + rewrite (decide_False (P := (s, m) = (s, k))) by congruence.
        rewrite list_lookup_insert_ne by done. apply Hg1.
    - rewrite (decide_False (P := (i, m) = (s, k))) by congruence. apply Hg1.
  Qed.

  Lemma write2_length g s k t q e1 e2 : length (write2 g s k t q e1 e2) = length g.
  Proof. unfold write2. by rewrite !insert_length. Qed.

  Lemma set_edge_weight_write fl s k w g t q e e' :
    fl <> Directed -> find_partner fl s k g = Ok (t, q) ->
    row g s !! k = Some e -> row g t !! q = Some e' -> (t, q) <> (s, k) ->
    set_edge_weight fl s k w g = Ok (write2 g s k t q (set_wt w e) (set_wt w e')).
  Proof.
    intros Hfl Hp Hk Hq Hne. unfold set_edge_weight.
    assert (Hm : (let? p := find_partner fl s k g in
       let? g := upd g (fst p) (snd p) (set_wt w) in
       let? e' := get g (fst p) (snd p) in upd g s k (set_wt (wt e'))) = Ok (write2 g s k t q (set_wt w e) (set_wt w e'))).
    { rewrite Hp. cbn [rbind fst snd]. rewrite (upd_row _ _ _ _ _ Hq). cbn [rbind].
      pose proof (row_some_lt _ _ _ _ Hq). pose proof (lookup_lt_Some _ _ _ Hq).
      set (g1 := <[t := _]> g).
      assert (Hg1 : row g1 t !! q = Some (set_wt w e')).
      { unfold g1. rewrite row_insert_eq by done. by apply list_lookup_insert. }
      rewrite (get_row _ _ _ _ Hg1). cbn [rbind].
      assert (Hs : row g1 s !! k = Some e).
      { unfold g1. rewrite row_insert by done. destruct (decide (s = t)) as [->|]; [|done].
        rewrite list_lookup_insert_ne by congruence. done. }
      rewrite (upd_row _ _ _ _ _ Hs). done. }
    destruct fl; [done|exact Hm|exact Hm].
  Qed.

  Lemma mutate_edge_weight_write fl s k f g t q e e' :
    fl <> Directed -> find_partner fl s k g = Ok (t, q) ->
    row g s !! k = Some e -> row g t !! q = Some e' -> (t, q) <> (s, k) ->
    mutate_edge_weight fl s k f g = Ok (write2 g s k t q (set_wt (f (wt e)) e) (set_wt (f (wt e')) e')).
  Proof.
    intros Hfl Hp Hk Hq Hne. unfold mutate_edge_weight.
    assert (Hm : (let? g := let? p := find_partner fl s k g in
          upd g (fst p) (snd p) (fun e => set_wt (f (wt e)) e) in
       upd g s k (fun e => set_wt (f (wt e)) e)) = Ok (write2 g s k t q (set_wt (f (wt e)) e) (set_wt (f (wt e')) e'))).
    { rewrite Hp. cbn [rbind fst snd]. rewrite (upd_row _ _ _ _ _ Hq). cbn [rbind].
      pose proof (row_some_lt _ _ _ _ Hq). set (g1 := <[t := _]> g).
      assert (Hs : row g1 s !! k = Some e).
      { unfold g1. rewrite row_insert by done. destruct (decide (s = t)) as [->|]; [|done].
        rewrite list_lookup_insert_ne by congruence. done. }
      rewrite (upd_row _ _ _ _ _ Hs). done. }
    destruct fl; [done|exact Hm|exact Hm].
  Qed.

  Lemma write2_reciprocal g s k t q e e' w1 :
    reciprocal g -> row g s !! k = Some e -> row g t !! q = Some e' -> (t, q) <> (s, k) ->
    tgt e = t -> tgt e' = s -> wt e' = wt e ->
    reciprocal (write2 g s k t q (set_wt w1 e) (set_wt w1 e')).
  Proof.
    intros Hrec Hk Hq Hne Ht Ht' Hw. pose proof (row_some_lt _ _ _ _ Hq) as Hlt.
    unfold write2. set (g1 := <[t := _]> g).
    assert (Hs : row g1 s !! k = Some e).
    { unfold g1. rewrite row_insert by done. destruct (decide (s = t)) as [->|]; [|done].
      rewrite list_lookup_insert_ne by congruence. done. }
    eapply (reciprocal_change g _ s t (wt e) w1); [done| |].
    - eapply in_range_upd; [|done|done]. eapply in_range_upd; [apply Hrec|done|done].
    - intros i j w. pose proof (count_upd g1 s k e (set_wt w1 e) Hs i j w) as H1.
      pose proof (count_upd g t q e' (set_wt w1 e') Hq i j w) as H2. fold g1 in H2.
      cbn [set_wt tgt wt] in H1, H2. rewrite Ht in H1. rewrite Ht', Hw in H2. unfold both. lia.
  Qed.

  (** *** Nodes *)

  Lemma count_ge g i j w : length g <= i -> count g i j w = 0.
  Proof. intros H. rewrite count_hits, row_ge by done. done. Qed.

  Lemma count_tgt_ge g i j w : in_range g -> length g <= j -> count g i j w = 0.
  Proof.
    intros Hr H. destruct (decide (count g i j w = 0)) as [|Hn]; [done|].
    assert (Hpos : 0 < hits j w (row g i)) by (rewrite <- count_hits; lia).
    apply hits_pos in Hpos as (k & e & Hk & Ht & _).
    assert (tgt e < length g); [|lia]. apply (Hr i). by eapply elem_of_list_lookup_2.
  Qed.

  Lemma hits_map (f : nat -> nat) (h : edge W -> nat) j w r :
    (forall e, e ∈ r -> f (tgt e) = f j -> tgt e = j) ->
    hits (f j) w (map (fun e => Edge (f (tgt e)) (h e) (wt e)) r) = hits j w r.
  Proof.
    intros Hinj. induction r as [|e r IH]; [done|].
    cbn [map]. rewrite !hits_cons, IH by (intros; apply Hinj; [by right|done]). f_equal.
    unfold hit. cbn [tgt wt].
    destruct (decide (tgt e = j /\ wt e = w)) as [[Ht Hw]|Hn].
    - rewrite decide_True; [done|]. by rewrite Ht.
    - rewrite decide_False; [done|]. intros [H Hw]. apply Hn. split; [|done].
      apply Hinj; [left|done].
  Qed.

  Lemma hits_map_none (f : edge W -> edge W) j w r :
    (forall e, e ∈ r -> tgt (f e) <> j) -> hits j w (map f r) = 0.
  Proof.
    intros H. induction r as [|e r IH]; [done|]. cbn [map]. rewrite hits_cons, IH by (intros; apply H; by right).
    unfold hit. rewrite decide_False; [done|]. intros [? _]. by apply (H e); [left|].
  Qed.

  Lemma inserted_in_range n g g' : n <= length g -> is_inserted n g g' -> in_range g -> in_range g'.
  Proof.
    intros Hn Hi Hr i e He. rewrite (inserted_row n g g' i Hn Hi) in He.
    destruct (decide (i = n)); [by apply elem_of_nil in He|].
    apply elem_of_list_In, in_map_iff in He as (e0 & <- & He0%elem_of_list_In). cbn [tgt].
    apply Hr in He0. destruct Hi as [-> _]. by apply up_lt.
  Qed.

  Lemma inserted_count n g g' i j w :
    n <= length g -> is_inserted n g g' ->
    count g' i j w = if decide (i = n \/ j = n) then 0 else count g (down n i) (down n j) w.
  Proof.
    intros Hn Hi. rewrite !count_hits, (inserted_row n g g' i Hn Hi).
    destruct (decide (i = n)) as [->|Hin]; [by rewrite decide_True by auto|].
    destruct (decide (j = n)) as [->|Hjn].
    - rewrite decide_True by auto. apply hits_map_none. intros e _. cbn [tgt]. apply up_ne.
    - rewrite decide_False by tauto. rewrite <- (up_down n j Hjn) at 1.
      apply (hits_map (up n)). intros e _ H. by apply up_inj in H.
  Qed.

  Lemma inserted_reciprocal n g g' :
    n <= length g -> is_inserted n g g' -> reciprocal g -> reciprocal g'.
  Proof.
    intros Hn Hi (Hr & Hs & He). split; [by eapply inserted_in_range|]. split.
    - intros i j w. rewrite !(inserted_count n g g') by done.
      destruct (decide (i = n \/ j = n)), (decide (j = n \/ i = n)); try done; try tauto.
    - intros i w. rewrite (inserted_count n g g') by done.
      destruct (decide _); [by exists 0|done].
  Qed.

  Lemma erased_in_range fl n g g' : n < length g -> is_erased fl n g g' -> in_range g -> in_range g'.
  Proof.
    intros Hn [Hl H] Hr i e He. pose proof (row_elem_lt _ _ _ He) as Hi. rewrite H in He by done.
    apply elem_of_list_In, in_map_iff in He as (e0 & <- & He0%elem_of_list_In). cbn [tgt].
    apply elem_of_list_filter in He0 as [Hne He0]. apply Hr in He0. rewrite Hl. by apply down_lt.
  Qed.

  Lemma hits_filter_ne n j w r : j <> n -> hits j w (filter (fun e => tgt e <> n) r) = hits j w r.
  Proof.
    intros H. unfold hits. rewrite list_filter_filter. f_equal. apply list_filter_iff. intros e. naive_solver.
  Qed.

  Lemma erased_count fl n g g' i j w :
    n < length g -> is_erased fl n g g' -> count g' i j w = count g (up n i) (up n j) w.
  Proof.
    intros Hn [Hl H]. destruct (decide (i < length g')) as [Hi|Hi].
    - rewrite !count_hits, H by done. rewrite <- (down_up n j) at 1.
      rewrite (hits_map (down n)).
      + apply hits_filter_ne. apply up_ne.
      + intros e He Hd. apply elem_of_list_filter in He as [Hne _]. rewrite down_up in Hd.
        rewrite <- Hd. by rewrite up_down.
    - rewrite !count_ge; [done| |lia]. unfold up. case_decide; lia.
  Qed.

  Lemma erased_reciprocal n g g' :
    n < length g -> is_erased Undirected n g g' -> reciprocal g -> reciprocal g'.
  Proof.
    intros Hn Hi (Hr & Hs & He). split; [by eapply erased_in_range|]. split.
    - intros i j w. by rewrite !(erased_count Undirected n g g').
    - intros i w. by rewrite (erased_count Undirected n g g').
  Qed.

  Lemma swapped_in_range i j g g' :
    i < length g -> j < length g -> is_swapped i j g g' -> in_range g -> in_range g'.
  Proof.
    intros Hi Hj [Hl H] Hr a e He. rewrite <- (transpose_invol i j a) in He. rewrite H in He.
    apply elem_of_list_In, in_map_iff in He as (e0 & <- & He0%elem_of_list_In). cbn [tgt].
    rewrite Hl. apply transpose_lt; [done|done|]. by eapply Hr.
  Qed.

  Lemma swapped_count i j g g' a b w :
    is_swapped i j g g' -> count g' a b w = count g (transpose i j a) (transpose i j b) w.
  Proof.
    intros [Hl H]. rewrite !count_hits. rewrite <- (transpose_invol i j a) at 1. rewrite H.
    rewrite <- (transpose_invol i j b) at 1. apply (hits_map (transpose i j)).
    intros e _ Ht. by apply transpose_inj in Ht.
  Qed.

  Lemma swapped_reciprocal i j g g' :
    i < length g -> j < length g -> is_swapped i j g g' -> reciprocal g -> reciprocal g'.
  Proof.
    intros Hi Hj Hsw (Hr & Hs & He). split; [by eapply (swapped_in_range i j g)|]. split.
    - intros a b w. rewrite !(swapped_count i j g g' _ _ _ Hsw). done.
    - intros a w. by rewrite (swapped_count i j g g' _ _ _ Hsw).
  Qed.

  (** Rows without edges to a node need no attention. *)
  Lemma reciprocal_neighbours g n i e :
    reciprocal g -> e ∈ row g i -> tgt e = n -> i ∈ map tgt (row g n).
  Proof.
    intros (Hr & Hs & He) Hin Ht. apply elem_of_list_lookup in Hin as [k Hk].
    assert (Hpos : 0 < count g i n (wt e)) by (rewrite count_hits; by eapply hits_pos_2).
    rewrite Hs, count_hits in Hpos. apply hits_pos in Hpos as (q & e' & Hq & Ht' & _).
    rewrite <- Ht'. apply elem_of_list_In, in_map, elem_of_list_In. by eapply elem_of_list_lookup_2.
  Qed.

  Lemma filter_none {A} (P : A -> Prop) `{!forall x, Decision (P x)} (l : list A) :
    (forall x, x ∈ l -> P x) -> filter P l = l.
  Proof.
    induction l as [|x l IH]; intros Hall; [done|]. rewrite filter_cons_True by (apply Hall; left).
    f_equal. apply IH. intros y Hy. apply Hall. by right.
  Qed.

  Lemma erase_partition_row g n i :
    i < length g ->
    erase_from_partition_if g i (fun e => tgt e =? n)
    = Ok (<[i := filter (fun e => tgt e <> n) (row g i)]> g).
  Proof.
    intros H. unfold erase_from_partition_if. rewrite rget_row by done. cbn [rbind]. do 2 f_equal.
    apply list_filter_iff. intros e. apply Nat.eqb_neq.
  Qed.

  Lemma erase_node_directed n g :
    n < length g -> exists g', erase_node Directed n g = Ok g' /\ is_erased Directed n g g'.
  Proof.
    intros Hn. unfold erase_node. rewrite check_node_ok by done. cbn [rbind].
    destruct (foldM_rows
      (fun g i => if i =? n then Ok g else erase_from_partition_if g i (fun e => tgt e =? n))
      (fun i r => if i =? n then r else filter (fun e => tgt e <> n) r) (seq 0 (length g)) g)
      as (g1 & -> & Hl & Hr).
    { intros g0 i Hi _. destruct (Nat.eqb_spec i n) as [->|].
      - by rewrite list_insert_id by (by apply row_lt).
      - by apply erase_partition_row. }
    { apply NoDup_ListNoDup, seq_NoDup. }
    { intros i Hi%elem_of_seq. lia. }
    cbn [rbind]. eexists. split; [done|]. apply erase_node_finish; [done|done|].
    intros i Hi Hlt. rewrite Hr, decide_True by (apply elem_of_seq; lia).
    destruct (Nat.eqb_spec i n); [done|]. rewrite <- (map_id (filter _ _)) at 1.
    apply map_ext_rows. by intros [t c w] _.
  Qed.

  Lemma erase_node_undirected n g :
    reciprocal g -> n < length g ->
    exists g', erase_node Undirected n g = Ok g' /\ is_erased Undirected n g g'.
  Proof.
    intros Hrec Hn. unfold erase_node. rewrite check_node_ok by done. cbn [rbind].
    rewrite rget_row by done. cbn [rbind].
    set (l := sorted_unique _).
    destruct (foldM_rows (erase_partners Undirected n) (fun _ => filter (fun e => tgt e <> n)) l g)
      as (g1 & -> & Hl & Hr).
    { intros g0 i Hi _. by apply erase_partition_row. }
    { apply sorted_unique_NoDup. }
    { intros i Hi. apply (proj1 (sorted_unique_elem _ _)) in Hi.
      apply elem_of_list_filter in Hi as [_ Hi]. apply elem_of_list_In, in_map_iff in Hi as (e & <- & He).
      eapply (proj1 Hrec). by apply elem_of_list_In. }
    cbn [rbind]. eexists. split; [done|]. apply erase_node_finish; [done|done|].
    intros i Hi Hlt. rewrite Hr.
    assert (Hm : forall r, map (fun e => Edge (tgt e) (new_comp Undirected g n e) (wt e)) r = r).
    { intros r. rewrite <- (map_id r) at 2. apply map_ext_rows. by intros [t c w] _. }
    rewrite Hm. destruct (decide (i ∈ l)) as [|Hnl]; [done|].
    symmetry. apply filter_none. intros e He Ht. apply Hnl, sorted_unique_elem.
    apply elem_of_list_filter. split; [done|]. by eapply reciprocal_neighbours.
  Qed.

  Lemma swap_nodes_directed i j g :
    i < length g -> j < length g ->
    exists g', swap_nodes Directed i j g = Ok g' /\ is_swapped i j g g'.
  Proof.
    intros Hi Hj. unfold swap_nodes. rewrite !check_node_ok by done. cbn [rbind].
    destruct (Nat.eqb_spec i j) as [->|Hij].
    { exists g. split; [done|]. by apply is_swapped_same. }
    apply swap_nodes_rows; try done.
    - apply NoDup_ListNoDup, seq_NoDup.
    - intros k Hk%elem_of_seq. lia.
    - intros k e He _. apply elem_of_seq. split; [lia|]. simpl. by eapply row_elem_lt.
  Qed.

  (** Both for undirected and embedded graphs. *)
  Lemma swap_nodes_symmetric fl i j g :
    fl <> Directed -> in_range g ->
    (forall n a e, e ∈ row g a -> tgt e = n -> a ∈ map tgt (row g n)) ->
    i < length g -> j < length g ->
    exists g', swap_nodes fl i j g = Ok g' /\ is_swapped i j g g'.
  Proof.
    intros Hfl Hr Hnb Hi Hj. unfold swap_nodes. rewrite !check_node_ok by done. cbn [rbind].
    destruct (Nat.eqb_spec i j) as [->|Hij].
    { exists g. split; [done|]. by apply is_swapped_same. }
    assert (Hm : exists g', (let? rows := let? ri := rget g i in let? rj := rget g j in
       Ok (sorted_unique (map tgt ri ++ map tgt rj)) in
      let? g := foldM (fix_up i j) rows g in rswap g i j) = Ok g' /\ is_swapped i j g g').
    { rewrite !rget_row by done. cbn [rbind]. apply swap_nodes_rows; try done.
      - apply sorted_unique_NoDup.
      - intros k Hk. apply (proj1 (sorted_unique_elem _ _)) in Hk. rewrite <- map_app in Hk.
        apply elem_of_list_In, in_map_iff in Hk as (e & <- & He%elem_of_list_In).
        apply elem_of_app in He as [He|He]; by eapply Hr.
      - intros k e He [Ht|Ht]; apply sorted_unique_elem, elem_of_app; [left|right]; by eapply Hnb. }
    destruct fl; [done|exact Hm|exact Hm].
  Qed.

  (** *** All operations *)

  Definition fine fl (o : op W) g : Prop :=
    (exists g', step fl o g = Ok g' /\ graph_ok fl g') \/ (exists e, step fl o g = Throw e).

  Lemma step_directed o g : in_range g -> allowed Directed g o -> fine Directed o g.
  Proof.
    intros Hr Ha. unfold fine. destruct o; cbn [step graph_ok] in *.
    - left. eexists. split; [done|]. eapply inserted_in_range; [|by apply add_node_inserted|done]. done.
    - left. eexists. split; [done|]. eapply inserted_in_range; [|by apply insert_node_inserted|done]. lia.
    - destruct (decide (n < length g)) as [Hn|Hn].
      + left. destruct (erase_node_directed n g Hn) as (g' & ? & ?).
        exists g'. split; [done|]. by eapply erased_in_range.
      + right. unfold erase_node. rewrite check_node_throw by done. by eexists.
    - destruct (decide (n1 < length g)) as [Hn|Hn]; [destruct (decide (n2 < length g)) as [Hn2|Hn2]|].
      + left. rewrite join_directed by done. eexists. split; [done|]. by apply in_range_push.
      + right. unfold join. rewrite check_node_ok by done. cbn [rbind]. rewrite check_node_throw by done. by eexists.
      + right. unfold join. rewrite check_node_throw by done. by eexists.
    - destruct Ha as [? _]. done.
    - destruct Ha as [? _]. done.
    - destruct Ha as [Hi Hk]. left. destruct (decide (k = length (row g i))) as [He|He].
      + rewrite erase_edge_end by done. eauto.
      + rewrite erase_edge_directed by lia. eexists. split; [done|]. by apply in_range_erase.
    - destruct (decide (i < length g)) as [Hn|Hn]; [destruct (decide (j < length g)) as [Hn2|Hn2]|].
      + left. destruct (swap_nodes_directed i j g Hn Hn2) as (g' & ? & ?). exists g'. split; [done|].
        by eapply (swapped_in_range i j g).
      + right. unfold swap_nodes. rewrite check_node_ok by done. cbn [rbind]. rewrite check_node_throw by done. by eexists.
      + right. unfold swap_nodes. rewrite check_node_throw by done. by eexists.
    - destruct (swap_edges_row n i j g) as [(r & ? & ? & ?)|?]; [left|right; by eexists].
      eexists. split; [done|]. by apply in_range_perm_row.
    - destruct Ha as (_ & ? & ? & ? & ?). left.
      destruct (sort_edges_row i1 k1 i2 k2 sorter g) as [Heq|(r & ? & Heq & ?)]; try done;
        eexists; split; try done. by apply in_range_perm_row.
    - destruct Ha as [e He]. left. unfold set_edge_weight. rewrite (upd_row _ _ _ _ _ He).
      eexists. split; [done|]. by eapply in_range_upd.
    - destruct Ha as [e He]. left. unfold mutate_edge_weight. cbn [rbind]. rewrite (upd_row _ _ _ _ _ He).
      eexists. split; [done|]. by eapply in_range_upd.
  Qed.

  Lemma step_undirected o g : reciprocal g -> allowed Undirected g o -> fine Undirected o g.
  Proof.
    intros Hrec Ha. pose proof (proj1 Hrec) as Hr. unfold fine. destruct o; cbn [step graph_ok] in *.
    - left. eexists. split; [done|]. eapply inserted_reciprocal; [|by apply add_node_inserted|done]. done.
    - left. eexists. split; [done|]. eapply inserted_reciprocal; [|by apply insert_node_inserted|done]. lia.
    - destruct (decide (n < length g)) as [Hn|Hn].
      + left. destruct (erase_node_undirected n g Hrec Hn) as (g' & ? & ?).
        exists g'. split; [done|]. by eapply erased_reciprocal.
      + right. unfold erase_node. rewrite check_node_throw by done. by eexists.
    - destruct (decide (n1 < length g)) as [Hn|Hn]; [destruct (decide (n2 < length g)) as [Hn2|Hn2]|].
      + left. destruct (join_undirected_ok n1 n2 w g) as (g' & ? & ? & _); eauto.
      + right. unfold join. rewrite check_node_ok by done. cbn [rbind]. rewrite check_node_throw by done. by eexists.
      + right. unfold join. rewrite check_node_throw by done. by eexists.
    - destruct Ha as [? _]. done.
    - destruct Ha as [? _]. done.
    - destruct Ha as [Hi Hk]. left. destruct (decide (k = length (row g i))) as [He|He].
      + rewrite erase_edge_end by done. eauto.
      + destruct (lookup_in_range (row g i) k) as [e Hl]; [lia|].
        destruct (erase_edge_undirected_ok i k e g) as (g' & ? & ? & _); eauto.
    - destruct (decide (i < length g)) as [Hn|Hn]; [destruct (decide (j < length g)) as [Hn2|Hn2]|].
      + left. destruct (swap_nodes_symmetric Undirected i j g) as (g' & ? & ?); try done.
        { intros. by eapply reciprocal_neighbours. }
        exists g'. split; [done|]. by eapply (swapped_reciprocal i j g).
      + right. unfold swap_nodes. rewrite check_node_ok by done. cbn [rbind]. rewrite check_node_throw by done. by eexists.
      + right. unfold swap_nodes. rewrite check_node_throw by done. by eexists.
    - destruct (swap_edges_row n i j g) as [(r & ? & ? & ?)|?]; [left|right; by eexists].
      eexists. split; [done|]. by apply reciprocal_perm_row.
    - destruct Ha as (_ & ? & ? & ? & ?). left.
      destruct (sort_edges_row i1 k1 i2 k2 sorter g) as [Heq|(r & ? & Heq & ?)]; try done;
        eexists; split; try done. by apply reciprocal_perm_row.
    - destruct Ha as [e He]. left.
      destruct (find_partner_undirected g i k e Hrec He) as (q & e' & Hp & Hq & ? & ? & ?).
      rewrite (set_edge_weight_write Undirected i k w g (tgt e) q e e') by done.
      eexists. split; [done|]. by apply write2_reciprocal.
    - destruct Ha as [e He]. left.
      destruct (find_partner_undirected g i k e Hrec He) as (q & e' & Hp & Hq & ? & Hw & ?).
      rewrite (mutate_edge_weight_write Undirected i k f g (tgt e) q e e') by done.
      eexists. split; [done|]. rewrite Hw. by apply write2_reciprocal.
  Qed.
End partial.
