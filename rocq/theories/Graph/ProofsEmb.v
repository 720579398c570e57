(** Embedded graphs: the invariant of C14, and C15 and C16, through every operation. *)
From stdpp Require Import list sorting sets.
From Verif.Base Require Import Outcome ListLemmas.
From Verif.Graph Require Import Model Spec ProofsBase ProofsPartial ProofsComp.
Local Open Scope res_scope.

Section emb.
  Context {W : Type} `{!EqDecision W}.
  Implicit Types g : graph W.
  Implicit Types r : list (edge W).

  Lemma comp_ok_in_range g : comp_ok g -> in_range g.
  Proof.
    intros H i e He. apply elem_of_list_lookup in He as [k Hk].
    destruct (H i k e Hk) as (e' & He' & _). by eapply row_some_lt.
  Qed.

  Lemma comp_ok_neighbours g n i e : comp_ok g -> e ∈ row g i -> tgt e = n -> i ∈ map tgt (row g n).
  Proof.
    intros H He Ht. apply elem_of_list_lookup in He as [k Hk].
    destruct (H i k e Hk) as (e' & He' & Ht' & _). rewrite <- Ht', <- Ht.
    apply elem_of_list_In, in_map, elem_of_list_In. by eapply elem_of_list_lookup_2.
  Qed.

  (** What an edge list says apart from complementary indices. *)
  Definition bare r : list (nat * W) := map (fun e => (tgt e, wt e)) r.

  Lemma bare_lower num s p r : bare (map (lower num s p) r) = bare r.
  Proof.
    unfold bare. rewrite map_map. apply map_ext. intros e. unfold lower. by destruct (decide _).
  Qed.

  (** *** erase_edge *)

  Lemma half_erase s p (D : nat -> nat -> Prop) g :
    live D g -> p < length (row g s) ->
    D s p -> (forall x, p < x -> ~ D s x) ->
    (forall i k e, row g i !! k = Some e -> D i k -> (i, k) <> (s, p) -> tgt e = s -> comp e <= p) ->
    (let? g := erase_at g s p in modify_from (dec 1) s p g) = Ok (del 1 s p g)
    /\ live (fun i m => D i (before_del 1 s p i m)) (del 1 s p g).
  Proof.
    intros Hl Hp HD Hafter Hdead.
    assert (Hs : s < length g).
    { destruct (lookup_in_range _ _ Hp) as [e He]. by eapply row_some_lt. }
    split.
    - rewrite erase_at_row by done. cbn [rbind].
      replace (take p (row g s) ++ drop (S p) (row g s)) with (cut 1 p (row g s))
        by (unfold cut; by rewrite Nat.add_1_r).
      apply modify_del; [lia|lia|]. eapply live_pairs_above; [exact Hl| | |].
      + intros x Hx. by replace x with p by lia.
      + intros x Hx. apply Hafter. lia.
      + intros i k e He Hd Hn Ht. assert (comp e <= p); [|lia]. eapply Hdead; try done.
        intros [= -> ->]. lia.
    - apply live_del; [done|done|lia|]. intros x Hx. by replace x with p by lia.
  Qed.

  Lemma lower_id s p (e : edge W) : tgt e <> s \/ comp e <= p -> lower 1 s p e = e.
  Proof. intros H. unfold lower. rewrite decide_False; [done|]. lia. Qed.

  Lemma before_del_ne num s p i m : i <> s -> before_del num s p i m = m.
  Proof. intros H. unfold before_del. by rewrite decide_False by tauto. Qed.

  Lemma bare_delete k r : bare (take k r ++ drop (S k) r) = take k (bare r) ++ drop (S k) (bare r).
  Proof. unfold bare. by rewrite map_app, firstn_map, skipn_map. Qed.

  (** Positions [k] of [s] and [q] of [t] go, and nothing else. *)
  Definition both_gone (s k t q : nat) g g' : Prop :=
    length g' = length g /\
    forall i, bare (row g' i) =
      if decide (s = t) then
        if decide (i = s) then
          let hi := Nat.max k q in let lo := Nat.min k q in
          let b := take hi (bare (row g i)) ++ drop (S hi) (bare (row g i)) in
          take lo b ++ drop (S lo) b
        else bare (row g i)
      else if decide (i = s) then take k (bare (row g i)) ++ drop (S k) (bare (row g i))
      else if decide (i = t) then take q (bare (row g i)) ++ drop (S q) (bare (row g i))
      else bare (row g i).

  Lemma bare_del s p g i :
    s < length g ->
    bare (row (del 1 s p g) i) =
      if decide (i = s) then take p (bare (row g i)) ++ drop (S p) (bare (row g i)) else bare (row g i).
  Proof.
    intros Hs. rewrite del_rows by done. rewrite bare_lower.
    destruct (decide (i = s)) as [->|]; [|done]. unfold cut. rewrite Nat.add_1_r. apply bare_delete.
  Qed.

  Lemma erase_edge_embedded_ok s k e g :
    comp_ok g -> row g s !! k = Some e ->
    exists g', erase_edge Embedded s k g = Ok g' /\ comp_ok g' /\ both_gone s k (tgt e) (comp e) g g'.
  Proof.
    intros Hok Hk. pose proof (row_some_lt _ _ _ _ Hk) as Hs.
    pose proof (lookup_lt_Some _ _ _ Hk) as Hlt.
    destruct (Hok s k e Hk) as (e' & He' & Ht' & Hc' & Hw' & Hne).
    pose proof (row_some_lt _ _ _ _ He') as Htlt. pose proof (lookup_lt_Some _ _ _ He') as Hclt.
    pose proof (proj1 (comp_ok_live g) Hok) as Hlive0.
    pose proof (live_both _ _ s k e Hlive0 Hk ltac:(tauto)) as Hlive.
    unfold erase_edge, order. destruct (Nat.eqb_spec (length g) 0); [lia|].
    rewrite check_node_ok by done. cbn [rbind]. rewrite rget_row by done. cbn [rbind].
    destruct (Nat.eqb_spec k (length (row g s))); [lia|].
    pose proof Hk as Hk'. apply rget_ok in Hk'. rewrite Hk'. cbn [rbind]. clear Hk'.
    destruct (Nat.eqb_spec s (tgt e)) as [Hst|Hst]; cbn [negb].
    - (* a loop *)
      rewrite <- Hst in He', Htlt, Hclt, Hne, Hlive |- *. set (c := comp e) in *.
      set (lo := k `min` c). set (hi := k `max` c).
      assert (Hlohi : lo < hi /\ hi < length (row g s) /\ (forall x, x = k \/ x = c <-> x = lo \/ x = hi)).
      { assert (c <> k) by congruence. unfold lo, hi. split; [lia|]. split; [lia|]. intros x. lia. }
      destruct Hlohi as (Hlh & Hhi & Hset).
      assert (Hlive2 : live (fun i m => i = s /\ (m = lo \/ m = hi)) g).
      { eapply live_iff; [|exact Hlive]. intros i m _. cbn beta. specialize (Hset m). naive_solver. }
      assert (Hdead : forall x m, row g s !! m = Some x -> m = lo \/ m = hi ->
        tgt x = s /\ (comp x = lo \/ comp x = hi)).
      { intros x m Hx Hm. apply Hset in Hm as [-> | ->].
        - rewrite Hk in Hx. injection Hx as <-. split; [done|]. apply Hset. by right.
        - rewrite He' in Hx. injection Hx as <-. split; [done|]. apply Hset. by left. }
      destruct ((c =? S k) || (k =? S c)) eqn:Hb.
      + assert (Hhl : hi = S lo). { unfold hi, lo. apply orb_true_iff in Hb. rewrite !Nat.eqb_eq in Hb. lia. }
        rewrite erase_at_row by lia. cbn [rbind]. set (g1 := <[s := _]> g).
        assert (Hl1 : length g1 = length g) by apply insert_length.
        assert (Hr1 : row g1 s = take lo (row g s) ++ drop (S lo) (row g s)) by (by apply row_insert_eq).
        rewrite erase_at_row by (rewrite Hr1, app_length, take_length, drop_length; lia). cbn [rbind].
        assert (Hg2 : <[s := take lo (row g1 s) ++ drop (S lo) (row g1 s)]> g1 = <[s := cut 2 lo (row g s)]> g).
        { rewrite Hr1. unfold g1. rewrite list_insert_insert. f_equal. unfold cut.
          rewrite take_app_le by (rewrite take_length; lia).
          rewrite take_take, Nat.min_id. f_equal.
          rewrite drop_app_ge by (rewrite take_length; lia).
          rewrite take_length, drop_drop. f_equal. lia. }
        rewrite Hg2. exists (del 2 s lo g). split; [|split].
        * apply modify_del; [lia|lia|]. eapply live_pairs_above; [exact Hlive2| | |].
          -- intros x Hx. cbn beta. lia.
          -- intros x Hx. cbn beta. lia.
          -- intros i m x Hx [-> HD] Hn Ht. lia.
        * apply comp_ok_live. eapply live_iff; [|apply (live_del 2 s lo); [exact Hlive2|done|lia|]].
          -- intros i m _. cbn beta. split; [|done]. unfold before_del.
             destruct (decide (i = s /\ lo <= m)); lia.
          -- intros x Hx. cbn beta. lia.
        * split; [apply del_length|]. intros i. rewrite del_rows by done. rewrite bare_lower.
          rewrite (decide_True (P := s = s)) by done. destruct (decide (i = s)) as [->|]; [|done]. cbn zeta. fold lo hi.
          rewrite <- !bare_delete. f_equal. unfold cut. rewrite Hhl.
          rewrite take_app_le by (rewrite take_length; lia). rewrite take_take.
          replace (lo `min` S lo) with lo by lia. f_equal.
          rewrite drop_app_le by (rewrite take_length; lia).
          rewrite skipn_firstn_comm, Nat.sub_diag. simpl. f_equal. lia.
      + assert (Hhl : hi <> S lo).
        { unfold hi, lo. apply orb_false_iff in Hb. rewrite !Nat.eqb_neq in Hb. lia. }
        destruct (half_erase s hi _ g Hlive2) as [H1 L1]; [done|auto|intros x Hx; cbn beta; lia| |].
        { intros i m x Hx [-> HD] Hn Ht. destruct (Hdead x m Hx HD). lia. }
        destruct (erase_at g s hi) as [g0| | |]; cbn [rbind] in *; try done. rewrite H1. cbn [rbind]. clear H1 g0.
        assert (Hr1 : length (row (del 1 s hi g) s) = length (row g s) - 1).
        { rewrite del_rows by done. rewrite decide_True by done. unfold cut.
          rewrite map_length, app_length, take_length, drop_length. lia. }
        destruct (half_erase s lo (fun i m => i = s /\ m = lo) (del 1 s hi g)) as [H2 L2].
        { eapply live_iff; [|exact L1]. intros i m _. cbn beta. unfold before_del.
          destruct (decide (i = s /\ hi <= m)); lia. }
        { lia. }
        { done. }
        { intros x Hx [_ ?]. lia. }
        { intros i m x _ [-> ->] Hn. done. }
        destruct (erase_at (del 1 s hi g) s lo) as [g0| | |]; cbn [rbind] in *; try done. rewrite H2. clear H2 g0.
        eexists. split; [done|]. split.
        * apply comp_ok_live. eapply live_iff; [|exact L2]. intros i m _. cbn beta. unfold before_del.
          split; [|done]. destruct (decide (i = s /\ lo <= m)); lia.
        * split; [by rewrite !del_length|]. intros i. rewrite bare_del by (by rewrite del_length).
          rewrite bare_del by done. rewrite (decide_True (P := s = s)) by done.
          destruct (decide (i = s)) as [->|]; done.
    - (* different nodes *)
      set (t := tgt e) in *. set (c := comp e) in *.
      destruct (half_erase s k _ g Hlive) as [H1 L1]; [done|auto| | |].
      { intros x Hx. cbn beta. lia. }
      { intros i m x Hx [[]|[[-> ->]|[-> ->]]] Hn Htx; [done|]. rewrite He' in Hx. injection Hx as <-. lia. }
      destruct (erase_at g s k) as [g0| | |]; cbn [rbind] in *; try done. rewrite H1. cbn [rbind]. clear H1 g0.
      assert (Hrt : length (row (del 1 s k g) t) = length (row g t)).
      { rewrite del_rows by done. rewrite decide_False by done. apply map_length. }
      destruct (half_erase t c (fun i m => i = t /\ m = c) (del 1 s k g)) as [H2 L2].
      { eapply live_iff; [|exact L1]. intros i m _. cbn beta. unfold before_del.
        destruct (decide (i = s /\ k <= m)); lia. }
      { lia. }
      { done. }
      { intros x Hx [_ ?]. lia. }
      { intros i m x _ [-> ->] Hn. done. }
      destruct (erase_at (del 1 s k g) t c) as [g0| | |]; cbn [rbind] in *; try done. rewrite H2. clear H2 g0.
      eexists. split; [done|]. split.
      + apply comp_ok_live. eapply live_iff; [|exact L2]. intros i m _. cbn beta. unfold before_del.
        split; [|done]. destruct (decide (i = t /\ c <= m)); lia.
      + split; [by rewrite !del_length|]. intros i. rewrite bare_del by (by rewrite del_length).
        rewrite bare_del by done. rewrite (decide_False (P := s = t)) by done.
        destruct (decide (i = s)) as [->|]; [by rewrite decide_False by done|done].
  Qed.

  (** *** erase_node *)

  Definition gone (n : nat) r : nat := length (filter (fun e => tgt e = n) r).

  Lemma gone_cons n e r : gone n (e :: r) = (if decide (tgt e = n) then 1 else 0) + gone n r.
  Proof. unfold gone. rewrite filter_cons. by destruct (decide _). Qed.

  Lemma gone_map n (h : edge W -> edge W) r : (forall e, tgt (h e) = tgt e) -> gone n (map h r) = gone n r.
  Proof.
    intros H. induction r as [|e r IH]; [done|]. cbn [map]. by rewrite !gone_cons, IH, H.
  Qed.

  (** The effect on complementary indices of dropping the edges to [n] from position [k] on of
      node [s], whose edges were [r]. *)
  Definition drop_comp (n s k : nat) r (e : edge W) : edge W :=
    if decide (tgt e = s) then set_comp (comp e - gone n (take (comp e - k) (drop k r))) e else e.

  Lemma filter_map (h : edge W -> edge W) n r :
    (forall e, tgt (h e) = tgt e) ->
    filter (fun e => tgt e <> n) (map h r) = map h (filter (fun e => tgt e <> n) r).
  Proof.
    intros H. induction r as [|e r IH]; [done|]. cbn [map]. rewrite !filter_cons, IH, H.
    by destruct (decide _).
  Qed.

  Lemma erase_embedded_ok n s fuel k (D : nat -> nat -> Prop) g :
    s <> n -> s < length g -> live D g -> (forall i m, D i m -> i = n) ->
    (forall m e, row g n !! m = Some e -> D n m -> tgt e = s -> comp e <= k) ->
    k <= length (row g s) -> length (row g s) - k <= fuel ->
    exists g' (D' : nat -> nat -> Prop), erase_embedded fuel n s k g = Ok g' /\ live D' g' /\ (forall i m, D' i m -> i = n)
      /\ length g' = length g
      /\ (forall i, row g' i = map (drop_comp n s k (row g s))
           (if decide (i = s) then take k (row g s) ++ filter (fun e => tgt e <> n) (drop k (row g s)) else row g i))
      /\ (forall m, D' n m -> D n m \/ exists e, row g n !! m = Some e /\ tgt e = s).
  Proof.
    intros Hsn. revert k D g. induction fuel as [|fuel IH]; intros k D g Hs Hl HDn Hdead Hk Hf;
      cbn [erase_embedded]; rewrite rget_row by done; cbn [rbind].
    all: assert (Hdone : k = length (row g s) ->
      (forall i, row g i = map (drop_comp n s k (row g s))
           (if decide (i = s) then take k (row g s) ++ filter (fun e => tgt e <> n) (drop k (row g s)) else row g i))).
    1,3: intros -> i;
      assert (Hid : forall r, map (drop_comp n s (length (row g s)) (row g s)) r = r)
        by (intros r; rewrite <- (map_id r) at 2; apply map_ext; intros [t c w]; unfold drop_comp;
            cbn [tgt comp]; destruct (decide (t = s)); [|done]; rewrite drop_all, take_nil;
            unfold set_comp, gone; cbn [tgt wt length]; by rewrite filter_nil, Nat.sub_0_r);
      rewrite Hid; destruct (decide (i = s)) as [->|]; [|done];
      by rewrite drop_all, take_ge, filter_nil, app_nil_r.
    - destruct (Nat.eqb_spec k (length (row g s))); [|lia].
      exists g, D. repeat split; auto.
    - destruct (Nat.eqb_spec k (length (row g s))) as [Heq|Hneq].
      { exists g, D. repeat split; auto. }
      destruct (lookup_in_range (row g s) k) as [e He]; [lia|].
      pose proof He as He0. apply rget_ok in He0. rewrite He0. cbn [rbind]. clear He0.
      assert (Hdrop : drop k (row g s) = e :: drop (S k) (row g s)) by (by apply drop_S).
      destruct (Nat.eqb_spec (tgt e) n) as [Htn|Htn].
      + (* the edge goes *)
        assert (HnD : ~ D s k) by (intros Hx; by apply HDn in Hx).
        destruct (Hl s k e He HnD) as (ep & Hep & HnDp & Htp & Hcp & Hwp & Hne).
        pose proof (live_both _ _ s k e Hl He HnD) as Hl'.
        assert (HDs : forall x, D s x \/ s = s /\ x = k \/ s = tgt e /\ x = comp e -> x = k).
        { intros x [Hx|[[_ ->]|[Hx _]]]; [by apply HDn in Hx|done|congruence]. }
        destruct (half_erase s k _ g Hl') as [H1 L1]; [lia|auto|intros x Hx HD; apply HDs in HD; lia| |].
        { intros i m x Hx HD Hnk Htx. destruct HD as [HD|[[-> ->]|[-> ->]]]; [|done|].
          - pose proof (HDn _ _ HD) as ->. by eapply Hdead.
          - rewrite Hep in Hx. injection Hx as <-. lia. }
        destruct (erase_at g s k) as [g0| | |]; cbn [rbind] in *; try done. rewrite H1. cbn [rbind]. clear H1 g0.
        assert (Hrs : row (del 1 s k g) s = map (lower 1 s k) (take k (row g s) ++ drop (S k) (row g s))).
        { rewrite del_rows by done. rewrite decide_True by done. unfold cut. by rewrite Nat.add_1_r. }
        assert (Hrn : row (del 1 s k g) n = map (lower 1 s k) (row g n)).
        { rewrite del_rows by done. by rewrite decide_False by done. }
        assert (Hlen : length (row (del 1 s k g) s) = length (row g s) - 1).
        { rewrite Hrs, map_length, app_length, take_length, drop_length. lia. }
        assert (Htl : forall x : edge W, tgt (lower 1 s k x) = tgt x) by (intros x; unfold lower; by destruct (decide _)).
        destruct (IH k (fun i m => D i m \/ (i = tgt e /\ m = comp e)) (del 1 s k g))
          as (g' & D' & Hg' & Hl2 & HDn' & Hlg & Hrow & HD').
        { by rewrite del_length. }
        { eapply live_iff; [|exact L1]. intros i m _. cbn beta. unfold before_del.
          destruct (decide (i = s /\ k <= m)) as [[-> Hm]|Hx].
          - split.
            + intros HD. apply HDs in HD. lia.
            + intros [HD|[HD _]]; [by apply HDn in HD|congruence].
          - split.
            + intros [HD|[[-> ->]|HD]]; [by left|lia|by right].
            + intros [HD|HD]; [by left|auto]. }
        { intros i m [HD|[-> _]]; [by eapply HDn|done]. }
        { intros m x Hx HD Htx. rewrite Hrn, list_lookup_fmap in Hx.
          destruct (row g n !! m) as [x0|] eqn:Hx0; [|done]. injection Hx as <-. rewrite Htl in Htx.
          assert (Hc0 : comp x0 <= k).
          { destruct HD as [HD|[_ ->]]; [by eapply Hdead|]. rewrite <- Htn in Hx0.
            rewrite Hep in Hx0. injection Hx0 as <-. lia. }
          rewrite lower_id by (by right). done. }
        { lia. }
        { lia. }
        exists g', D'. split; [done|]. split; [done|]. split; [done|]. split; [by rewrite Hlg, del_length|].
        split.
        * intros i. rewrite Hrow.
          assert (Hcomp : forall x, drop_comp n s k (row (del 1 s k g) s) (lower 1 s k x) = drop_comp n s k (row g s) x).
          { intros [t c w]. unfold drop_comp. rewrite Htl. cbn [tgt]. destruct (decide (t = s)) as [->|Hts].
            - assert (Hdr : drop k (row (del 1 s k g) s) = map (lower 1 s k) (drop (S k) (row g s))).
              { rewrite Hrs, skipn_map. f_equal. rewrite drop_app_ge by (rewrite take_length; lia).
                rewrite take_length. by replace (k - k `min` length (row g s)) with 0 by lia. }
              rewrite Hdr, Hdrop. unfold lower at 1 2 4. cbn [tgt comp wt set_comp].
              destruct (decide (s = s /\ k + 1 <= c)) as [[_ Hc]|Hc]; cbn [comp set_comp tgt wt].
              + unfold set_comp. cbn [tgt wt]. f_equal. replace (c - k) with (S (c - 1 - k)) by lia.
                rewrite firstn_cons, gone_cons, decide_True by done.
                rewrite firstn_map, gone_map by done. lia.
              + replace (c - k) with 0 by lia. done.
            - rewrite lower_id by (by left). done. }
          destruct (decide (i = s)) as [->|].
          -- rewrite Hdrop, filter_cons_False by auto. rewrite Hrs.
             rewrite firstn_map, skipn_map.
             rewrite take_app_le by (rewrite take_length; lia).
             rewrite take_take, Nat.min_id.
             rewrite drop_app_ge by (rewrite take_length; lia). rewrite take_length.
             replace (k - k `min` length (row g s)) with 0 by lia. rewrite drop_0.
             rewrite filter_map by done. rewrite <- map_app, map_map. apply map_ext.
             intros x. rewrite <- Hrs. apply Hcomp.
          -- rewrite (del_rows 1 s k g i) by done. rewrite (decide_False (P := i = s)) by done. rewrite map_map. apply map_ext. apply Hcomp.
        * intros m HD. destruct (HD' m HD) as [[Hx|[_ ->]]|(x & Hx & Htx)].
          -- by left.
          -- right. rewrite <- Htn. eauto.
          -- right. rewrite Hrn, list_lookup_fmap in Hx.
             destruct (row g n !! m) as [x0|] eqn:Hx0; [|done]. injection Hx as <-. rewrite Htl in Htx. eauto.
      + (* the edge stays *)
        destruct (IH (S k) D g) as (g' & D' & Hg' & Hl2 & HDn' & Hlg & Hrow & HD'); try done.
        { intros m x Hx HD Ht. pose proof (Hdead m x Hx HD Ht). lia. }
        { lia. }
        { lia. }
        exists g', D'. split; [done|]. split; [done|]. split; [done|]. split; [done|]. split; [|done].
        intros i. rewrite Hrow.
        assert (Hlist : (if decide (i = s) then take (S k) (row g s) ++ filter (fun e => tgt e <> n) (drop (S k) (row g s)) else row g i)
           = (if decide (i = s) then take k (row g s) ++ filter (fun e => tgt e <> n) (drop k (row g s)) else row g i)).
        { destruct (decide (i = s)); [|done]. rewrite Hdrop, filter_cons_True by done.
          rewrite (take_S_r _ _ e) by done. by rewrite <- app_assoc. }
        rewrite Hlist. apply map_ext. intros [t c w]. unfold drop_comp. cbn [tgt comp].
        destruct (decide (t = s)); [|done]. f_equal. rewrite Hdrop. destruct (c - k) as [|d] eqn:Ed.
        * by replace (c - S k) with 0 by lia.
        * replace (c - S k) with d by lia. rewrite firstn_cons, gone_cons, decide_False by done. done.
  Qed.

  (** All of the rows [P]. *)
  Definition drop_comps (n : nat) g (P : list nat) (e : edge W) : edge W :=
    if decide (tgt e ∈ P) then set_comp (comp e - gone n (take (comp e) (row g (tgt e)))) e else e.

  Lemma erase_partners_ok n l P (D : nat -> nat -> Prop) g gP :
    NoDup (P ++ l) -> n ∉ P ++ l -> (forall i, i ∈ P ++ l -> i < length g) ->
    length gP = length g -> live D gP -> (forall i m, D i m -> i = n) ->
    (forall i, row gP i = map (drop_comps n g P)
       (if decide (i ∈ P) then filter (fun e => tgt e <> n) (row g i) else row g i)) ->
    (forall m, D n m -> exists e, row g n !! m = Some e /\ tgt e ∈ P) ->
    exists g' (D' : nat -> nat -> Prop), foldM (erase_partners Embedded n) l gP = Ok g' /\ live D' g'
      /\ (forall i m, D' i m -> i = n) /\ length g' = length g
      /\ (forall i, row g' i = map (drop_comps n g (P ++ l))
       (if decide (i ∈ P ++ l) then filter (fun e => tgt e <> n) (row g i) else row g i)).
  Proof.
    revert P D gP. induction l as [|s l IH]; intros P D gP Hnd Hn Hlt Hlen Hl HDn Hrow HD; cbn [foldM].
    { exists gP, D. rewrite app_nil_r in *. done. }
    assert (HsP : s ∉ P /\ s ∉ l).
    { apply NoDup_app in Hnd as (_ & Hx & Hy). apply NoDup_cons in Hy as [Hy _]. split; [|done].
      intros HP. apply (Hx s HP). left. }
    destruct HsP as [HsP Hsl].
    assert (Hsn : s <> n) by (intros ->; apply Hn, elem_of_app; right; left).
    assert (Hslt : s < length gP) by (rewrite Hlen; apply Hlt, elem_of_app; right; left).
    unfold erase_partners. rewrite rget_row by done. cbn [rbind].
    assert (Htd : forall Q (x : edge W), tgt (drop_comps n g Q x) = tgt x) by (intros Q x; unfold drop_comps; by destruct (decide _)).
    assert (Hrs : row gP s = map (drop_comps n g P) (row g s)) by (rewrite Hrow; by rewrite decide_False).
    assert (HnP : n ∉ P) by (intros Hx; apply Hn, elem_of_app; by left).
    assert (Hrn : row gP n = map (drop_comps n g P) (row g n)) by (rewrite Hrow; by rewrite decide_False).
    destruct (erase_embedded_ok n s (length (row gP s)) 0 D gP) as (g1 & D1 & Hg1 & Hl1 & HDn1 & Hlen1 & Hrow1 & HD1); try done; try lia.
    { intros m e He Hd Ht. exfalso. destruct (HD m Hd) as (e0 & He0 & Ht0).
      rewrite Hrn, list_lookup_fmap, He0 in He. injection He as <-. rewrite Htd in Ht. by rewrite Ht in Ht0. }
    rewrite Hg1. cbn [rbind].
    replace (P ++ s :: l) with ((P ++ [s]) ++ l) in * by (by rewrite <- app_assoc).
    apply (IH (P ++ [s]) D1 g1); try done.
    - lia.
    - intros i. rewrite Hrow1, drop_0, take_0. cbn [app].
      assert (Hcomp : forall x, drop_comp n s 0 (row gP s) (drop_comps n g P x) = drop_comps n g (P ++ [s]) x).
      { intros [t c w]. unfold drop_comp. rewrite Htd. cbn [tgt]. destruct (decide (t = s)) as [->|Hts].
        - assert (Hsame : drop_comps n g P (Edge s c w) = Edge s c w)
            by (unfold drop_comps; by rewrite decide_False).
          rewrite Hsame, drop_0. cbn [comp]. rewrite Nat.sub_0_r. unfold drop_comps at 1. cbn [tgt comp].
          rewrite decide_True by (apply elem_of_app; right; by apply elem_of_list_singleton).
          rewrite Hrs, firstn_map, gone_map; [done|]. apply Htd.
        - unfold drop_comps. cbn [tgt]. destruct (decide (t ∈ P)).
          + by rewrite decide_True by (apply elem_of_app; by left).
          + rewrite decide_False; [done|]. rewrite elem_of_app, elem_of_list_singleton. tauto. }
      destruct (decide (i = s)) as [->|His].
      + rewrite decide_True by (apply elem_of_app; right; by apply elem_of_list_singleton).
        rewrite Hrs, filter_map by apply Htd. rewrite map_map, <- Hrs. apply map_ext. apply Hcomp.
      + rewrite (Hrow i), map_map. destruct (decide (i ∈ P)).
        * rewrite decide_True by (apply elem_of_app; by left). apply map_ext. apply Hcomp.
        * rewrite decide_False by (rewrite elem_of_app, elem_of_list_singleton; tauto). apply map_ext. apply Hcomp.
    - intros m Hd. destruct (HD1 m Hd) as [Hx|(e & He & Ht)].
      + destruct (HD m Hx) as (e0 & ? & ?). exists e0. split; [done|]. apply elem_of_app. by left.
      + rewrite Hrn, list_lookup_fmap in He. destruct (row g n !! m) as [e0|] eqn:He0; [|done]. injection He as <-.
        rewrite Htd in Ht. eexists. split; [done|]. apply elem_of_app. right. by apply elem_of_list_singleton.
  Qed.

  Lemma erase_node_embedded n g :
    comp_ok g -> n < length g ->
    exists g', erase_node Embedded n g = Ok g' /\ is_erased Embedded n g g' /\ comp_ok g'.
  Proof.
    intros Hok Hn. pose proof (comp_ok_in_range g Hok) as Hr.
    unfold erase_node. rewrite check_node_ok by done. cbn [rbind].
    rewrite rget_row by done. cbn [rbind]. set (l := sorted_unique _).
    assert (Hl : forall i, i ∈ l <-> i <> n /\ i ∈ map tgt (row g n)).
    { intros i. unfold l. rewrite sorted_unique_elem, elem_of_list_filter. done. }
    destruct (erase_partners_ok n l [] (fun _ _ => False) g g) as (g1 & D & -> & Hlive & HDn & Hlen & Hrow).
    { apply sorted_unique_NoDup. }
    { cbn [app]. rewrite Hl. tauto. }
    { cbn [app]. intros i Hi. apply Hl in Hi as [_ Hi].
      apply elem_of_list_In, in_map_iff in Hi as (e & <- & He%elem_of_list_In). by eapply Hr. }
    { done. }
    { by apply comp_ok_live. }
    { done. }
    { intros i. rewrite decide_False by apply not_elem_of_nil. rewrite <- (map_id (row g i)) at 1.
      apply map_ext. intros e. unfold drop_comps. by rewrite decide_False by apply not_elem_of_nil. }
    { done. }
    cbn [rbind app] in *. eexists. split; [done|].
    assert (Hnone : forall i e, i <> n -> i ∉ l -> e ∈ row g i -> tgt e <> n).
    { intros i e Hi Hil He Ht. apply Hil, Hl. split; [done|]. by eapply comp_ok_neighbours. }
    assert (Hrow' : forall i, i <> n -> i < length g -> row g1 i =
       map (fun e => Edge (tgt e) (new_comp Embedded g n e) (wt e)) (filter (fun e => tgt e <> n) (row g i))).
    { intros i Hi Hlt. rewrite Hrow.
      assert (Hfil : (if decide (i ∈ l) then filter (fun e => tgt e <> n) (row g i) else row g i)
        = filter (fun e => tgt e <> n) (row g i)).
      { destruct (decide (i ∈ l)) as [|Hil]; [done|]. symmetry. apply filter_none. intros e He. by apply (Hnone i). }
      rewrite Hfil. apply map_ext_rows. intros e He. apply elem_of_list_filter in He as [Hne He].
      unfold drop_comps, new_comp, gone_before. destruct (decide (tgt e ∈ l)) as [Hin|Hin]; [done|].
      destruct e as [t c w]. cbn [tgt comp wt] in *.
      replace (filter (fun e => tgt e = n) (take c (row g t))) with (@nil (edge W)).
      { cbn [length]. by rewrite Nat.sub_0_r. }
      destruct (filter (fun e => tgt e = n) (take c (row g t))) as [|y f] eqn:Ef; [done|]. exfalso.
      assert (Hy : y ∈ filter (fun e => tgt e = n) (take c (row g t))) by (rewrite Ef; left).
      apply elem_of_list_filter in Hy as [Hyn Hy]. apply elem_of_take in Hy as (q & Hq & _).
      eapply (Hnone t y); try done. by eapply elem_of_list_lookup_2. }
    split; [by apply erase_node_finish|].
    set (g' := fix_edge_data _ _ _).
    assert (Hg' : forall i, row g' i = map (fun e => set_tgt (down n (tgt e)) e) (row g1 (up n i))).
    { intros i. unfold g'. rewrite row_fix_edge_data, row_delete by lia. apply map_ext.
      intros [t c w]. unfold set_tgt. cbn [tgt comp wt]. unfold down.
      destruct (Nat.ltb_spec n t); [rewrite decide_True by done|by rewrite decide_False by lia].
      by rewrite <- Nat.sub_1_r. }
    intros i k e He. rewrite Hg', list_lookup_fmap in He.
    destruct (row g1 (up n i) !! k) as [e1|] eqn:He1; simplify_eq/=.
    pose proof (up_ne n i) as Hui. pose proof (row_some_lt _ _ _ _ He1) as Hlt.
    assert (Hne : tgt e1 <> n).
    { rewrite Hrow' in He1 by (done || lia). apply elem_of_list_lookup_2 in He1.
      apply elem_of_list_In, in_map_iff in He1 as (e0 & <- & He0%elem_of_list_In). cbn [tgt].
      by apply elem_of_list_filter in He0 as [? _]. }
    destruct (Hlive _ _ _ He1) as (e' & He' & _ & Ht & Hc & Hw & Hneq).
    { intros Hx. by apply HDn in Hx. }
    exists (set_tgt (down n (tgt e')) e'). cbn [set_tgt tgt comp wt]. rewrite Hg', up_down by done.
    rewrite list_lookup_fmap, He'. split; [done|]. rewrite Ht, down_up. repeat split; try done.
    intros [= Hd Hk]. apply Hneq. f_equal; [|done]. rewrite <- Hd. by rewrite up_down.
  Qed.

  (** *** The other operations on nodes *)

  Lemma inserted_comp_ok n g g' : n <= length g -> is_inserted n g g' -> comp_ok g -> comp_ok g'.
  Proof.
    intros Hn Hi Hok i k e He. rewrite (inserted_row n g g' i Hn Hi) in He.
    destruct (decide (i = n)) as [->|Hin]; [done|]. rewrite list_lookup_fmap in He.
    destruct (row g (down n i) !! k) as [e0|] eqn:He0; simplify_eq/=.
    destruct (Hok _ _ _ He0) as (e' & He' & Ht & Hc & Hw & Hne).
    exists (Edge (up n (tgt e')) (comp e') (wt e')). rewrite (inserted_row n g g' _ Hn Hi).
    rewrite decide_False by apply up_ne. rewrite down_up, list_lookup_fmap, He'. cbn [tgt comp wt fmap option_fmap option_map].
    rewrite Ht, up_down by done. repeat split; try done.
    intros [= Hd Hk]. apply Hne. rewrite <- Hd, down_up. congruence.
  Qed.

  Lemma swapped_comp_ok i j g g' : is_swapped i j g g' -> comp_ok g -> comp_ok g'.
  Proof.
    intros [Hl H] Hok a k e He. rewrite <- (transpose_invol i j a) in He. rewrite H, list_lookup_fmap in He.
    destruct (row g (transpose i j a) !! k) as [e0|] eqn:He0; simplify_eq/=.
    destruct (Hok _ _ _ He0) as (e' & He' & Ht & Hc & Hw & Hne).
    exists (Edge (transpose i j (tgt e')) (comp e') (wt e')). rewrite H, list_lookup_fmap, He'.
    cbn [tgt comp wt fmap option_fmap option_map]. rewrite Ht, transpose_invol. repeat split; try done.
    intros [= Hd Hk]. apply Hne. rewrite <- Hd, transpose_invol. congruence.
  Qed.

  (** *** join *)

  Lemma live_push (D : nat -> nat -> Prop) g s x :
    live D g -> s < length g ->
    live (fun i m => D i m \/ (i, m) = (s, length (row g s))) (<[s := row g s ++ [x]]> g).
  Proof.
    intros H Hs i m e He Hn.
    assert (Hrow : forall a b, (a, b) <> (s, length (row g s)) ->
      row (<[s := row g s ++ [x]]> g) a !! b = row g a !! b).
    { intros a b Hab. rewrite row_insert by done. destruct (decide (a = s)) as [->|]; [|done].
      destruct (decide (b < length (row g s))); [by apply lookup_app_l|].
      rewrite !lookup_ge_None_2; [done|lia|]. rewrite app_length. simpl.
      destruct (decide (b = length (row g s))); [subst; done|lia]. }
    rewrite Hrow in He by tauto. destruct (H i m e He) as (e' & He' & Hn' & Ht & Hc & Hw & Hne); [tauto|].
    assert (Hnl : (tgt e, comp e) <> (s, length (row g s))).
    { intros [= Hx Hy]. rewrite Hx, Hy in He'. apply lookup_lt_Some in He'. lia. }
    exists e'. rewrite Hrow by done. tauto.
  Qed.

  Lemma join_embedded_ok n1 n2 w g :
    comp_ok g -> n1 < length g -> n2 < length g ->
    exists g', join Embedded n1 n2 w g = Ok g' /\ comp_ok g' /\ length g' = length g
      /\ forall i, bare (row g' i) =
           bare (row g i) ++ (if decide (i = n1) then [(n2, w)] else []) ++ (if decide (i = n2) then [(n1, w)] else []).
  Proof.
    intros Hok H1 H2. unfold join. rewrite !check_node_ok by done. cbn [rbind add_to_partition].
    rewrite rget_row by done. cbn [rbind].
    set (c1 := if n1 =? n2 then length (row g n2) + 1 else length (row g n2)).
    rewrite push_row by done. cbn [rbind]. set (g1 := <[n1 := _]> g).
    assert (Hl : length g1 = length g) by apply insert_length.
    unfold reciprocal_join. rewrite rget_row by lia. cbn [rbind].
    assert (Hr1 : row g1 n1 = row g n1 ++ [Edge n2 c1 w]) by (by apply row_insert_eq).
    assert (Hlast : rget (row g1 n1) (length (row g1 n1) - 1) = Ok (Edge n2 c1 w)).
    { apply rget_ok. rewrite Hr1, app_length. simpl.
      rewrite lookup_app_r by lia. by replace (length (row g n1) + 1 - 1 - length (row g n1)) with 0 by lia. }
    rewrite Hlast. cbn [rbind wt]. rewrite push_row by lia. eexists. split; [done|].
    set (c2 := length (row g1 n1) - 1).
    assert (Hc2 : c2 = length (row g n1)) by (unfold c2; rewrite Hr1, app_length; simpl; lia).
    assert (Hc1 : c1 = length (row g1 n2)).
    { unfold c1. destruct (Nat.eqb_spec n1 n2) as [<-|Hn].
      - rewrite Hr1, app_length. done.
      - unfold g1. rewrite row_insert_ne by done. done. }
    split; [|split; [by rewrite insert_length|]].
    - eapply (live_finish _ (n1, c2) (n2, c1) (Edge n2 c1 w) (Edge n1 c2 w)); try done.
      + eapply live_iff; [|apply live_push; [apply live_push; [by apply comp_ok_live|done]|lia]].
        intros i m _. cbn beta. fold g1. rewrite Hc1, Hc2. tauto.
      + intros [= -> Hx]. rewrite Hc1, Hr1, app_length in Hx. simpl in Hx. lia.
      + cbn [fst snd]. rewrite row_insert by lia. destruct (decide (n1 = n2)) as [<-|Hn].
        * rewrite Hr1, <- app_assoc, lookup_app_r by lia. by rewrite Hc2, Nat.sub_diag.
        * rewrite Hr1, lookup_app_r by lia. by rewrite Hc2, Nat.sub_diag.
      + cbn [fst snd]. rewrite row_insert_eq by lia. rewrite lookup_app_r by lia. by rewrite Hc1, Nat.sub_diag.
    - intros i. rewrite row_insert by lia. destruct (decide (i = n2)) as [->|Hi2].
      + unfold bare. rewrite map_app. cbn [map tgt wt]. unfold g1. rewrite row_insert by done.
        destruct (decide (n2 = n1)) as [->|]; [|done]. rewrite map_app. cbn [map tgt wt]. by rewrite <- app_assoc.
      + unfold g1. rewrite row_insert by done. destruct (decide (i = n1)) as [->|].
        * unfold bare. rewrite map_app. done.
        * by rewrite !app_nil_r.
  Qed.

  (** *** insert_join *)

  Lemma bare_raise ex s p i (r : list (edge W)) : bare (imap (raise ex s p i) r) = bare r.
  Proof.
    apply list_eq. intros m. unfold bare. rewrite !list_lookup_fmap, list_lookup_imap.
    destruct (r !! m) as [e|]; [|done]. simpl. f_equal. unfold raise. by destruct (decide _).
  Qed.

  Lemma bare_put p x r : bare (take p r ++ x :: drop p r) = take p (bare r) ++ (tgt x, wt x) :: drop p (bare r).
  Proof. unfold bare. rewrite map_app. cbn [map]. by rewrite firstn_map, skipn_map. Qed.

  Lemma bare_ins ex s p x g i :
    s < length g -> bare (row (ins ex s p x g) i) =
      if decide (i = s) then take p (bare (row g i)) ++ (tgt x, wt x) :: drop p (bare (row g i)) else bare (row g i).
  Proof.
    intros Hs. unfold ins. rewrite row_insert by (by rewrite imap_length).
    destruct (decide (i = s)) as [->|].
    - rewrite bare_put, row_imap. by rewrite bare_raise.
    - by rewrite row_imap, bare_raise.
  Qed.

  Lemma bare_length r : length (bare r) = length r.
  Proof. apply map_length. Qed.

  Lemma ins_row_length ex s p x g i :
    s < length g -> p <= length (row g s) ->
    length (row (ins ex s p x g) i) = if decide (i = s) then S (length (row g i)) else length (row g i).
  Proof.
    intros Hs Hp. rewrite <- bare_length, bare_ins by done.
    destruct (decide (i = s)) as [->|].
    - rewrite app_length, take_length. cbn [length]. rewrite drop_length, bare_length. lia.
    - by rewrite bare_length.
  Qed.

  Lemma insert_to_partition_ok s p n2 pos2 w g :
    comp_ok g -> s < length g -> p <= length (row g s) ->
    insert_to_partition s p n2 pos2 w g = Ok (ins [] s p (Edge n2 pos2 w) g).
  Proof.
    intros Hok Hs Hp. unfold insert_to_partition. rewrite insert_at_row by done. cbn [rbind].
    unfold modify_from. rewrite rget_row by (by rewrite insert_length). cbn [rbind].
    rewrite row_insert_eq by done.
    apply modify_ins; [done|done| |apply increasing_seq|].
    - eapply live_iff; [|by apply comp_ok_live]. intros i k _. cbn beta. rewrite elem_of_nil. tauto.
    - intros k. rewrite elem_of_seq, app_length, take_length. cbn [length]. rewrite drop_length, elem_of_nil. lia.
  Qed.

  (** Where the two halves are put. *)
  Lemma insert_join_two_ok i1 k1 i2 k2 w g :
    comp_ok g -> i1 <> i2 -> iter_ok g i1 k1 -> iter_ok g i2 k2 ->
    exists g', insert_join i1 k1 i2 k2 w g = Ok g' /\ comp_ok g' /\ length g' = length g
      /\ row g' i1 !! k1 = Some (Edge i2 k2 w) /\ row g' i2 !! k2 = Some (Edge i1 k1 w)
      /\ forall i, bare (row g' i) =
           if decide (i = i1) then take k1 (bare (row g i)) ++ (i2, w) :: drop k1 (bare (row g i))
           else if decide (i = i2) then take k2 (bare (row g i)) ++ (i1, w) :: drop k2 (bare (row g i))
           else bare (row g i).
  Proof.
    intros Hok Hne [H1 Hk1] [H2 Hk2]. unfold insert_join. destruct (Nat.eqb_spec i1 i2); [done|].
    rewrite insert_to_partition_ok by done. cbn [rbind]. set (g1 := ins [] i1 k1 _ g).
    assert (Hl1 : length g1 = length g) by apply ins_length.
    assert (He1 : row g1 i1 !! k1 = Some (Edge i2 k2 w)).
    { unfold g1. rewrite ins_row by done. by rewrite decide_True. }
    assert (Hlen2 : length (row g1 i2) = length (row g i2)).
    { unfold g1. rewrite ins_row_length by done. by rewrite decide_False by done. }
    assert (Hlive1 : live (fun i k => (i, k) ∈ [(i1, k1)]) g1).
    { eapply live_iff; [|apply (live_ins [] i1 k1 (Edge i2 k2 w) g); [|done|done]].
      - intros i k _. cbn beta. rewrite elem_of_nil, elem_of_list_singleton. tauto.
      - eapply live_iff; [|by apply comp_ok_live]. intros i k _. cbn beta. rewrite elem_of_nil. tauto. }
    unfold insert_reciprocal. rewrite (get_row _ _ _ _ He1). cbn [rbind wt].
    rewrite insert_at_row by lia. cbn [rbind].
    unfold modify_from. rewrite rget_row by (rewrite insert_length; lia). cbn [rbind].
    rewrite row_insert_eq by lia.
    assert (Hmod : modify_comp (inc 1) i2
       (seq (S k2) (length (take k2 (row g1 i2) ++ Edge i1 k1 w :: drop k2 (row g1 i2)) - S k2))
       (<[i2 := take k2 (row g1 i2) ++ Edge i1 k1 w :: drop k2 (row g1 i2)]> g1) = Ok (ins [(i1, k1)] i2 k2 (Edge i1 k1 w) g1)).
    { apply modify_ins; [lia|lia|done|apply increasing_seq|].
      intros k. rewrite elem_of_seq, app_length, take_length. cbn [length]. rewrite drop_length, elem_of_list_singleton.
      split; [|lia]. intros Hk. split; [lia|]. split; [lia|]. congruence. }
    rewrite Hmod. eexists. split; [done|].
    set (g2 := ins [(i1, k1)] i2 k2 _ g1).
    assert (Hx : row g2 i1 !! k1 = Some (Edge i2 k2 w)).
    { unfold g2. rewrite ins_row by lia. rewrite decide_False by congruence.
      assert (Hb : before_ins i2 k2 i1 k1 = k1) by (unfold before_ins; by rewrite decide_False by tauto).
      rewrite Hb, He1. simpl. f_equal. unfold raise. rewrite decide_False; [done|].
      intros (_ & _ & Hn). apply Hn. left. }
    assert (Hy : row g2 i2 !! k2 = Some (Edge i1 k1 w)).
    { unfold g2. rewrite ins_row by lia. by rewrite decide_True. }
    split; [|split; [unfold g2; rewrite ins_length; lia|split; [done|split; [done|]]]].
    - eapply (live_finish _ (i1, k1) (i2, k2) (Edge i2 k2 w) (Edge i1 k1 w)); try done; [|congruence].
      eapply live_iff; [|apply (live_ins [(i1, k1)] i2 k2 (Edge i1 k1 w) g1); [done|lia|lia]].
      intros i k _. cbn beta. rewrite elem_of_list_singleton. unfold before_ins.
      destruct (decide (i = i2 /\ k2 < k)) as [[-> ?]|]; [|tauto].
      split; (intros [Hq|Hq]; injection Hq; intros; exfalso; first [congruence|lia]).
    - intros i. unfold g2. rewrite bare_ins by lia. unfold g1. rewrite bare_ins by done. cbn [tgt wt].
      destruct (decide (i = i2)) as [->|]; [|done]. rewrite !(decide_False (P := i2 = i1)) by congruence. done.
  Qed.

  Lemma modify_comp_lengths f s ks n g g' :
    modify_comp f s ks g = Ok g' -> length g' = length g /\ length (row g' n) = length (row g n).
  Proof.
    revert g. induction ks as [|k ks IH]; intros g E0; cbn [modify_comp] in E0; [by simplify_eq|].
    destruct (get g s k) as [e| | |]; try done. cbn [rbind] in E0.
    destruct (upd g _ _ _) as [g2| | |] eqn:E1; try done. cbn [rbind] in E0.
    destruct (IH _ E0) as [-> ->]. unfold upd in E1. destruct (rget g (tgt e)) as [rr| | |] eqn:Er; try done.
    cbn [rbind] in E1. destruct (rget rr _) as [ee| | |]; try done. cbn [rbind] in E1. injection E1 as <-.
    apply rget_ok in Er. pose proof (lookup_lt_Some _ _ _ Er). rewrite insert_length. split; [done|].
    rewrite row_insert by done. destruct (decide (n = tgt e)) as [->|]; [|done].
    rewrite insert_length. by rewrite (row_lookup _ _ _ Er).
  Qed.

  (** A loop.  [pos2] is a position in the list after the first insertion. *)
  Lemma insert_join_loop_ok n k1 pos2 w g :
    comp_ok g -> iter_ok g n k1 -> pos2 <= length (row g n) + 1 ->
    exists g', insert_join_loop n k1 pos2 w g = Ok g' /\ comp_ok g' /\ length g' = length g
      /\ (let pos1 := if pos2 <=? k1 then S k1 else k1 in
          row g' n !! pos1 = Some (Edge n pos2 w) /\ row g' n !! pos2 = Some (Edge n pos1 w))
      /\ forall i, bare (row g' i) =
           if decide (i = n) then
             let b := take k1 (bare (row g i)) ++ (n, w) :: drop k1 (bare (row g i)) in
             take pos2 b ++ (n, w) :: drop pos2 b
           else bare (row g i).
  Proof.
    intros Hok [Hn Hk1] Hpos. unfold insert_join_loop. rewrite rget_row by done. cbn [rbind].
    destruct (Nat.ltb_spec (length (row g n) + 1) pos2); [lia|].
    rewrite insert_to_partition_ok by done. cbn [rbind]. set (g1 := ins [] n k1 _ g).
    assert (Hl1 : length g1 = length g) by apply ins_length.
    assert (He1 : row g1 n !! k1 = Some (Edge n pos2 w)).
    { unfold g1. rewrite ins_row by done. by rewrite decide_True. }
    assert (Hlen1 : length (row g1 n) = S (length (row g n))).
    { unfold g1. rewrite ins_row_length by done. by rewrite decide_True by done. }
    assert (Hlive1 : live (fun i k => (i, k) ∈ [(n, k1)]) g1).
    { eapply live_iff; [|apply (live_ins [] n k1 (Edge n pos2 w) g); [|done|done]].
      - intros i k _. cbn beta. rewrite elem_of_nil, elem_of_list_singleton. tauto.
      - eapply live_iff; [|by apply comp_ok_live]. intros i k _. cbn beta. rewrite elem_of_nil. tauto. }
    unfold insert_reciprocal_loop. set (pos1 := if pos2 <=? k1 then S k1 else k1).
    assert (Hp1 : (pos2 <= k1 /\ pos1 = S k1) \/ (k1 < pos2 /\ pos1 = k1)).
    { unfold pos1. destruct (Nat.leb_spec pos2 k1); auto. }
    rewrite (get_row _ _ _ _ He1). cbn [rbind wt]. rewrite insert_at_row by lia. cbn [rbind].
    set (x2 := Edge n pos1 w). set (g1' := <[n := _]> g1).
    assert (Hr1' : length (row g1' n) = S (S (length (row g n)))).
    { unfold g1'. rewrite row_insert_eq by lia. rewrite app_length, take_length. cbn [length].
      rewrite drop_length. lia. }
    assert (Hmod : forall ks, increasing ks ->
      (forall k, k ∈ ks <-> pos2 < k /\ k < S (S (length (row g n))) /\ k <> pos1) ->
      modify_comp (inc 1) n ks g1' = Ok (ins [(n, k1)] n pos2 x2 g1)).
    { intros ks Hinc Hks. apply modify_ins; [lia|lia|done|done|]. intros k. rewrite Hks, Hlen1.
      rewrite elem_of_list_singleton. split; [|].
      - intros (? & ? & ?). split; [done|]. split; [done|]. intros [=]. lia.
      - intros (? & ? & Hx). split; [done|]. split; [done|]. intros ->. apply Hx. f_equal. lia. }
    assert (Hall : (if pos1 <? pos2 then modify_from (inc 1) n (S pos2) g1'
      else let? g := modify_comp (inc 1) n (seq (S pos2) (pos1 - S pos2)) g1' in
           modify_from (inc 1) n (S pos1) g) = Ok (ins [(n, k1)] n pos2 x2 g1)).
    { destruct (Nat.ltb_spec pos1 pos2) as [Hlt|Hge].
      - unfold modify_from. rewrite rget_row by (unfold g1'; rewrite insert_length; lia). cbn [rbind].
        apply Hmod; [apply increasing_seq|]. intros k. rewrite elem_of_seq, Hr1'. lia.
      - set (ks1 := seq (S pos2) (pos1 - S pos2)). set (ks2 := seq (S pos1) (S (S (length (row g n))) - S pos1)).
        assert (Hks : modify_comp (inc 1) n (ks1 ++ ks2) g1' = Ok (ins [(n, k1)] n pos2 x2 g1)).
        { apply Hmod.
          - apply increasing_app; [apply increasing_seq|apply increasing_seq|].
            intros a b. unfold ks1, ks2. rewrite !elem_of_seq. lia.
          - intros k. rewrite elem_of_app. unfold ks1, ks2. rewrite !elem_of_seq. lia. }
        rewrite modify_comp_app in Hks. destruct (modify_comp (inc 1) n ks1 g1') as [g0| | |] eqn:E0; try done.
        cbn [rbind] in *. unfold modify_from.
        assert (Hg0 : length g0 = length g1' /\ length (row g0 n) = length (row g1' n)).
        { by eapply modify_comp_lengths. }
        destruct Hg0 as [Hg0 Hg0']. rewrite rget_row by (rewrite Hg0; unfold g1'; rewrite insert_length; lia).
        cbn [rbind]. rewrite Hg0', Hr1'. exact Hks. }
    rewrite Hall. eexists. split; [done|]. set (g2 := ins [(n, k1)] n pos2 x2 g1).
    assert (Hb : before_ins n pos2 n pos1 = k1).
    { unfold before_ins. destruct (decide (n = n /\ pos2 < pos1)); lia. }
    assert (Hx : row g2 n !! pos1 = Some (Edge n pos2 w)).
    { unfold g2. rewrite ins_row by lia. rewrite decide_False by (intros [=]; lia).
      rewrite Hb, He1. simpl. f_equal. unfold raise. rewrite decide_False; [done|].
      intros (_ & _ & Hnn). apply Hnn. left. }
    assert (Hy : row g2 n !! pos2 = Some (Edge n pos1 w)).
    { unfold g2. rewrite ins_row by lia. by rewrite decide_True. }
    split; [|split; [unfold g2; rewrite ins_length; lia|split; [done|]]].
    - eapply (live_finish _ (n, pos1) (n, pos2) (Edge n pos2 w) (Edge n pos1 w)); try done; [|intros [=]; lia].
      eapply live_iff; [|apply (live_ins [(n, k1)] n pos2 x2 g1); [done|lia|lia]].
      intros i k _. cbn beta. rewrite elem_of_list_singleton. unfold before_ins.
      split; (intros [Hq|Hq]; [| ]).
      + by right.
      + injection Hq as -> Hq. destruct (decide (n = n /\ pos2 < k)).
        * left. f_equal. lia.
        * destruct (decide (k = pos2)); [right; congruence|]. left. f_equal. lia.
      + injection Hq as -> ->. right. f_equal. destruct (decide (n = n /\ pos2 < pos1)); lia.
      + by left.
    - intros i. unfold g2. rewrite bare_ins by lia. unfold g1. rewrite bare_ins by done. cbn [tgt wt x2].
      destruct (decide (i = n)) as [->|]; done.
  Qed.

  (** *** Weights *)

  Lemma write2_comp_ok g s k t q e e' w1 :
    comp_ok g -> row g s !! k = Some e -> row g t !! q = Some e' -> (t, q) <> (s, k) ->
    tgt e = t -> comp e = q -> tgt e' = s -> comp e' = k ->
    comp_ok (write2 g s k t q (set_wt w1 e) (set_wt w1 e')).
  Proof.
    intros Hok Hk Hq Hne Ht Hc Ht' Hc' i m x Hx.
    rewrite write2_row in Hx by (done || by eexists).
    destruct (decide ((i, m) = (s, k))) as [Heq|Hn1].
    { injection Heq as -> ->. injection Hx as <-. exists (set_wt w1 e').
      rewrite write2_row by (done || by eexists). cbn [set_wt tgt comp wt]. rewrite Ht, Hc.
      rewrite decide_False by done. rewrite decide_True by done. done. }
    destruct (decide ((i, m) = (t, q))) as [Heq|Hn2].
    { injection Heq as -> ->. injection Hx as <-. exists (set_wt w1 e).
      rewrite write2_row by (done || by eexists). cbn [set_wt tgt comp wt]. rewrite Ht', Hc'.
      rewrite decide_True by done. repeat split; done. }
    destruct (Hok i m x Hx) as (x' & Hx' & Htx & Hcx & Hwx & Hnx).
    exists x'. rewrite write2_row by (done || by eexists).
    rewrite (decide_False (P := (tgt x, comp x) = (s, k))).
    2:{ intros [= Ha Hb]. rewrite Ha, Hb, Hk in Hx'. injection Hx' as <-. apply Hn2. congruence. }
    rewrite (decide_False (P := (tgt x, comp x) = (t, q))).
    2:{ intros [= Ha Hb]. rewrite Ha, Hb, Hq in Hx'. injection Hx' as <-. apply Hn1. congruence. }
    done.
  Qed.

  Lemma find_partner_embedded g s k e :
    row g s !! k = Some e -> find_partner Embedded s k g = Ok (tgt e, comp e).
  Proof. intros H. unfold find_partner. by rewrite (get_row _ _ _ _ H). Qed.

  (** *** All operations *)

  Lemma step_embedded o g : comp_ok g -> allowed Embedded g o -> fine Embedded o g.
  Proof.
    intros Hok Ha. pose proof (comp_ok_in_range g Hok) as Hr. unfold fine. destruct o; cbn [step graph_ok] in *.
    - left. eexists. split; [done|]. eapply inserted_comp_ok; [|by apply add_node_inserted|done]. done.
    - left. eexists. split; [done|]. eapply inserted_comp_ok; [|by apply insert_node_inserted|done]. lia.
    - destruct (decide (n < length g)) as [Hn|Hn].
      + left. destruct (erase_node_embedded n g Hok Hn) as (g' & ? & _ & ?). eauto.
      + right. unfold erase_node. rewrite check_node_throw by done. by eexists.
    - destruct (decide (n1 < length g)) as [Hn|Hn]; [destruct (decide (n2 < length g)) as [Hn2|Hn2]|].
      + left. destruct (join_embedded_ok n1 n2 w g) as (g' & ? & ? & _); eauto.
      + right. unfold join. rewrite check_node_ok by done. cbn [rbind]. rewrite check_node_throw by done. by eexists.
      + right. unfold join. rewrite check_node_throw by done. by eexists.
    - destruct Ha as (_ & H1 & H2). destruct (decide (i1 = i2)) as [->|Hne].
      + left. unfold insert_join. rewrite Nat.eqb_refl.
        destruct (insert_join_loop_ok i2 k1 k2 w g) as (g' & ? & ? & _); eauto. destruct H2. lia.
      + left. destruct (insert_join_two_ok i1 k1 i2 k2 w g) as (g' & ? & ? & _); eauto.
    - destruct Ha as (_ & H1). destruct (decide (pos2 <= length (row g i) + 1)) as [Hp|Hp].
      + left. destruct (insert_join_loop_ok i k pos2 w g) as (g' & ? & ? & _); eauto.
      + right. unfold insert_join_loop. rewrite rget_row by (by destruct H1). cbn [rbind].
        destruct (Nat.ltb_spec (length (row g i) + 1) pos2); [by eexists|lia].
    - destruct Ha as [Hi Hk]. left. destruct (decide (k = length (row g i))) as [He|He].
      + rewrite erase_edge_end by done. eauto.
      + destruct (lookup_in_range (row g i) k) as [e Hl]; [lia|].
        destruct (erase_edge_embedded_ok i k e g) as (g' & ? & ? & _); eauto.
    - destruct (decide (i < length g)) as [Hn|Hn]; [destruct (decide (j < length g)) as [Hn2|Hn2]|].
      + left. destruct (swap_nodes_symmetric Embedded i j g) as (g' & ? & ?); try done.
        { intros. by eapply comp_ok_neighbours. }
        exists g'. split; [done|]. by eapply (swapped_comp_ok i j g).
      + right. unfold swap_nodes. rewrite check_node_ok by done. cbn [rbind]. rewrite check_node_throw by done. by eexists.
      + right. unfold swap_nodes. rewrite check_node_throw by done. by eexists.
    - done.
    - destruct Ha as [? _]. done.
    - destruct Ha as [e He]. left. destruct (Hok i k e He) as (e' & He' & ? & ? & Hw & ?).
      rewrite (set_edge_weight_write Embedded i k w g (tgt e) (comp e) e e') by (try apply find_partner_embedded; done).
      eexists. split; [done|]. by apply write2_comp_ok.
    - destruct Ha as [e He]. left. destruct (Hok i k e He) as (e' & He' & ? & ? & Hw & ?).
      rewrite (mutate_edge_weight_write Embedded i k f g (tgt e) (comp e) e e') by (try apply find_partner_embedded; done).
      eexists. split; [done|]. rewrite Hw. by apply write2_comp_ok.
  Qed.
End emb.
