From stdpp Require Import list.
From Verif.Base Require Import Outcome ListLemmas.
From Verif.Graph Require Import Model ModelFaults Spec.
From Verif.Graph Require Import ProofsBase ProofsPartial ProofsComp ProofsEmb ProofsCount.
Local Open Scope res_scope.

Section proofs.
  Context {W : Type} `{!EqDecision W}.
  Implicit Types g : graph W.

  Lemma erase_pushed g n e :
    n < length g -> erase_at (<[n := row g n ++ [e]]> g) n (length (row g n)) = Ok g.
  Proof.
    intros Hn. rewrite erase_at_row by (rewrite row_insert_eq, app_length by done; simpl; lia).
    rewrite row_insert_eq by done. rewrite list_insert_insert. f_equal.
    rewrite take_app, drop_ge, app_nil_r by (rewrite app_length; simpl; lia).
    apply list_insert_id. by apply row_lt.
  Qed.

  Lemma join_f_strong f1 f2 fl n1 n2 w g g' :
    join_f f1 f2 fl n1 n2 w g = Ok (Threw g') -> g' = g.
  Proof.
    unfold join_f. intros H. apply rbind_inv in H as (u & Hu & H). apply rbind_inv in H as (v & Hv & H).
    assert (H1 : n1 < length g) by (unfold check_node, order in Hu; destruct (Nat.ltb_spec n1 (length g)); done).
    assert (H2 : n2 < length g) by (unfold check_node, order in Hv; destruct (Nat.ltb_spec n2 (length g)); done).
    destruct f1; [by injection H as <-|].
    assert (Ha : exists e, add_to_partition fl n1 n2 w g = Ok (<[n1 := row g n1 ++ [e]]> g)).
    { unfold add_to_partition. destruct fl; eexists; try by apply push_row.
      rewrite rget_row by done. cbn [rbind]. by apply push_row. }
    destruct Ha as [e Ha]. rewrite Ha in H. cbn [rbind] in H.
    set (g1 := <[n1 := _]> g) in *.
    assert (Hl1 : length g1 = length g) by apply insert_length.
    assert (Hm : (let? r1 := rget g1 n1 in
      if f2 then let? g2 := join_rollback (num_partial_edges g1) n1 (length r1 - 1) g1 in Ok (Threw g2)
      else let? g2 := reciprocal_join fl n1 n2 g1 in Ok (Finished g2)) = Ok (Threw g') -> g' = g).
    { clear H. intros H. rewrite rget_row in H by lia. cbn [rbind] in H.
      destruct f2; [|by apply rbind_inv in H as (? & ? & ?)].
      unfold join_rollback in H. rewrite Nat.eqb_refl in H.
      assert (Hr : length (row g1 n1) - 1 = length (row g n1)).
      { unfold g1. rewrite row_insert_eq, app_length by done. simpl. lia. }
      rewrite Hr in H. unfold g1 in H. rewrite erase_pushed in H by done. cbn [rbind] in H. by injection H. }
    destruct fl; [done|by apply Hm..].
  Qed.

  Lemma join_f_no_fault fl n1 n2 w g :
    join_f false false fl n1 n2 w g = (let? g' := join fl n1 n2 w g in Ok (Finished g')).
  Proof.
    unfold join_f, join. destruct (check_node g n1); try done. cbn [rbind]. destruct (check_node g n2); try done. cbn [rbind].
    destruct (add_to_partition fl n1 n2 w g) as [g1| | |] eqn:Ha; try done. cbn [rbind].
    destruct fl; try done; unfold reciprocal_join; destruct (rget g1 n1) as [r1| | |]; done.
  Qed.

  (** insert_join: nothing is lost if the first half is put at the end of its node. *)
  Lemma insert_at_end g n e :
    n < length g -> insert_at g n (length (row g n)) e = Ok (<[n := row g n ++ [e]]> g).
  Proof.
    intros Hn. unfold insert_at. rewrite rget_row by done. cbn [rbind]. rewrite Nat.leb_refl.
    by rewrite firstn_all, drop_all.
  Qed.

  Lemma insert_to_partition_end n n2 pos2 w g :
    n < length g ->
    insert_to_partition n (length (row g n)) n2 pos2 w g = Ok (<[n := row g n ++ [Edge n2 pos2 w]]> g).
  Proof.
    intros Hn. unfold insert_to_partition. rewrite insert_at_end by done. cbn [rbind]. unfold modify_from.
    rewrite rget_row by (by rewrite insert_length). cbn [rbind]. rewrite row_insert_eq, app_length by done.
    cbn [length]. replace (length (row g n) + 1 - S (length (row g n))) with 0 by lia. done.
  Qed.

  Lemma insert_join_f_end f1 f2 i1 i2 k2 w g g' :
    i1 < length g ->
    insert_join_f f1 f2 i1 (length (row g i1)) i2 k2 w g = Ok (Threw g') -> g' = g.
  Proof.
    intros Hi H. unfold insert_join_f, insert_join_loop_f in H. destruct (i1 =? i2) eqn:Heq.
    - apply Nat.eqb_eq in Heq as <-. rewrite rget_row in H by done. cbn [rbind] in H.
      destruct (_ <? k2); [done|]. destruct f1; [by injection H as <-|].
      rewrite insert_to_partition_end in H by done. cbn [rbind] in H.
      destruct f2; [|by apply rbind_inv in H as (? & ? & ?)].
      unfold join_rollback in H. rewrite Nat.eqb_refl, erase_pushed in H by done. cbn [rbind] in H. by injection H.
    - destruct f1; [by injection H as <-|].
      rewrite insert_to_partition_end in H by done. cbn [rbind] in H.
      destruct f2; [|by apply rbind_inv in H as (? & ? & ?)].
      unfold join_rollback in H. rewrite Nat.eqb_refl, erase_pushed in H by done. cbn [rbind] in H. by injection H.
  Qed.

  (** insert_join: failing before anything has been put in. *)
  Lemma insert_join_f_first f2 i1 k1 i2 k2 w g g' :
    insert_join_f true f2 i1 k1 i2 k2 w g = Ok (Threw g') -> g' = g.
  Proof.
    unfold insert_join_f, insert_join_loop_f. destruct (i1 =? i2); [|by intros [= <-]].
    intros (r & _ & H)%rbind_inv. destruct (_ <? k2); [done|]. by injection H as <-.
  Qed.

  Lemma set_edge_weight_f_first f2 fl s k w g g' :
    set_edge_weight_f true f2 fl s k w g = Ok (Threw g') -> g' = g.
  Proof.
    unfold set_edge_weight_f. destruct fl; [by intros [= <-]|..];
      intros (p & _ & H)%rbind_inv; by injection H as <-.
  Qed.

  Lemma set_edge_weight_f_directed f1 f2 s k w g g' :
    set_edge_weight_f f1 f2 Directed s k w g = Ok (Threw g') -> g' = g.
  Proof. unfold set_edge_weight_f. destruct f1; [by intros [= <-]|]. by intros (? & _ & H)%rbind_inv. Qed.

  (** Failing at the second half always loses the weight of the first, unless it was the same. *)
  Lemma set_edge_weight_f_second fl s k w e g :
    fl <> Directed -> graph_ok fl g -> row g s !! k = Some e ->
    exists g', set_edge_weight_f false true fl s k w g = Ok (Threw g') /\ (g' = g <-> w = wt e).
  Proof.
    intros Hfl Hok Hk.
    assert (Hp : exists q e', find_partner fl s k g = Ok (tgt e, q) /\ row g (tgt e) !! q = Some e' /\ wt e' = wt e).
    { destruct fl; [done|..].
      - destruct (find_partner_undirected g s k e Hok Hk) as (q & e' & H1 & H2 & _ & H3 & _). eauto.
      - destruct (Hok s k e Hk) as (e' & H1 & _ & _ & H2 & _).
        exists (comp e), e'. split; [by apply find_partner_embedded|]. done. }
    destruct Hp as (q & e' & Hfp & Hq & Hw).
    pose proof (row_some_lt _ _ _ _ Hq) as Ht. pose proof (lookup_lt_Some _ _ _ Hq) as Hql.
    exists (<[tgt e := <[q := set_wt w e']> (row g (tgt e))]> g). split.
    - unfold set_edge_weight_f. destruct fl; [done|..]; rewrite Hfp; cbn [rbind fst snd];
        rewrite (upd_row _ _ _ _ _ Hq); done.
    - rewrite <- Hw. split.
      + intros Heq. assert (Hr : row g (tgt e) !! q = Some (set_wt w e')).
        { rewrite <- Heq at 1. rewrite row_insert_eq by done. by apply list_lookup_insert. }
        rewrite Hq in Hr. injection Hr as Hr. apply (f_equal wt) in Hr. cbn in Hr. done.
      + intros ->. rewrite (list_insert_id _ _ (set_wt (wt e') e')).
        * apply list_insert_id. by apply row_lt.
        * rewrite Hq. by destruct e'.
  Qed.
End proofs.

(** *** Exactly two halves change (C24) *)

Section halves.
  Context {W : Type} `{!EqDecision W}.
  Implicit Types g : graph W.

  Lemma partner_found fl g s k e :
    fl <> Directed -> graph_ok fl g -> row g s !! k = Some e ->
    exists q e', find_partner fl s k g = Ok (tgt e, q) /\ row g (tgt e) !! q = Some e'
      /\ tgt e' = s /\ wt e' = wt e /\ (tgt e, q) <> (s, k).
  Proof.
    intros Hfl Hok Hk. destruct fl; [done|..].
    - destruct (find_partner_undirected g s k e Hok Hk) as (q & e' & ? & ? & ? & ? & ?). eauto 10.
    - destruct (Hok s k e Hk) as (e' & ? & ? & _ & ? & ?). exists (comp e), e'.
      split; [by apply find_partner_embedded|]. done.
  Qed.

  Lemma set_edge_weight_exact fl g s k w e :
    fl <> Directed -> graph_ok fl g -> row g s !! k = Some e ->
    exists g' t q e', set_edge_weight fl s k w g = Ok g'
      /\ (t, q) <> (s, k) /\ row g t !! q = Some e' /\ tgt e = t /\ tgt e' = s /\ wt e' = wt e
      /\ length g' = length g
      /\ row g' s !! k = Some (Edge (tgt e) (comp e) w)
      /\ row g' t !! q = Some (Edge (tgt e') (comp e') w)
      /\ forall i m, (i, m) <> (s, k) -> (i, m) <> (t, q) -> row g' i !! m = row g i !! m.
  Proof.
    intros Hfl Hok Hk. destruct (partner_found fl g s k e Hfl Hok Hk) as (q & e' & Hp & Hq & Ht & Hw & Hne).
    eexists _, (tgt e), q, e'. split; [by apply set_edge_weight_write|].
    do 5 (split; [done|]). split; [apply write2_length|].
    split; [|split; [|intros i m H1 H2]]; rewrite write2_row by (done || by eexists).
    - by rewrite decide_True.
    - rewrite decide_False by done. by rewrite decide_True.
    - by rewrite !decide_False.
  Qed.

  Lemma mutate_edge_weight_exact fl g s k f e :
    fl <> Directed -> graph_ok fl g -> row g s !! k = Some e ->
    exists g' t q e', mutate_edge_weight fl s k f g = Ok g'
      /\ (t, q) <> (s, k) /\ row g t !! q = Some e' /\ tgt e = t /\ tgt e' = s /\ wt e' = wt e
      /\ length g' = length g
      /\ row g' s !! k = Some (Edge (tgt e) (comp e) (f (wt e)))
      /\ row g' t !! q = Some (Edge (tgt e') (comp e') (f (wt e)))
      /\ forall i m, (i, m) <> (s, k) -> (i, m) <> (t, q) -> row g' i !! m = row g i !! m.
  Proof.
    intros Hfl Hok Hk. destruct (partner_found fl g s k e Hfl Hok Hk) as (q & e' & Hp & Hq & Ht & Hw & Hne).
    eexists _, (tgt e), q, e'. split; [by apply mutate_edge_weight_write|].
    do 5 (split; [done|]). split; [apply write2_length|].
    split; [|split; [|intros i m H1 H2]]; rewrite write2_row by (done || by eexists).
    - by rewrite decide_True.
    - rewrite decide_False by done. rewrite decide_True by done. unfold set_wt. by rewrite Hw.
    - by rewrite !decide_False.
  Qed.
End halves.
