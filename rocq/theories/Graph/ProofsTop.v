From stdpp Require Import list.
From Verif.Base Require Import Outcome ListLemmas.
From Verif.Graph Require Import Model Spec ModelWeighted SpecWeighted ModelFaults ModelShared SpecShared ModelInit SpecInit.
From Verif.Graph Require Import ProofsBase ProofsPartial ProofsComp ProofsEmb ProofsCount ProofsWeighted ProofsFaults ProofsShared ProofsInit ProofsInitShared.
Local Open Scope res_scope.

Section top.
  Context (W : Type) (Weq : EqDecision W).
  Implicit Types g : graph W.

  Lemma reachable_ok fl g0 g : graph_ok fl g0 -> reachable fl g0 g -> graph_ok fl g.
  Proof. intros H. induction 1 as [|g o g' _ IH Ha Hs]; [done|]. by eapply step_ok. Qed.

  Lemma reachable_undirected g0 g : reciprocal g0 -> reachable Undirected g0 g -> reciprocal g.
  Proof. apply (reachable_ok Undirected). Qed.

  Lemma reachable_embedded g0 g : comp_ok g0 -> reachable Embedded g0 g -> comp_ok g.
  Proof. apply (reachable_ok Embedded). Qed.

  Lemma reachable_safe fl g0 g o :
    graph_ok fl g0 -> reachable fl g0 g -> allowed fl g o ->
    (exists g', step fl o g = Ok g') \/ (exists e, step fl o g = Throw e).
  Proof.
    intros H0 Hr Ha. pose proof (reachable_ok fl g0 g H0 Hr) as Hok. assert (Hf : fine fl o g).
    { destruct fl; [by apply step_directed|by apply step_undirected|by apply step_embedded]. }
    destruct Hf as [(g1 & H1 & _)|[x H]]; eauto.
  Qed.

  Lemma half_pair s t (w0 : W) i j w :
    half s t w0 i j w = if decide ((i, j, w) = (s, t, w0)) then 1 else 0.
  Proof.
    unfold half. destruct (decide ((i, j, w) = (s, t, w0))) as [Heq|Hne].
    - injection Heq as -> -> ->. by rewrite decide_True.
    - rewrite decide_False; [done|]. intros (-> & -> & ->). done.
  Qed.

  Lemma join_counts g n1 n2 w :
    reciprocal g -> n1 < order g -> n2 < order g ->
    exists g', join Undirected n1 n2 w g = Ok g' /\ reciprocal g' /\ order g' = order g
      /\ forall i j w', count g' i j w' = count g i j w'
           + (if decide ((i, j, w') = (n1, n2, w)) then 1 else 0)
           + (if decide ((i, j, w') = (n2, n1, w)) then 1 else 0).
  Proof.
    intros H H1 H2. destruct (join_undirected_ok n1 n2 w g H H1 H2) as (g' & ? & ? & ? & Hc).
    exists g'. split; [done|]. split; [done|]. split; [done|]. intros i j w'. rewrite Hc. unfold both.
    rewrite !half_pair. lia.
  Qed.

  Lemma erase_edge_counts g s k e :
    reciprocal g -> row g s !! k = Some e ->
    exists g', erase_edge Undirected s k g = Ok g' /\ reciprocal g' /\ order g' = order g
      /\ forall i j w', count g i j w' = count g' i j w'
           + (if decide ((i, j, w') = (s, tgt e, wt e)) then 1 else 0)
           + (if decide ((i, j, w') = (tgt e, s, wt e)) then 1 else 0).
  Proof.
    intros H H1. destruct (erase_edge_undirected_ok s k e g H H1) as (g' & ? & ? & ? & Hc).
    exists g'. split; [done|]. split; [done|]. split; [done|]. intros i j w'. rewrite <- Hc. unfold both.
    rewrite !half_pair. lia.
  Qed.

  Lemma embedded_reciprocal g : comp_ok g -> reciprocal g.
  Proof. apply comp_ok_reciprocal. Qed.

  Lemma insert_join_positions g i1 k1 i2 k2 w :
    comp_ok g -> i1 <> i2 -> iter_ok g i1 k1 -> iter_ok g i2 k2 ->
    exists g', insert_join i1 k1 i2 k2 w g = Ok g' /\ comp_ok g'
      /\ row g' i1 !! k1 = Some (Edge i2 k2 w) /\ row g' i2 !! k2 = Some (Edge i1 k1 w)
      /\ forall i, map (fun e => (tgt e, wt e)) (row g' i) =
           let b := map (fun e => (tgt e, wt e)) (row g i) in
           if decide (i = i1) then take k1 b ++ (i2, w) :: drop k1 b
           else if decide (i = i2) then take k2 b ++ (i1, w) :: drop k2 b else b.
  Proof.
    intros H1 H2 H3 H4. destruct (insert_join_two_ok i1 k1 i2 k2 w g H1 H2 H3 H4) as (g' & ? & ? & _ & ? & ? & Hb).
    exists g'. repeat (split; [done|]). intros i. apply Hb.
  Qed.

  Lemma empty_ok fl : graph_ok fl ([] : graph W).
  Proof.
    destruct fl; cbn [graph_ok].
    - intros i e He. by apply elem_of_nil in He.
    - split; [intros i e He; by apply elem_of_nil in He|]. split; [done|]. intros i w. by exists 0.
    - intros i k e He. done.
  Qed.

  Lemma erase_node_all fl g n :
    graph_ok fl g -> n < order g ->
    exists g', erase_node fl n g = Ok g' /\ is_erased fl n g g' /\ graph_ok fl g'.
  Proof.
    intros Hok Hn. destruct (erase_node_is fl n g Hok Hn) as (g' & H1 & H2). exists g'. split; [done|]. split; [done|].
    by eapply (step_ok fl (EraseNode n) g).
  Qed.

  Lemma erase_node_range fl g n : order g <= n -> erase_node fl n g = Throw OutOfRange.
  Proof. intros H. unfold erase_node. rewrite check_node_throw; [done|]. unfold order in H. lia. Qed.

  Lemma insert_node_all fl g pos :
    graph_ok fl g ->
    is_inserted (Nat.min pos (order g)) g (insert_node pos g) /\ graph_ok fl (insert_node pos g).
  Proof.
    intros Hok. split.
    - apply insert_node_inserted.
    - by eapply (step_ok fl (InsertNode pos) g).
  Qed.

  Lemma erase_insert_node fl g pos :
    graph_ok fl g -> pos <= order g -> erase_node fl pos (insert_node pos g) = Ok g.
  Proof.
    intros Hok Hp. destruct (insert_node_all fl g pos Hok) as [Hi Hok'].
    rewrite Nat.min_l in Hi by done. pose proof Hi as (Hl & _ & _).
    destruct (erase_node_is fl pos (insert_node pos g) Hok') as (g' & H1 & Hl' & He); [unfold order in *; lia|].
    rewrite H1. f_equal. apply graph_eq; [lia|]. intros i Hlt. rewrite He by done.
    assert (Hrow : forall j, row (insert_node pos g) j = if decide (j = pos) then [] else
       map (fun e => Edge (up pos (tgt e)) (comp e) (wt e)) (row g (down pos j))).
    { intros j. by apply inserted_row. }
    rewrite Hrow, decide_False by apply up_ne. rewrite down_up.
    assert (Hgone : forall j c, gone_before (insert_node pos g) pos j c = 0).
    { intros j c. unfold gone_before. rewrite Hrow. destruct (decide (j = pos)); [by rewrite take_nil|].
      rewrite firstn_map. generalize (take c (row g (down pos j))). intros r. induction r as [|e r IH]; [done|].
      cbn [map]. rewrite filter_cons_False; [done|]. cbn [tgt]. apply up_ne. }
    induction (row g i) as [|e r IH]; [done|]. cbn [map]. rewrite filter_cons_True by apply up_ne. cbn [map].
    rewrite IH. f_equal. cbn [tgt comp wt]. rewrite down_up. destruct e as [t c w]. f_equal.
    unfold new_comp. cbn [comp tgt]. destruct fl; [done|done|]. rewrite Hgone. lia.
  Qed.

  Lemma swap_nodes_all fl g i j :
    graph_ok fl g -> i < order g -> j < order g ->
    exists g', swap_nodes fl i j g = Ok g' /\ is_swapped i j g g' /\ graph_ok fl g'.
  Proof.
    intros Hok Hi Hj. destruct (swap_nodes_is fl i j g Hok Hi Hj) as (g' & H1 & H2). exists g'. split; [done|]. split; [done|].
    by eapply (step_ok fl (SwapNodes i j) g).
  Qed.

  Lemma swap_nodes_range fl g i j : order g <= i \/ order g <= j -> swap_nodes fl i j g = Throw OutOfRange.
  Proof.
    intros H. unfold swap_nodes. unfold order in H. destruct (decide (i < length g)).
    - rewrite check_node_ok by done. cbn [rbind]. rewrite check_node_throw by lia. done.
    - by rewrite check_node_throw.
  Qed.

  Lemma swap_nodes_twice fl g g' i j :
    graph_ok fl g -> swap_nodes fl i j g = Ok g' -> swap_nodes fl i j g' = Ok g.
  Proof.
    intros Hok Hs. destruct (decide (i < order g /\ j < order g)) as [[Hi Hj]|Hn].
    2:{ rewrite swap_nodes_range in Hs; [done|]. lia. }
    destruct (swap_nodes_all fl g i j Hok Hi Hj) as (g1 & H1 & H2 & H3). rewrite H1 in Hs. injection Hs as ->.
    assert (Hl : order g' = order g) by apply H2.
    destruct (swap_nodes_all fl g' i j H3) as (g2 & H4 & H5 & _); [lia|lia|].
    rewrite H4. f_equal. eapply is_swapped_unique; [done|]. by apply is_swapped_sym.
  Qed.

  Lemma partial_edges_even fl g : fl <> Directed -> graph_ok fl g -> Nat.Even (num_partial_edges g).
  Proof. apply graph_ok_even. Qed.

  Lemma size_halves_all fl g0 g :
    graph_ok fl g0 -> reachable fl g0 g ->
    order g = length g
    /\ (match fl with Directed => 1 | _ => 2 end) * size fl g = list_sum (map length g).
  Proof.
    intros H0 Hr. split; [done|]. pose proof (reachable_ok fl g0 g H0 Hr) as Hok.
    assert (Ht : list_sum (map length g) = num_partial_edges g).
    { unfold num_partial_edges. clear. induction g as [|r g IH]; [done|]. simpl. rewrite app_length. by rewrite IH. }
    rewrite Ht. destruct fl; [cbn [size]; lia|..].
    - destruct (graph_ok_even Undirected g) as [m Hm]; [done..|]. cbn [size]. rewrite Hm, (Nat.mul_comm 2 m), Nat.div_mul; lia.
    - destruct (graph_ok_even Embedded g) as [m Hm]; [done..|]. cbn [size]. rewrite Hm, (Nat.mul_comm 2 m), Nat.div_mul; lia.
  Qed.

  Lemma links_total g n : length (filter (fun e => tgt e = n) (mjoin g)) = nsum (fun i => links g i n) (length g).
  Proof.
    induction g as [|r g IH] using rev_ind; [done|].
    assert (Hj : length (filter (fun e => tgt e = n) (mjoin (g ++ [r])))
      = length (filter (fun e => tgt e = n) (mjoin g)) + length (filter (fun e => tgt e = n) r)).
    { clear IH. induction g as [|a g IH]; simpl; [rewrite app_nil_r; lia|]. rewrite !list.filter_app, !app_length. simpl in IH. lia. }
    rewrite Hj, IH, app_length, Nat.add_1_r. cbn [nsum]. f_equal.
    - apply nsum_ext. intros i Hi. unfold links. by rewrite row_app_l.
    - unfold links. rewrite row_app_r by done. by rewrite Nat.sub_diag.
  Qed.

  Lemma incident_eq fl g n : n < length g -> incident fl g n = incident_edges fl g n.
  Proof.
    intros Hn. destruct fl; cbn [incident incident_edges]; [|done..].
    rewrite links_total, (nsum_skip _ (length g) n Hn). rewrite (filter_split n (row g n)) at 1. unfold links at 3. lia.
  Qed.

  Lemma counts_all fl g0 g g' o :
    graph_ok fl g0 -> reachable fl g0 g -> allowed fl g o -> step fl o g = Ok g' ->
    match o with
    | AddNode | InsertNode _ => order g' = order g + 1 /\ size fl g' = size fl g
    | EraseNode n => order g' + 1 = order g /\ size fl g' + incident_edges fl g n = size fl g
    | Join _ _ _ | InsertJoin _ _ _ _ _ | InsertLoop _ _ _ _ =>
        order g' = order g /\ size fl g' = size fl g + 1
    | EraseEdge i k => order g' = order g /\ size fl g' + (if decide (k < length (row g i)) then 1 else 0) = size fl g
    | _ => order g' = order g /\ size fl g' = size fl g
    end.
  Proof.
    intros H0 Hr Ha Hs. pose proof (reachable_ok fl g0 g H0 Hr) as Hok.
    pose proof (step_counts fl o g g' Hok Ha Hs) as Hc. destruct o; try exact Hc.
    cbn [counts_ok] in Hc. rewrite <- incident_eq; [done|].
    destruct (decide (n < length g)); [done|]. cbn [step] in Hs. rewrite erase_node_range in Hs; [done|]. unfold order. lia.
  Qed.

  Lemma join_strong f1 f2 fl n1 n2 w g g' : join_f f1 f2 fl n1 n2 w g = Ok (Threw g') -> g' = g.
  Proof. apply join_f_strong. Qed.

  Lemma insert_join_strong f1 f2 i1 k1 i2 k2 w g g' :
    i1 < order g -> k1 = length (row g i1) \/ f1 = true ->
    insert_join_f f1 f2 i1 k1 i2 k2 w g = Ok (Threw g') -> g' = g.
  Proof. intros Hi [-> | ->]; [by apply insert_join_f_end|apply insert_join_f_first]. Qed.

  Lemma set_edge_weight_strong f1 f2 fl s k w g g' :
    fl = Directed \/ f1 = true -> set_edge_weight_f f1 f2 fl s k w g = Ok (Threw g') -> g' = g.
  Proof. intros [-> | ->]; [apply set_edge_weight_f_directed|apply set_edge_weight_f_first]. Qed.

  Lemma set_edge_weight_weak fl s k w e g :
    fl <> Directed -> graph_ok fl g -> row g s !! k = Some e -> w <> wt e ->
    exists g', set_edge_weight_f false true fl s k w g = Ok (Threw g') /\ g' <> g.
  Proof.
    intros Hfl Hok Hk Hw. destruct (set_edge_weight_f_second fl s k w e g Hfl Hok Hk) as (g' & H1 & H2).
    exists g'. split; [done|]. tauto.
  Qed.

  Lemma set_edge_weight_all fl g s k w e :
    fl <> Directed -> graph_ok fl g -> row g s !! k = Some e ->
    exists g' t q e', set_edge_weight fl s k w g = Ok g'
      /\ (t, q) <> (s, k) /\ row g t !! q = Some e' /\ tgt e = t /\ tgt e' = s /\ wt e' = wt e
      /\ length g' = length g
      /\ row g' s !! k = Some (Edge (tgt e) (comp e) w)
      /\ row g' t !! q = Some (Edge (tgt e') (comp e') w)
      /\ forall i m, (i, m) <> (s, k) -> (i, m) <> (t, q) -> row g' i !! m = row g i !! m.
  Proof. apply set_edge_weight_exact. Qed.

  Lemma mutate_edge_weight_all fl g s k (f : W -> W) e :
    fl <> Directed -> graph_ok fl g -> row g s !! k = Some e ->
    exists g' t q e', mutate_edge_weight fl s k f g = Ok g'
      /\ (t, q) <> (s, k) /\ row g t !! q = Some e' /\ tgt e = t /\ tgt e' = s /\ wt e' = wt e
      /\ length g' = length g
      /\ row g' s !! k = Some (Edge (tgt e) (comp e) (f (wt e)))
      /\ row g' t !! q = Some (Edge (tgt e') (comp e') (f (wt e)))
      /\ forall i m, (i, m) <> (s, k) -> (i, m) <> (t, q) -> row g' i !! m = row g i !! m.
  Proof. apply mutate_edge_weight_exact. Qed.
End top.

(** *** Weighted graphs *)

Section weighted_top.
  Context (W V : Type) (Weq : EqDecision W).

  Lemma history_all fl (g : wgraph W V) names given :
    history fl g names given -> consistent fl g /\ NoDup names /\ weights g = map given names.
  Proof. apply history_weights. Qed.

  Lemma wstep_all fl (g : wgraph W V) o :
    consistent fl g -> wallowed fl g o ->
    (exists g', wstep fl o g = Done g' /\ consistent fl g') \/ exists e, wstep fl o g = Failed e g.
  Proof. apply wstep_fine. Qed.

  Lemma insertion_failure fl f1 f2 pos v (g : wgraph W V) :
    consistent fl g -> pos <= order (edges g) -> (f1 || f2) = true ->
    insert_node_w f1 f2 pos v g = Failed UserError g.
  Proof. apply insert_node_w_failure. Qed.
End weighted_top.

Lemma insertion_terminates : exists (g : wgraph nat nat) pos v,
  consistent Directed g
  /\ (exists g', insert_node_w false false pos v g = Done g')
  /\ insert_node_w false true pos v g = Terminated.
Proof.
  exists (WGraph [] []), 1, 0. split; [split; [by apply empty_ok|done]|]. split; [eexists; vm_compute; reflexivity|].
  by vm_compute.
Qed.

Lemma insertion_undefined : exists (g : wgraph nat nat) pos v,
  consistent Directed g
  /\ (exists g', insert_node_w false false pos v g = Done g')
  /\ insert_node_w false true pos v g = Undefined.
Proof.
  exists (WGraph [] []), 2, 0. split; [split; [by apply empty_ok|done]|]. split; [eexists; vm_compute; reflexivity|].
  by vm_compute.
Qed.

(** *** Shared weights *)

Section shared_top.
  Context (V : Type) (Veq : EqDecision V).

  Lemma shared_set fl (g0 g : sgraph V) s k v :
    fl <> Directed -> sstart fl g0 -> sreachable fl g0 g -> is_Some (row (sedges g) s !! k) ->
    exists g' t q, sstep fl (SSet s k v) g = Ok g' /\ sedges g' = sedges g /\ two_halves g s k t q
      /\ sweight g' s k = Ok v /\ sweight g' t q = Ok v
      /\ forall i m, (i, m) <> (s, k) -> (i, m) <> (t, q) -> sweight g' i m = sweight g i m.
  Proof.
    intros Hfl H0 Hr Hk. apply sreachable_ok in Hr; [|done|by apply sstart_ok].
    destruct (shared_write fl g s k v Hfl Hr Hk) as (e & t & q & He & H2 & Hs & Hw).
    eexists _, t, q. split. { cbn [sstep]. rewrite (get_row _ _ _ _ He). cbn [rbind]. rewrite Hs. done. }
    split; [done|]. split; [done|]. done.
  Qed.

  Lemma shared_mutate fl (g0 g : sgraph V) s k (f : V -> V) :
    fl <> Directed -> sstart fl g0 -> sreachable fl g0 g -> is_Some (row (sedges g) s !! k) ->
    exists g' v t q, sstep fl (SMutate s k f) g = Ok g' /\ sedges g' = sedges g /\ two_halves g s k t q
      /\ sweight g s k = Ok v /\ sweight g t q = Ok v
      /\ sweight g' s k = Ok (f v) /\ sweight g' t q = Ok (f v)
      /\ forall i m, (i, m) <> (s, k) -> (i, m) <> (t, q) -> sweight g' i m = sweight g i m.
  Proof.
    intros Hfl H0 Hr Hk. apply sreachable_ok in Hr; [|done|by apply sstart_ok]. destruct Hk as [e0 Hk].
    pose proof (sweight_readable fl g s k e0 Hr Hk) as Hlt. destruct (lookup_in_range _ _ Hlt) as [v Hv].
    destruct (shared_write fl g s k (f v) Hfl Hr) as (e & t & q & He & H2 & Hs & Hw); [by eexists|].
    assert (e0 = e) as -> by congruence.
    assert (Hget : rget (heap g) (wt e) = Ok v) by (unfold rget; by rewrite Hv).
    eexists _, v, t, q. split. { cbn [sstep]. rewrite (get_row _ _ _ _ He). cbn [rbind]. rewrite Hget. cbn [rbind]. rewrite Hs. done. }
    split; [done|]. split; [done|]. split; [by rewrite (sweight_row g s k e He)|]. split; [|done].
    destruct H2 as (_ & e1 & e' & He1 & He' & _ & _ & Hww). rewrite (sweight_row g t q e' He'). rewrite <- Hww.
    by assert (e1 = e) as -> by congruence.
  Qed.
End shared_top.

(** *** Construction *)

Section init_top.
  Context (W : Type) (Weq : EqDecision W).

  Lemma construct_accepts fl m (rows : graph W) :
    mode_ok m -> graph_ok fl rows ->
    exists g, construct fl m rows = Ok g /\ graph_ok fl g /\ same_edges g rows
      /\ (fl <> Undirected -> g = rows)
      /\ (fl = Undirected -> forall i a b x y, a < b -> row g i !! a = Some x -> row g i !! b = Some y -> tgt x <= tgt y).
  Proof.
    intros Hm Hok. destruct (construct_ok fl m rows Hm Hok) as (g & H1 & H2 & H3 & H4).
    exists g. split; [done|]. split; [done|]. split; [done|]. split; [by destruct fl|].
    intros ->. intros i a b x y Hab Hx Hy. destruct (H4 i) as [Hs _]. specialize (Hs a b x y Hab Hx Hy).
    unfold edge_lt in Hs. destruct m; try lia. destruct (Nat.eqb_spec (tgt y) (tgt x)); lia.
  Qed.

  Lemma construct_refuses fl m (rows : graph W) :
    mode_ok m -> ~ graph_ok fl rows -> exists z, construct fl m rows = Throw z.
  Proof. apply construct_throws. Qed.

  Lemma construct_shared_accepts fl m (rows : graph W) :
    fl <> Directed -> mode_ok m -> graph_ok fl rows ->
    exists g st, construct fl m rows = Ok g /\ construct_shared true fl m rows = Ok st /\ shows fl st g.
  Proof.
    intros Hfl Hm Hok. destruct fl; [done|..].
    - destruct (construct_shared_undirected m rows Hm Hok) as (g & st & ? & ? & ? & _). by exists g, st.
    - destruct (construct_shared_embedded m rows Hok) as (st & H1 & H2).
      destruct (construct_ok Embedded m rows Hm Hok) as (g & H3 & _ & _ & ->). by exists rows, st.
  Qed.

  Lemma construct_shared_refuses nrvo fl m (rows : graph W) :
    fl <> Directed -> mode_ok m -> ~ graph_ok fl rows -> exists z, construct_shared nrvo fl m rows = Throw z.
  Proof. apply construct_shared_throws. Qed.
End init_top.

Definition ex_rows : graph nat :=
  [[Edge 0 0 5; Edge 1 0 7; Edge 0 0 5; Edge 1 0 6]; [Edge 0 0 6; Edge 0 0 7]].

Lemma natlt_ok : mode_ok (Ordered Nat.ltb).
Proof.
  split; [|intros x y; rewrite !Nat.ltb_ge; lia]. split; intros *; rewrite ?Nat.ltb_ge, ?Nat.ltb_lt; try lia.
Qed.

Lemma ex_rows_ok : reciprocal ex_rows.
Proof.
  split; [|split].
  - intros i e He. destruct i as [|[|i]]; cbn in He; [| |by apply elem_of_nil in He];
      repeat (apply elem_of_cons in He as [->|He]; [cbn; lia|]); by apply elem_of_nil in He.
  - intros i j w. unfold count. destruct i as [|[|i]], j as [|[|j]]; cbn;
      repeat (case_decide || cbn); try done; try lia.
  - intros i w. unfold count. destruct i as [|[|i]]; cbn; repeat (case_decide; cbn); try (by exists 0); try (by exists 1); lia.
Qed.

Lemma shared_needs_nrvo : exists m (rows : graph nat),
  mode_ok m /\ reciprocal rows /\ construct_shared false Undirected m rows = UB.
Proof.
  exists (Ordered Nat.ltb), ex_rows. split; [apply natlt_ok|]. split; [apply ex_rows_ok|]. by vm_compute.
Qed.

Lemma embedded_not_shared : exists (rows : graph nat) st st' v,
  comp_ok rows /\ construct_shared true Embedded Unordered rows = Ok st
  /\ row rows 0 !! 0 = Some (Edge 1 0 7) /\ row rows 1 !! 0 = Some (Edge 0 0 7)
  /\ sstep Embedded (SSet 0 0 v) st = Ok st'
  /\ sweight st' 0 0 = Ok v /\ sweight st' 1 0 = Ok 7 /\ v <> 7.
Proof.
  exists [[Edge 1 0 7]; [Edge 0 0 7]]. eexists _, _, 9. split.
  - intros i k e He. destruct i as [|[|i]]; [| |done]; destruct k as [|k]; try done;
      injection He as <-; eexists; (split; [done|]); repeat (split; [done|]); done.
  - split; [vm_compute; reflexivity|]. split; [done|]. split; [done|]. split; [vm_compute; reflexivity|]. done.
Qed.

(** *** Examples *)

Ltac reach := first [apply reach_refl | eapply reach_step; [|done|vm_compute; reflexivity]].

Definition ex_undirected : graph nat :=
  [[Edge 1 0 7; Edge 1 0 7; Edge 0 0 5; Edge 0 0 5]; [Edge 0 0 7; Edge 0 0 7]].

Lemma reach_run fl (g : graph nat) o g' g'' :
  allowed fl g o -> step fl o g = Ok g' -> reachable fl g' g'' -> reachable fl g g''.
Proof.
  intros Ha Hs. induction 1 as [|g1 o1 g2 _ IH Ha1 Hs1]; [|by eapply reach_step].
  eapply reach_step; [apply reach_refl|done|done].
Qed.

Ltac run o := eapply (reach_run _ _ o); [|vm_compute; reflexivity|].

Lemma ex_undirected_ok :
  reachable Undirected [] ex_undirected
  /\ count ex_undirected 0 1 7 = 2 /\ count ex_undirected 1 0 7 = 2 /\ count ex_undirected 0 0 5 = 2.
Proof.
  split; [|by vm_compute].
  run (@AddNode nat); [done|]. run (@AddNode nat); [done|]. run (Join 0 1 7); [done|]. run (Join 0 1 7); [done|].
  run (Join 0 0 5); [done|]. run (@InsertNode nat 1); [done|]. run (Join 0 1 3); [done|]. run (@EraseNode nat 1); [done|].
  apply reach_refl.
Qed.

Definition ex_embedded : graph nat :=
  [[Edge 0 3 5; Edge 1 0 8; Edge 1 1 7; Edge 0 0 5]; [Edge 0 1 8; Edge 0 2 7]].

Lemma ex_embedded_ok :
  reachable Embedded [] ex_embedded
  /\ row ex_embedded 0 !! 1 = Some (Edge 1 0 8) /\ row ex_embedded 1 !! 0 = Some (Edge 0 1 8)
  /\ row ex_embedded 0 !! 2 = Some (Edge 1 1 7) /\ row ex_embedded 1 !! 1 = Some (Edge 0 2 7).
Proof.
  split; [|by vm_compute].
  run (@AddNode nat); [done|]. run (@AddNode nat); [done|]. run (Join 0 1 7); [done|].
  run (InsertJoin 0 0 1 0 8). { split; [done|]. split; split; vm_compute; lia. }
  run (InsertLoop 0 0 3 5). { split; [done|]. split; vm_compute; lia. }
  apply reach_refl.
Qed.

Lemma ex_history :
  history Undirected (WGraph [[]; []; []] [11; 30; 12] : wgraph nat nat) [1; 3; 2]
    (fun x => if decide (x = 3) then 30 else if decide (x = 1) then 11 else 12).
Proof.
  apply (hist_insert Undirected (WGraph [[]; []] [11; 12]) [1; 2] (fun x => if decide (x = 1) then 11 else 12) 1 30 3).
  - apply hist_start; [|by apply (bool_decide_unpack _); vm_compute|done].
    split; [|done]. eapply (reachable_ok nat _ Undirected []); [by apply empty_ok|].
    run (@AddNode nat); [done|]. run (@AddNode nat); [done|]. apply reach_refl.
  - apply (bool_decide_unpack _). by vm_compute.
  - by vm_compute.
Qed.

Lemma insert_join_weak : exists (g g' : graph nat) i1 k1 i2 k2 w,
  reachable Embedded [] g /\ iter_ok g i1 k1 /\ iter_ok g i2 k2
  /\ insert_join_f false true i1 k1 i2 k2 w g = Ok (Threw g') /\ g' <> g /\ ~ comp_ok g'.
Proof.
  exists [[Edge 1 0 7]; [Edge 0 0 7]]. eexists. exists 0, 0, 1, 0, 8.
  split. { run (@AddNode nat); [done|]. run (@AddNode nat); [done|]. run (Join 0 1 7); [done|]. apply reach_refl. }
  split; [split; vm_compute; lia|]. split; [split; vm_compute; lia|].
  split; [vm_compute; reflexivity|]. split; [done|]. intros H.
  destruct (H 1 0 (Edge 0 1 7)) as (e' & He' & _); [done|]. done.
Qed.

Lemma set_edge_weight_witness : exists (g g' : graph nat) s k w,
  reachable Undirected [] g /\ is_Some (row g s !! k)
  /\ set_edge_weight_f false true Undirected s k w g = Ok (Threw g') /\ g' <> g /\ ~ reciprocal g'.
Proof.
  exists [[Edge 1 0 7]; [Edge 0 0 7]]. eexists. exists 0, 0, 8.
  split. { run (@AddNode nat); [done|]. run (@AddNode nat); [done|]. run (Join 0 1 7); [done|]. apply reach_refl. }
  split; [by eexists|]. split; [vm_compute; reflexivity|]. split; [done|]. intros (_ & H & _).
  specialize (H 0 1 7). vm_compute in H. done.
Qed.

(** A counter that is put into the weight, and throws the second time. *)
Lemma mutate_edge_weight_weak : exists (f : nat -> nat -> option (nat * nat)) (g g' : graph nat) s k,
  reachable Undirected [] g /\ is_Some (row g s !! k)
  /\ mutate_edge_weight_f Undirected s k f 0 g = Ok (Threw g') /\ g' <> g /\ ~ reciprocal g'.
Proof.
  exists (fun st w => if st =? 0 then Some (1, S w) else None), [[Edge 1 0 7]; [Edge 0 0 7]]. eexists. exists 0, 0.
  split. { run (@AddNode nat); [done|]. run (@AddNode nat); [done|]. run (Join 0 1 7); [done|]. apply reach_refl. }
  split; [by eexists|]. split; [vm_compute; reflexivity|]. split; [done|]. intros (_ & H & _).
  specialize (H 0 1 7). vm_compute in H. done.
Qed.

Lemma mutate_with_state : exists (f : nat -> nat -> option (nat * nat)) (g g' : graph nat) s k,
  reachable Undirected [] g /\ is_Some (row g s !! k)
  /\ mutate_edge_weight_f Undirected s k f 0 g = Ok (Finished g') /\ ~ reciprocal g'.
Proof.
  exists (fun st w => Some (S st, st)), [[Edge 1 0 7]; [Edge 0 0 7]]. eexists. exists 0, 0.
  split. { run (@AddNode nat); [done|]. run (@AddNode nat); [done|]. run (Join 0 1 7); [done|]. apply reach_refl. }
  split; [by eexists|]. split; [vm_compute; reflexivity|]. intros (_ & H & _).
  specialize (H 0 1 0). vm_compute in H. done.
Qed.

Definition ex_shared : sgraph nat :=
  SGraph [[Edge 1 0 0; Edge 1 0 1]; [Edge 0 0 0; Edge 0 0 1]] [7; 7].

Lemma ex_shared_ok : sreachable Undirected (SGraph [] []) ex_shared /\ is_Some (row (sedges ex_shared) 0 !! 1).
Proof.
  split; [|by eexists].
  eapply (sreach_step _ _ (SGraph [[Edge 1 0 0]; [Edge 0 0 0]] [7]) (SJoin 0 1 7)); [|done|vm_compute; reflexivity].
  eapply (sreach_step _ _ (SGraph [[]; []] []) (SJoin 0 1 7)); [|done|vm_compute; reflexivity].
  eapply (sreach_step _ _ (SGraph [[]] []) (SPlain (@AddNode nat))); [|done|vm_compute; reflexivity].
  eapply (sreach_step _ _ (SGraph [] []) (SPlain (@AddNode nat))); [|done|vm_compute; reflexivity].
  apply sreach_refl.
Qed.
